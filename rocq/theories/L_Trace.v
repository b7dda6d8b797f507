From Verif Require Import Go L_List M_Strings L_Strings M_Types S_Trace M_Trace S_TraceView.
From Coq Require Import ZifyBool Sorted.
Open Scope Z_scope.
Open Scope list_scope.

Section Lemmas.
Context {arg world pc : Type}.
Variable Sprintf : world -> string -> list arg -> string.
Variable CallersFrames : list pc -> list rframe.
Notation env := (env arg world pc).
Notation coreTrace := (coreTrace arg pc).
Notation coreEvent := (coreEvent arg pc).
Notation history := (history arg env).
Notation do_call := (do_call Sprintf CallersFrames).
Notation run := (run Sprintf CallersFrames).
Notation EventsDetail := (EventsDetail Sprintf CallersFrames).
Notation Events := (Events Sprintf CallersFrames).
Notation snapshotEvent := (snapshotEvent Sprintf CallersFrames).
Notation snapshotEvents := (snapshotEvents Sprintf CallersFrames).
Notation rendered := (rendered Sprintf CallersFrames).
Notation reported_stack := (reported_stack CallersFrames).
Implicit Types (tr : coreTrace) (e : env) (h : history).

Lemma snapshotEvents_map w l s :
  snapshotEvents w l s = (map (fun c => fst (snapshotEvent w c s)) l, map (fun c => snd (snapshotEvent w c s)) l).
Proof.
  induction l as [|c l IH]; cbn [M_Trace.snapshotEvents map]; [reflexivity|].
  destruct (snapshotEvent w c s) as [c' ev]. rewrite IH. reflexivity.
Qed.

Lemma run_nil tr : run [] tr = tr. Proof. reflexivity. Qed.
Lemma run_cons c h tr : run (c :: h) tr = run h (do_call tr c). Proof. reflexivity. Qed.
Lemma run_app h1 h2 tr : run (h1 ++ h2) tr = run h2 (run h1 tr).
Proof. apply fold_left_app. Qed.

(** The number of leading events that an EventsDetail(n) call does not read. *)
Definition unread (n len : Z) : nat :=
  Z.to_nat (len - (if (n <=? 0) || (len <? n) then len else n)).

Lemma EventsDetail_eq e n s tr :
  EventsDetail e n s tr =
  (let k := unread n (zlen (ct_events tr)) in
   (MkCT (ct_source tr) (ct_id tr) (ct_category tr) (ct_start tr) (ct_errored tr) (ct_finished tr)
        (ct_duration tr) (ct_nostack tr)
        (firstn k (ct_events tr) ++ map (fun c => fst (snapshotEvent (e_world e) c s)) (skipn k (ct_events tr)))
        (ct_eventsmax tr) (ct_truncated tr),
    let evs := map (fun c => snd (snapshotEvent (e_world e) c s)) (skipn k (ct_events tr)) in
    if 0 <? ct_truncated tr then tl (evs ++ [truncated_event (e_now e) (ct_truncated tr)]) else evs)).
Proof. unfold M_Trace.EventsDetail. rewrite snapshotEvents_map. reflexivity. Qed.

(** Finished traces. *)
Lemma do_call_finished tr c : ct_finished tr = true -> ct_finished (do_call tr c) = true.
Proof.
  intros H. destruct c as [e [k f a| |n|n s]]; unfold M_Trace.do_call; cbn [snd fst].
  - destruct k; unfold log_call, Tracef, LazyTracef, Errorf, LazyErrorf; rewrite H; exact H.
  - unfold Finish. rewrite H. exact H.
  - exact H.
  - rewrite EventsDetail_eq. exact H.
Qed.

Lemma do_write_finished tr c : ct_finished tr = true -> is_write c = true -> do_call tr c = tr.
Proof.
  intros H. destruct c as [e [k f a| |n|n s]]; unfold is_write, M_Trace.do_call; cbn [snd fst]; try discriminate; intros _.
  - destruct k; unfold log_call, Tracef, LazyTracef, Errorf, LazyErrorf; rewrite H; reflexivity.
  - unfold Finish. rewrite H. reflexivity.
Qed.

Lemma run_write_finished h : forall tr,
  ct_finished tr = true -> Forall (fun c => is_write c = true) h -> run h tr = tr.
Proof.
  induction h as [|c h IH]; intros tr Hf Hw; [reflexivity|].
  inversion Hw; subst. rewrite run_cons, do_write_finished by assumption. apply IH; assumption.
Qed.

Lemma do_log_eq k e f a tr :
  log_call Sprintf k e f a tr =
  if ct_finished tr then tr
  else add_event Sprintf e (is_lazy_kind k) (is_error_kind k) f a
         (if is_error_kind k then mark_errored tr else tr).
Proof. destruct k; unfold log_call, Tracef, LazyTracef, Errorf, LazyErrorf; cbn; reflexivity. Qed.

(** How one call changes the [i]-th stored event. *)
Definition touch (c : env * call arg) (len : Z) (i : nat) (ce : coreEvent) : coreEvent :=
  match snd c with
  | CallEvents n s => if (unread n len <=? i)%nat then fst (snapshotEvent (e_world (fst c)) ce s) else ce
  | _ => ce
  end.

Lemma do_call_nth tr c i ce :
  nth_error (ct_events tr) i = Some ce ->
  nth_error (ct_events (do_call tr c)) i = Some (touch c (zlen (ct_events tr)) i ce).
Proof.
  intros H. assert (Hi : (i < length (ct_events tr))%nat) by (apply nth_error_Some; congruence).
  destruct c as [e [k f a| |n|n s]]; unfold M_Trace.do_call, touch; cbn [snd fst].
  - rewrite do_log_eq. destruct (ct_finished tr); [exact H|].
    unfold add_event. destruct (is_error_kind k); cbn [ct_events ct_eventsmax mark_errored];
    destruct (_ <=? _); cbn [ct_events]; try exact H; rewrite nth_error_app1; assumption.
  - unfold Finish. destruct (ct_finished tr); exact H.
  - exact H.
  - rewrite EventsDetail_eq. cbn [fst ct_events].
    set (k := unread n (zlen (ct_events tr))).
    assert (Hk : (k <= length (ct_events tr))%nat).
    { unfold k, unread, zlen. destruct (_ || _) eqn:E; lia. }
    destruct (Nat.leb_spec k i).
    + rewrite nth_error_app2; rewrite firstn_length, Nat.min_l by assumption; [|assumption].
      rewrite nth_error_map.
      replace (nth_error (skipn k (ct_events tr)) (i - k)) with (Some ce); [reflexivity|].
      rewrite nth_error_skipn_add. replace (k + (i - k))%nat with i by lia. symmetry. exact H.
    + rewrite nth_error_app1 by (rewrite firstn_length; lia).
      rewrite nth_error_firstn_lt by assumption. exact H.
Qed.

Definition log_stored tr (c : env * call arg) : bool :=
  match snd c with
  | CallLog _ _ _ => negb (ct_finished tr) && (zlen (ct_events tr) <? ct_eventsmax tr)
  | _ => false
  end.

Definition fresh_event tr (c : env * call arg) : list coreEvent :=
  match snd c with
  | CallLog k f a => if log_stored tr c then [newCoreEvent Sprintf (fst c) (is_lazy_kind k) (is_error_kind k) (ct_nostack tr) f a] else []
  | _ => []
  end.

Lemma do_call_len tr c :
  length (ct_events (do_call tr c)) = (length (ct_events tr) + if log_stored tr c then 1 else 0)%nat.
Proof.
  destruct c as [e [k f a| |n|n s]]; unfold M_Trace.do_call, log_stored; cbn [snd fst].
  - rewrite do_log_eq. destruct (ct_finished tr); cbn [negb andb]; [lia|].
    unfold add_event. destruct (is_error_kind k); cbn [ct_events ct_eventsmax mark_errored];
    destruct (Z.leb_spec (ct_eventsmax tr) (zlen (ct_events tr))); destruct (Z.ltb_spec (zlen (ct_events tr)) (ct_eventsmax tr)); try lia;
    cbn [ct_events]; rewrite ?app_length; cbn; lia.
  - unfold Finish. destruct (ct_finished tr); cbn; lia.
  - cbn. lia.
  - rewrite EventsDetail_eq. cbn [fst ct_events]. rewrite app_length, map_length, firstn_length, skipn_length. lia.
Qed.

Lemma do_log_nth_new tr e k f a :
  log_stored tr (e, CallLog k f a) = true ->
  nth_error (ct_events (do_call tr (e, CallLog k f a))) (length (ct_events tr)) =
  Some (newCoreEvent Sprintf e (is_lazy_kind k) (is_error_kind k) (ct_nostack tr) f a).
Proof.
  unfold log_stored, M_Trace.do_call; cbn [snd fst]. rewrite andb_true_iff, negb_true_iff, Z.ltb_lt.
  intros [Hf Hl]. rewrite do_log_eq, Hf. unfold add_event.
  destruct (is_error_kind k); cbn [ct_events ct_eventsmax ct_nostack mark_errored];
  (destruct (Z.leb_spec (ct_eventsmax tr) (zlen (ct_events tr))); [lia|]); cbn [ct_events];
  rewrite nth_error_app2, Nat.sub_diag by lia; reflexivity.
Qed.

(** Fields that calls leave alone. *)
Lemma do_call_const tr c :
  ct_source (do_call tr c) = ct_source tr /\ ct_id (do_call tr c) = ct_id tr /\
  ct_category (do_call tr c) = ct_category tr /\ ct_start (do_call tr c) = ct_start tr /\
  ct_nostack (do_call tr c) = ct_nostack tr.
Proof.
  destruct c as [e [k f a| |n|n s]]; unfold M_Trace.do_call; cbn [snd fst].
  - rewrite do_log_eq. destruct (ct_finished tr); [auto|]. unfold add_event.
    destruct (is_error_kind k); cbn [ct_events ct_eventsmax mark_errored]; destruct (_ <=? _); cbn; auto.
  - unfold Finish. destruct (ct_finished tr); cbn; auto.
  - cbn; auto.
  - rewrite EventsDetail_eq. cbn; auto.
Qed.

Lemma run_const h : forall tr,
  ct_source (run h tr) = ct_source tr /\ ct_id (run h tr) = ct_id tr /\
  ct_category (run h tr) = ct_category tr /\ ct_start (run h tr) = ct_start tr /\
  ct_nostack (run h tr) = ct_nostack tr.
Proof.
  induction h as [|c h IH]; intros tr; [auto|]. rewrite run_cons.
  destruct (IH (do_call tr c)) as (A & B & C & D & E), (do_call_const tr c) as (A' & B' & C' & D' & E').
  repeat split; congruence.
Qed.

Lemma do_call_err_fin tr c :
  ct_finished tr = false ->
  ct_errored (do_call tr c) = ct_errored tr || is_error_log c /\
  ct_finished (do_call tr c) = is_finish c.
Proof.
  intros Hf. destruct c as [e [k f a| |n|n s]]; unfold M_Trace.do_call, is_error_log, is_finish; cbn [snd fst].
  - rewrite do_log_eq, Hf. unfold add_event.
    destruct (is_error_kind k); cbn [ct_events ct_eventsmax mark_errored]; destruct (_ <=? _); cbn;
      rewrite ?orb_false_r, ?orb_true_r, ?Hf; auto.
  - unfold Finish. rewrite Hf. cbn. rewrite orb_false_r. auto.
  - cbn. rewrite orb_false_r. auto.
  - rewrite EventsDetail_eq. cbn. rewrite orb_false_r. auto.
Qed.

Lemma do_call_errored_fin tr c : ct_finished tr = true ->
  ct_errored (do_call tr c) = ct_errored tr /\ ct_duration (do_call tr c) = ct_duration tr /\
  ct_truncated (do_call tr c) = ct_truncated tr /\ length (ct_events (do_call tr c)) = length (ct_events tr).
Proof.
  intros Hf. destruct (is_write c) eqn:Ew.
  - rewrite do_write_finished by assumption. auto.
  - destruct c as [e [k f a| |n|n s]]; try discriminate; unfold M_Trace.do_call; cbn [snd fst]; [auto|].
    rewrite EventsDetail_eq. cbn [fst ct_errored ct_duration ct_truncated ct_events].
    rewrite app_length, map_length, <- app_length, firstn_skipn. auto.
Qed.

Lemma run_finished_fields h : forall tr, ct_finished tr = true ->
  ct_finished (run h tr) = true /\
  ct_errored (run h tr) = ct_errored tr /\ ct_duration (run h tr) = ct_duration tr /\
  ct_truncated (run h tr) = ct_truncated tr /\ length (ct_events (run h tr)) = length (ct_events tr).
Proof.
  induction h as [|c h IH]; intros tr Hf; [auto|]. rewrite run_cons.
  destruct (do_call_errored_fin tr c Hf) as (A & B & C & D).
  destruct (IH _ (do_call_finished tr c Hf)) as (A0 & A' & B' & C' & D'). repeat split; congruence.
Qed.

Lemma errored_spec_gen h : forall tr, ct_finished tr = false ->
  Errored (run h tr) = ct_errored tr || existsb is_error_log (before_finish h).
Proof.
  unfold Errored. induction h as [|c h IH]; intros tr Hf.
  - cbn. now rewrite orb_false_r.
  - rewrite run_cons. destruct (do_call_err_fin tr c Hf) as [He Hfin].
    cbn [before_finish]. destruct (is_finish c) eqn:Ef.
    + destruct (run_finished_fields h _ Hfin) as (_ & E & _). rewrite E, He. cbn [existsb].
      destruct c as [e []]; try discriminate; reflexivity.
    + rewrite (IH _ Hfin), He. cbn [existsb]. now rewrite orb_assoc.
Qed.

Lemma finished_spec_gen h : forall tr, ct_finished tr = false ->
  Finished (run h tr) = existsb is_finish h.
Proof.
  unfold Finished. induction h as [|c h IH]; intros tr Hf; [assumption|].
  rewrite run_cons. destruct (do_call_err_fin tr c Hf) as [He Hfin]. cbn [existsb].
  destruct (is_finish c) eqn:Ef.
  - apply (run_finished_fields h _ Hfin).
  - now rewrite (IH _ Hfin).
Qed.

Lemma existsb_finish_first h : existsb is_finish h = match first_finish h with Some _ => true | None => false end.
Proof. induction h as [|c h IH]; cbn; [reflexivity|]. destruct (is_finish c); [reflexivity|exact IH]. Qed.

Lemma duration_spec_gen h : forall tr now, ct_finished tr = false ->
  Duration now (run h tr) = match first_finish h with Some e => e_now e | None => now end - ct_start tr.
Proof.
  induction h as [|c h IH]; intros tr now Hf.
  - unfold Duration. cbn. rewrite Hf. reflexivity.
  - rewrite run_cons. destruct (do_call_err_fin tr c Hf) as [He Hfin].
    cbn [first_finish]. destruct (is_finish c) eqn:Ef.
    + unfold Duration. destruct (run_finished_fields h _ Hfin) as (A & _ & B & _). rewrite A, B.
      destruct c as [e []]; try discriminate. unfold M_Trace.do_call, Finish; cbn [snd fst]. rewrite Hf. reflexivity.
    + rewrite (IH _ now Hfin). destruct (do_call_const tr c) as (_ & _ & _ & D & _). rewrite D. reflexivity.
Qed.

(** C08 *)
Lemma snapshot_info w ce s : ev_info (fst (snapshotEvent w ce s)) = ev_info ce.
Proof.
  unfold M_Trace.snapshotEvent, getStack, stringer_String, ev_info.
  destruct s; [destruct (ce_pc ce), (ce_stack ce)|]; destruct (z_str (ce_what ce)) eqn:E; cbn; rewrite ?E; reflexivity.
Qed.

Lemma map_info_snapshot w s l :
  map ev_info (map (fun c => fst (snapshotEvent w c s)) l) = map ev_info l.
Proof. rewrite map_map. apply map_ext. intros; apply snapshot_info. Qed.

Lemma clamp_SetMax n tr : ct_eventsmax (SetMaxEvents n tr) = clamp n.
Proof.
  unfold SetMaxEvents, clamp, traceMaxEventsMin, traceMaxEventsMax; cbn [ct_eventsmax].
  destruct (Z.ltb_spec n 10), (Z.ltb_spec 10000 n); lia.
Qed.

Lemma stored_spec_gen h : forall tr, ct_finished tr = false ->
  map ev_info (ct_events (run h tr)) =
    map ev_info (ct_events tr) ++ map call_info (stored_from (ct_eventsmax tr) (zlen (ct_events tr)) (before_finish h)) /\
  ct_truncated (run h tr) + zlen (stored_from (ct_eventsmax tr) (zlen (ct_events tr)) (before_finish h))
    = ct_truncated tr + zlen (logs h).
Proof.
  induction h as [|c h IH]; intros tr Hf.
  - cbn. rewrite app_nil_r. split; reflexivity.
  - rewrite run_cons. destruct (do_call_err_fin tr c Hf) as [He Hfin].
    unfold logs. cbn [before_finish]. destruct (is_finish c) eqn:Ef.
    + cbn [filter stored_from map]. destruct c as [e []]; try discriminate.
      set (tr1 := do_call tr (e, CallFinish)) in *.
      assert (Hinfo : map ev_info (ct_events (run h tr1)) = map ev_info (ct_events tr1)).
      { clear -Hfin. revert Hfin. generalize tr1. clear. induction h as [|c h IH]; intros tr Hf; [reflexivity|].
        rewrite run_cons, IH by (apply do_call_finished; assumption).
        destruct (is_write c) eqn:Ew; [rewrite do_write_finished by assumption; reflexivity|].
        destruct c as [e [k f a| |n|n s]]; try discriminate; [reflexivity|].
        unfold M_Trace.do_call; cbn [snd fst]. rewrite EventsDetail_eq. cbn [fst ct_events].
        rewrite map_app, map_info_snapshot.
        rewrite <- map_app, firstn_skipn. reflexivity. }
      destruct (run_finished_fields h _ Hfin) as (_ & _ & _ & Ht & _).
      rewrite Hinfo, Ht. unfold tr1, M_Trace.do_call, Finish; cbn [snd fst]. rewrite Hf. cbn.
      rewrite app_nil_r. split; [reflexivity|]. unfold zlen. cbn. lia.
    + destruct (IH _ Hfin) as [I1 I2]. rewrite I1. unfold logs in I2.
      destruct c as [e [k f a| |n|n s]]; try discriminate; cbn [filter is_log snd stored_from].
      * (* log *)
        destruct (do_call_const tr (e, CallLog k f a)) as (_ & _ & _ & _ & Hns).
        set (tr1 := do_call tr (e, CallLog k f a)) in *.
        assert (Hm : ct_eventsmax tr1 = ct_eventsmax tr).
        { unfold tr1, M_Trace.do_call; cbn [snd fst]. rewrite do_log_eq, Hf. unfold add_event.
          destruct (is_error_kind k); cbn [ct_events ct_eventsmax mark_errored]; destruct (_ <=? _); reflexivity. }
        destruct (Z.ltb_spec (zlen (ct_events tr)) (ct_eventsmax tr)) as [Hlt|Hge].
        -- assert (Hev : ct_events tr1 = ct_events tr ++ [newCoreEvent Sprintf e (is_lazy_kind k) (is_error_kind k) (ct_nostack tr) f a]
                      /\ ct_truncated tr1 = ct_truncated tr).
           { unfold tr1, M_Trace.do_call; cbn [snd fst]. rewrite do_log_eq, Hf. unfold add_event.
             destruct (is_error_kind k); cbn [ct_events ct_eventsmax mark_errored];
             (destruct (Z.leb_spec (ct_eventsmax tr) (zlen (ct_events tr))); [lia|]); split; reflexivity. }
           destruct Hev as [Hev Ht]. rewrite Hev, Hm in *. rewrite Ht in I2.
           unfold zlen in I2 |- *. rewrite app_length in *. cbn [length] in *.
           replace (Z.of_nat (length (ct_events tr) + 1)) with (Z.of_nat (length (ct_events tr)) + 1) in * by lia.
           cbn [map length]. rewrite map_app, <- app_assoc. cbn [map app]. split.
           ++ f_equal. f_equal. unfold newCoreEvent, ev_info, call_info; cbn.
              destruct (is_lazy_kind k); reflexivity.
           ++ unfold zlen in I2. cbn [length]. lia.
        -- assert (Hev : ct_events tr1 = ct_events tr /\ ct_truncated tr1 = ct_truncated tr + 1).
           { unfold tr1, M_Trace.do_call; cbn [snd fst]. rewrite do_log_eq, Hf. unfold add_event.
             destruct (is_error_kind k); cbn [ct_events ct_eventsmax mark_errored];
             (destruct (Z.leb_spec (ct_eventsmax tr) (zlen (ct_events tr))); [|lia]); split; reflexivity. }
           destruct Hev as [Hev Ht]. rewrite Hev, Hm in *. rewrite Ht in I2. split; [reflexivity|].
           unfold zlen in *. cbn [length]. lia.
      * (* setmax *)
        unfold M_Trace.do_call in *; cbn [snd fst] in *. rewrite clamp_SetMax in *. split; [reflexivity|exact I2].
      * (* read *)
        unfold M_Trace.do_call in *; cbn [snd fst] in *. rewrite EventsDetail_eq in *.
        cbn [fst ct_events ct_eventsmax ct_truncated] in *.
        assert (Hlen : forall k, zlen (firstn k (ct_events tr) ++ map (fun c => fst (snapshotEvent (e_world e) c s)) (skipn k (ct_events tr))) = zlen (ct_events tr)).
        { intros k. unfold zlen. rewrite app_length, map_length, <- app_length, firstn_skipn. reflexivity. }
        rewrite Hlen in *. split; [|exact I2]. f_equal.
        rewrite map_app, map_info_snapshot.
        rewrite <- map_app, firstn_skipn. reflexivity.
Qed.

Lemma stored_from_nosetmax h : forall limit count,
  Forall (fun c => is_setmax c = false) h -> 0 <= count ->
  stored_from limit count h = firstn (Z.to_nat (limit - count)) (filter is_log h).
Proof.
  induction h as [|c h IH]; intros limit count Hn Hc; [now rewrite firstn_nil|].
  inversion Hn; subst. destruct c as [e [k f a| |n|n s]]; cbn [stored_from snd filter is_log]; try discriminate.
  - destruct (Z.ltb_spec count limit).
    + replace (Z.to_nat (limit - count)) with (S (Z.to_nat (limit - (count + 1)))) by lia.
      cbn [firstn]. f_equal. apply IH; [assumption|lia].
    + replace (Z.to_nat (limit - count)) with 0%nat by lia. rewrite (IH limit count) by assumption.
      replace (Z.to_nat (limit - count)) with 0%nat by lia. reflexivity.
  - apply IH; assumption.
  - apply IH; assumption.
Qed.

Lemma before_finish_Forall (P : env * call arg -> Prop) h : Forall P h -> Forall P (before_finish h).
Proof.
  induction h as [|c h IH]; intros H; cbn; [constructor|]. inversion H; subst.
  destruct (is_finish c); [constructor|]. constructor; auto.
Qed.

Lemma stored_first_M h tr :
  fresh tr -> Forall (fun c => is_setmax c = false) h ->
  map ev_info (ct_events (run h tr)) = map call_info (firstn (Z.to_nat (ct_eventsmax tr)) (logs h)) /\
  ct_truncated (run h tr) = zlen (skipn (Z.to_nat (ct_eventsmax tr)) (logs h)).
Proof.
  intros (Hf & _ & He & Ht) Hn. destruct (stored_spec_gen h tr Hf) as [H1 H2].
  rewrite He, Ht in *. cbn [map app] in H1. unfold zlen in H1, H2 at 1. cbn [length] in *.
  change (Z.of_nat 0) with 0 in *.
  rewrite (stored_from_nosetmax _ (ct_eventsmax tr) 0) in * by (try apply before_finish_Forall; assumption || lia).
  rewrite Z.sub_0_r in *. unfold logs in *. split; [exact H1|].
  unfold zlen in *. rewrite firstn_length in H2. rewrite skipn_length. lia.
Qed.

Lemma stored_with_setmax h tr :
  fresh tr ->
  map ev_info (ct_events (run h tr)) = map call_info (stored (ct_eventsmax tr) h) /\
  ct_truncated (run h tr) = zlen (logs h) - zlen (stored (ct_eventsmax tr) h).
Proof.
  intros (Hf & _ & He & Ht). destruct (stored_spec_gen h tr Hf) as [H1 H2].
  rewrite He, Ht in *. cbn [map app] in H1. unfold stored. unfold zlen in H1, H2 at 1. cbn [length] in *.
  change (Z.of_nat 0) with 0 in *. unfold zlen in *. cbn [length] in *. change (Z.of_nat 0) with 0 in *.
  split; [exact H1|]. lia.
Qed.

(** stored is an in-order subsequence of the event calls *)
Lemma stored_subseq h : forall limit count, subseq (stored_from limit count h) (filter is_log h).
Proof.
  induction h as [|c h IH]; intros limit count; [constructor|].
  destruct c as [e [k f a| |n|n s]]; cbn [stored_from snd filter is_log]; try apply IH.
  destruct (_ <? _); constructor; apply IH.
Qed.


(** Reading *)
Lemma shown_eq w ce s :
  snd (snapshotEvent w ce s) =
  MkEvent (ce_when ce)
          (match z_str (ce_what ce) with Some t => t | None => Sprintf w (z_fmt (ce_what ce)) (z_args (ce_what ce)) end)
          (if s then snd (getStack CallersFrames ce) else [])
          (ce_iserr ce).
Proof.
  unfold M_Trace.snapshotEvent, getStack, stringer_String.
  destruct s; [destruct (ce_pc ce), (ce_stack ce)|]; destruct (z_str (ce_what ce)) eqn:E; cbn; rewrite ?E; reflexivity.
Qed.

Definition stackview (ce : coreEvent) := snd (getStack CallersFrames ce).

(** Same event as far as later reads can tell, with a text that is fixed. *)
Definition settled (when : Z) (t : string) (st : list Frame) (iserr : bool) (ce : coreEvent) : Prop :=
  ce_when ce = when /\ z_str (ce_what ce) = Some t /\ stackview ce = st /\ ce_iserr ce = iserr.

Lemma stackview_fst_getStack ce : stackview (fst (getStack CallersFrames ce)) = stackview ce.
Proof.
  unfold stackview, getStack. destruct (ce_pc ce) as [|p ps] eqn:Ep; cbn [fst]; [rewrite Ep; reflexivity|].
  destruct (ce_stack ce) as [|x l] eqn:Es; cbn [fst snd ce_pc ce_stack].
  - destruct (getStack_loop (CallersFrames (p :: ps)) []) eqn:Eg; cbn [fst snd]; reflexivity || assumption.
  - rewrite Ep, Es. reflexivity.
Qed.

Lemma snapshot_after w ce s :
  settled (ce_when ce)
          (match z_str (ce_what ce) with Some t => t | None => Sprintf w (z_fmt (ce_what ce)) (z_args (ce_what ce)) end)
          (stackview ce) (ce_iserr ce) (fst (snapshotEvent w ce s)).
Proof.
  unfold settled, M_Trace.snapshotEvent.
  assert (H1 : forall c : coreEvent, ce_when (fst (getStack CallersFrames c)) = ce_when c /\ ce_what (fst (getStack CallersFrames c)) = ce_what c /\ ce_iserr (fst (getStack CallersFrames c)) = ce_iserr c).
  { intros c. unfold getStack. destruct (ce_pc c), (ce_stack c); cbn; auto. }
  assert (Hsv : forall (c : coreEvent) z, stackview (MkCE (ce_when c) z (ce_pc c) (ce_stack c) (ce_iserr c)) = stackview c).
  { intros c z. unfold stackview, getStack; cbn. destruct (ce_pc c), (ce_stack c); reflexivity. }
  destruct s.
  - pose proof (stackview_fst_getStack ce) as Hs. destruct (H1 ce) as (A & B & C).
    destruct (getStack CallersFrames ce) as [c' st]; cbn [fst snd] in *.
    unfold stringer_String. rewrite <- B.
    destruct (z_str (ce_what c')) eqn:E; cbn [fst ce_when ce_what ce_iserr z_str]; rewrite Hsv, ?E; auto.
  - unfold stringer_String.
    destruct (z_str (ce_what ce)) eqn:E; cbn [fst ce_when ce_what ce_iserr z_str]; rewrite Hsv, ?E; auto.
Qed.

Lemma touch_settled c len i ce when t st iserr :
  settled when t st iserr ce -> settled when t st iserr (touch c len i ce).
Proof.
  intros (A & B & C & D). unfold touch. destruct c as [e [k f a| |n|n s]]; cbn [snd]; try (repeat split; assumption).
  destruct (_ <=? _)%nat; [|repeat split; assumption].
  pose proof (snapshot_after (e_world (fst (e, CallEvents (arg:=arg) n s))) ce s) as (A' & B' & C' & D').
  rewrite B in B'. repeat split; congruence.
Qed.

Lemma run_settled h : forall tr i ce when t st iserr,
  nth_error (ct_events tr) i = Some ce -> settled when t st iserr ce ->
  exists ce', nth_error (ct_events (run h tr)) i = Some ce' /\ settled when t st iserr ce'.
Proof.
  induction h as [|c h IH]; intros tr i ce when t st iserr Hn Hs; [eauto|].
  rewrite run_cons. eapply IH; [apply do_call_nth; eassumption|]. apply touch_settled. assumption.
Qed.

Lemma shown_settled w ce s when t st iserr :
  settled when t st iserr ce -> snd (snapshotEvent w ce s) = MkEvent when t (if s then st else []) iserr.
Proof. intros (A & B & C & D). rewrite shown_eq, B. unfold stackview in C. rewrite C. congruence. Qed.

(** Reads are stable after Finish. *)
Lemma reads_stable_after_finish e1 e2 h tr :
  ct_finished tr = true ->
  let '(tr1, ev1) := Events e1 tr in
  let '(_, ev2) := Events e2 (run h tr1) in
  map (fun ev => (What ev, Stack ev, IsError ev)) ev1 = map (fun ev => (What ev, Stack ev, IsError ev)) ev2 /\
  (ct_truncated tr = 0 -> ev1 = ev2).
Proof.
  intros Hf. unfold M_Trace.Events.
  destruct (EventsDetail e1 (-1) true tr) as [tr1 ev1] eqn:E1.
  destruct (EventsDetail e2 (-1) true (run h tr1)) as [tr2 ev2] eqn:E2.
  assert (Hk : forall t : coreTrace, unread (-1) (zlen (ct_events t)) = 0%nat) by (intros t; unfold unread; cbn; lia).
  rewrite EventsDetail_eq in E1, E2. rewrite Hk in E1, E2. cbn [firstn skipn app] in E1, E2.
  cbn zeta in E1, E2. injection E1 as Htr1 Hev1. injection E2 as _ Hev2.
  assert (Hf1 : ct_finished tr1 = true) by (rewrite <- Htr1; exact Hf).
  destruct (run_finished_fields h tr1 Hf1) as (_ & _ & _ & Ht & Hlen).
  assert (Ht1 : ct_truncated tr1 = ct_truncated tr) by (rewrite <- Htr1; reflexivity).
  assert (Hevs1 : ct_events tr1 = map (fun c => fst (snapshotEvent (e_world e1) c true)) (ct_events tr)) by (rewrite <- Htr1; reflexivity).
  set (l1 := map (fun c => snd (snapshotEvent (e_world e1) c true)) (ct_events tr)) in *.
  set (l2 := map (fun c => snd (snapshotEvent (e_world e2) c true)) (ct_events (run h tr1))) in *.
  assert (Hl : l1 = l2).
  { apply list_eq_nth_error. intros i. unfold l1, l2. rewrite !nth_error_map.
    destruct (nth_error (ct_events tr) i) as [ce|] eqn:En; cbn [option_map].
    - assert (En1 : nth_error (ct_events tr1) i = Some (fst (snapshotEvent (e_world e1) ce true))).
      { rewrite Hevs1, nth_error_map, En. reflexivity. }
      destruct (run_settled h tr1 i _ _ _ _ _ En1 (snapshot_after (e_world e1) ce true)) as (ce' & En2 & Hs).
      rewrite En2. cbn [option_map]. rewrite (shown_settled _ _ _ _ _ _ _ Hs), shown_eq. reflexivity.
    - apply nth_error_None in En.
      assert (Hn : (length (ct_events (run h tr1)) <= i)%nat) by (rewrite Hlen, Hevs1, map_length; exact En).
      apply nth_error_None in Hn. rewrite Hn. reflexivity. }
  rewrite Ht, Ht1 in Hev2. rewrite <- Hl in Hev2. split.
  - rewrite <- Hev1, <- Hev2. destruct (0 <? ct_truncated tr); [|reflexivity].
    destruct l1; cbn [app tl]; [reflexivity|]. rewrite !map_app. reflexivity.
  - intros H0. rewrite H0 in *. cbn in Hev1, Hev2. congruence.
Qed.

(** C10 *)
Definition times (h : history) : list Z := map (fun c => e_now (fst c)) h.

Lemma first_finish_In h e : first_finish h = Some e -> In (e_now e) (times h).
Proof.
  induction h as [|c h IH]; cbn; [discriminate|]. destruct (is_finish c); [intros [= <-]; left; reflexivity|].
  intros H. right. apply IH. exact H.
Qed.

Lemma first_finish_app h1 h2 : first_finish (h1 ++ h2) =
  match first_finish h1 with Some e => Some e | None => first_finish h2 end.
Proof. induction h1 as [|c h IH]; cbn; [reflexivity|]. destruct (is_finish c); [reflexivity|exact IH]. Qed.

Lemma StronglySorted_app_inv {A} (R : A -> A -> Prop) l1 l2 :
  Sorted.StronglySorted R (l1 ++ l2) ->
  Sorted.StronglySorted R l1 /\ Sorted.StronglySorted R l2 /\ (forall x y, In x l1 -> In y l2 -> R x y).
Proof.
  induction l1 as [|a l1 IH]; cbn; intros H.
  - split; [constructor|]. split; [assumption|]. intros x y [].
  - apply Sorted.StronglySorted_inv in H as [H Ha]. destruct (IH H) as (H1 & H2 & H3).
    rewrite Forall_app in Ha. destruct Ha as [Ha1 Ha2].
    split; [constructor; assumption|]. split; [assumption|].
    intros x y [<-|Hx] Hy; [eapply Forall_forall in Ha2; eassumption|auto].
Qed.

Lemma durations_monotone tr h1 now1 h2 now2 :
  ct_finished tr = false ->
  Sorted.StronglySorted Z.le ([ct_start tr] ++ times h1 ++ [now1] ++ times h2 ++ [now2]) ->
  0 <= Duration now1 (run h1 tr) <= Duration now2 (run (h1 ++ h2) tr).
Proof.
  intros Hf Hs.
  apply StronglySorted_app_inv in Hs as (_ & Hs & H0).
  apply StronglySorted_app_inv in Hs as (_ & Hs & H1).
  apply StronglySorted_app_inv in Hs as (_ & Hs & H2).
  rewrite !duration_spec_gen by assumption. rewrite first_finish_app.
  assert (A : forall x, In x (times h1 ++ [now1] ++ times h2 ++ [now2]) -> ct_start tr <= x) by (intros x Hx; apply H0; [left; reflexivity|assumption]).
  destruct (first_finish h1) as [e|] eqn:E1.
  - specialize (A (e_now e) ltac:(apply in_or_app; left; apply first_finish_In; assumption)). lia.
  - assert (A1 := A now1 ltac:(apply in_or_app; right; left; reflexivity)).
    destruct (first_finish h2) as [e2|] eqn:E2.
    + specialize (H2 now1 (e_now e2) (or_introl eq_refl) ltac:(apply in_or_app; left; apply first_finish_In; assumption)). lia.
    + specialize (H2 now1 now2 (or_introl eq_refl) ltac:(apply in_or_app; right; left; reflexivity)). lia.
Qed.

(** C11 *)
Lemma includes_unread n len i : 0 <= len -> (unread n len <=? i)%nat = includes n len i.
Proof.
  intros H. unfold unread, includes. destruct (n <=? 0) eqn:E1, (len <? n) eqn:E2; cbn [orb]; lia.
Qed.

Lemma read_position e n s tr i ce :
  nth_error (ct_events tr) i = Some ce ->
  forall p, position n (zlen (ct_events tr)) (ct_truncated tr) i = Some p ->
  nth_error (snd (EventsDetail e n s tr)) p = Some (snd (snapshotEvent (e_world e) ce s)).
Proof.
  intros Hn p Hp. rewrite EventsDetail_eq. cbn zeta. cbn [snd].
  set (len := zlen (ct_events tr)) in *.
  assert (Hlen : 0 <= len) by (unfold len, zlen; lia).
  unfold position in Hp. set (first := if (n <=? 0) || (len <? n) then 0 else len - n) in *.
  assert (Hk : unread n len = Z.to_nat first /\ 0 <= first).
  { unfold unread, first. destruct ((n <=? 0) || (len <? n)) eqn:E; [lia|]. apply orb_false_iff in E. lia. }
  destruct Hk as [Hk Hpos]. rewrite Hk.
  assert (Hev : nth_error (map (fun c => snd (snapshotEvent (e_world e) c s)) (skipn (Z.to_nat first) (ct_events tr))) (i - Z.to_nat first)
                = Some (snd (snapshotEvent (e_world e) ce s)) \/ (i < Z.to_nat first)%nat).
  { destruct (Nat.lt_ge_cases i (Z.to_nat first)); [right; assumption|left].
    rewrite nth_error_map, nth_error_skipn_add. replace (Z.to_nat first + (i - Z.to_nat first))%nat with i by lia.
    rewrite Hn. reflexivity. }
  set (evs := map _ (skipn (Z.to_nat first) (ct_events tr))) in *.
  destruct (0 <? ct_truncated tr) eqn:Et.
  - destruct ((first + 1 <=? Z.of_nat i) && (Z.of_nat i <? len)) eqn:Eb; [|discriminate]. injection Hp as <-.
    destruct Hev as [Hev|]; [|lia].
    assert (Hi : (i - Z.to_nat first < length evs)%nat) by (apply nth_error_Some; congruence).
    destruct evs as [|x evs]; [cbn in Hi; lia|]. cbn [app tl].
    replace (i - Z.to_nat first)%nat with (S (i - Z.to_nat (first + 1))) in * by lia.
    cbn [nth_error length] in *. rewrite nth_error_app1 by lia. exact Hev.
  - destruct ((first <=? Z.of_nat i) && (Z.of_nat i <? len)) eqn:Eb; [|discriminate]. injection Hp as <-.
    destruct Hev as [Hev|]; [exact Hev|lia].
Qed.

Lemma new_event_settled e k f a nostack :
  is_lazy_kind k = false ->
  settled (e_now e) (Sprintf (e_world e) f a) (stackview (newCoreEvent Sprintf e (is_lazy_kind k) (is_error_kind k) nostack f a)) (is_error_kind k)
          (newCoreEvent Sprintf e (is_lazy_kind k) (is_error_kind k) nostack f a).
Proof. intros ->. repeat split. Qed.

Lemma eager_text tr0 h1 e k f a h2 er n s p :
  is_lazy_kind k = false ->
  ct_finished (run h1 tr0) = false -> zlen (ct_events (run h1 tr0)) < ct_eventsmax (run h1 tr0) ->
  let i := length (ct_events (run h1 tr0)) in
  let tr := run (h1 ++ (e, CallLog k f a) :: h2) tr0 in
  position n (zlen (ct_events tr)) (ct_truncated tr) i = Some p ->
  exists ev, nth_error (snd (EventsDetail er n s tr)) p = Some ev /\
             What ev = Sprintf (e_world e) f a /\ When ev = e_now e /\ IsError ev = is_error_kind k.
Proof.
  intros Hk Hf Hl i tr Hp. unfold tr in *. rewrite run_app, run_cons in *.
  assert (Hst : log_stored (run h1 tr0) (e, CallLog k f a) = true).
  { unfold log_stored; cbn [snd]. rewrite Hf. cbn [negb andb]. apply Z.ltb_lt. exact Hl. }
  pose proof (do_log_nth_new _ e k f a Hst) as Hn.
  destruct (run_settled h2 _ _ _ _ _ _ _ Hn (new_event_settled e k f a _ Hk)) as (ce & Hce & Hs).
  rewrite (read_position er n s _ i ce Hce p Hp). eexists. split; [reflexivity|].
  rewrite (shown_settled _ _ _ _ _ _ _ Hs). auto.
Qed.

Lemma run_untouched h2 : forall tr i ce,
  nth_error (ct_events tr) i = Some ce ->
  (forall ha er n s hb, h2 = ha ++ (er, CallEvents n s) :: hb ->
     includes n (zlen (ct_events (run ha tr))) i = false) ->
  nth_error (ct_events (run h2 tr)) i = Some ce.
Proof.
  induction h2 as [|c h2 IH]; intros tr i ce Hn H; [exact Hn|].
  rewrite run_cons. apply IH.
  - rewrite (do_call_nth _ c _ _ Hn). f_equal. unfold touch. destruct c as [e [k f a| |n|n s]]; try reflexivity.
    cbn [snd fst]. specialize (H [] e n s h2 eq_refl). cbn in H. rewrite includes_unread by (unfold zlen; lia).
    rewrite H. reflexivity.
  - intros ha er n s hb ->. apply (H (c :: ha) er n s hb). reflexivity.
Qed.

Lemma lazy_text tr0 h1 e k f a h2 er n s h3 er' n' s' :
  is_lazy_kind k = true ->
  ct_finished (run h1 tr0) = false -> zlen (ct_events (run h1 tr0)) < ct_eventsmax (run h1 tr0) ->
  let i := length (ct_events (run h1 tr0)) in
  let tr := run (h1 ++ (e, CallLog k f a) :: h2) tr0 in
  (* no read in h2 looks at the event, the next one does *)
  (forall ha e0 n0 s0 hb, h2 = ha ++ (e0, CallEvents n0 s0) :: hb ->
     includes n0 (zlen (ct_events (run (h1 ++ (e, CallLog k f a) :: ha) tr0))) i = false) ->
  includes n (zlen (ct_events tr)) i = true ->
  let tr' := run h3 (fst (EventsDetail er n s tr)) in
  (forall p, position n (zlen (ct_events tr)) (ct_truncated tr) i = Some p ->
     exists ev, nth_error (snd (EventsDetail er n s tr)) p = Some ev /\ What ev = Sprintf (e_world er) f a) /\
  (forall p, position n' (zlen (ct_events tr')) (ct_truncated tr') i = Some p ->
     exists ev, nth_error (snd (EventsDetail er' n' s' tr')) p = Some ev /\ What ev = Sprintf (e_world er) f a).
Proof.
  intros Hk Hf Hl i tr Hun Hinc tr'.
  assert (Hst : log_stored (run h1 tr0) (e, CallLog k f a) = true).
  { unfold log_stored; cbn [snd]. rewrite Hf. cbn [negb andb]. apply Z.ltb_lt. exact Hl. }
  pose proof (do_log_nth_new _ e k f a Hst) as Hn.
  assert (Hce : nth_error (ct_events tr) i = Some (newCoreEvent Sprintf e (is_lazy_kind k) (is_error_kind k) (ct_nostack (run h1 tr0)) f a)).
  { unfold tr. rewrite run_app, run_cons. apply run_untouched; [exact Hn|].
    intros ha e0 n0 s0 hb Heq. specialize (Hun ha e0 n0 s0 hb Heq).
    rewrite run_app, run_cons in Hun. exact Hun. }
  set (ce := newCoreEvent _ _ _ _ _ _ _) in *.
  assert (Htx : match z_str (ce_what ce) with Some t => t | None => Sprintf (e_world er) (z_fmt (ce_what ce)) (z_args (ce_what ce)) end
                = Sprintf (e_world er) f a).
  { unfold ce, newCoreEvent. rewrite Hk. reflexivity. }
  split.
  - intros p Hp. rewrite (read_position er n s _ i ce Hce p Hp). eexists; split; [reflexivity|].
    rewrite shown_eq. cbn [What]. exact Htx.
  - intros p Hp. unfold tr' in *.
    assert (Hn1 : nth_error (ct_events (fst (EventsDetail er n s tr))) i = Some (fst (snapshotEvent (e_world er) ce s))).
    { pose proof (do_call_nth tr (er, CallEvents n s) i ce Hce) as H. unfold M_Trace.do_call in H; cbn [snd fst] in H.
      rewrite H. f_equal. unfold touch; cbn [snd fst]. rewrite includes_unread, Hinc by (unfold zlen; lia). reflexivity. }
    pose proof (snapshot_after (e_world er) ce s) as Hset. rewrite Htx in Hset.
    destruct (run_settled h3 _ _ _ _ _ _ _ Hn1 Hset) as (ce' & Hce' & Hs').
    rewrite (read_position er' n' s' _ i ce' Hce' p Hp). eexists; split; [reflexivity|].
    rewrite (shown_settled _ _ _ _ _ _ _ Hs'). reflexivity.
Qed.

(** C09 *)
Lemma run_noread_events h : forall tr,
  ct_finished tr = false -> Forall (fun c => is_setmax c = false) h -> Forall (fun c => is_read c = false) h ->
  ct_events (run h tr) = ct_events tr ++
    map (fun c => match snd c with
                  | CallLog k f a => newCoreEvent Sprintf (fst c) (is_lazy_kind k) (is_error_kind k) (ct_nostack tr) f a
                  | _ => newCoreEvent Sprintf (fst c) false false false EmptyString []
                  end) (firstn (Z.to_nat (ct_eventsmax tr - zlen (ct_events tr))) (logs h)).
Proof.
  induction h as [|c h IH]; intros tr Hf Hm Hr.
  - cbn. rewrite firstn_nil. cbn. now rewrite app_nil_r.
  - inversion Hm; inversion Hr; subst. rewrite run_cons.
    destruct (do_call_err_fin tr c Hf) as [He Hfin]. unfold logs. cbn [before_finish].
    destruct c as [e [k f a| |n|n s]]; try discriminate; try contradiction; cbn [is_finish snd filter is_log] in *.
    + rewrite IH by assumption.
      destruct (do_call_const tr (e, CallLog k f a)) as (_ & _ & _ & _ & Hns). rewrite Hns.
      set (tr1 := do_call tr (e, CallLog k f a)) in *.
      assert (Hmx : ct_eventsmax tr1 = ct_eventsmax tr).
      { unfold tr1, M_Trace.do_call; cbn [snd fst]. rewrite do_log_eq, Hf. unfold add_event.
        destruct (is_error_kind k); cbn [ct_events ct_eventsmax mark_errored]; destruct (_ <=? _); reflexivity. }
      rewrite Hmx.
      destruct (Z.ltb_spec (zlen (ct_events tr)) (ct_eventsmax tr)) as [Hlt|Hge].
      * assert (Hev : ct_events tr1 = ct_events tr ++ [newCoreEvent Sprintf e (is_lazy_kind k) (is_error_kind k) (ct_nostack tr) f a]).
        { unfold tr1, M_Trace.do_call; cbn [snd fst]. rewrite do_log_eq, Hf. unfold add_event.
          destruct (is_error_kind k); cbn [ct_events ct_eventsmax mark_errored];
          (destruct (Z.leb_spec (ct_eventsmax tr) (zlen (ct_events tr))); [lia|]); reflexivity. }
        rewrite Hev. unfold zlen in *. rewrite app_length. cbn [length].
        replace (Z.to_nat (ct_eventsmax tr - Z.of_nat (length (ct_events tr))))
          with (S (Z.to_nat (ct_eventsmax tr - Z.of_nat (length (ct_events tr) + 1)))) by lia.
        cbn [firstn map snd fst]. rewrite <- app_assoc. reflexivity.
      * assert (Hev : ct_events tr1 = ct_events tr).
        { unfold tr1, M_Trace.do_call; cbn [snd fst]. rewrite do_log_eq, Hf. unfold add_event.
          destruct (is_error_kind k); cbn [ct_events ct_eventsmax mark_errored];
          (destruct (Z.leb_spec (ct_eventsmax tr) (zlen (ct_events tr))); [|lia]); reflexivity. }
        rewrite Hev. replace (Z.to_nat (ct_eventsmax tr - zlen (ct_events tr))) with 0%nat by lia. reflexivity.
    + cbn [firstn]. rewrite firstn_nil. cbn [map]. rewrite app_nil_r.
      assert (Hev : forall hh t, ct_finished t = true -> Forall (fun c : env * call arg => is_read c = false) hh ->
                 Forall (fun c => is_setmax c = false) hh -> run hh t = t).
      { intros hh t Ht Hrr Hmm. apply run_write_finished; [assumption|].
        rewrite Forall_forall in *. intros c Hc. specialize (Hrr c Hc). specialize (Hmm c Hc).
        destruct c as [? []]; try reflexivity; try contradiction; discriminate. }
      rewrite Hev by assumption. unfold M_Trace.do_call, Finish; cbn [snd]. rewrite Hf. reflexivity.
Qed.

Lemma Events_eq e tr :
  snd (Events e tr) =
  (let evs := map (fun c => snd (snapshotEvent (e_world e) c true)) (ct_events tr) in
    if 0 <? ct_truncated tr then tl (evs ++ [truncated_event (e_now e) (ct_truncated tr)]) else evs).
Proof.
  unfold M_Trace.Events. rewrite EventsDetail_eq. cbn zeta.
  replace (unread (-1) (zlen (ct_events tr))) with 0%nat by (unfold unread; cbn; lia). reflexivity.
Qed.

Lemma getStack_loop_eq frames acc :
  getStack_loop frames acc = acc ++ map (fun fr => MkFrame (rf_Function fr) (rf_File fr ++ ":" ++ itoa (rf_Line fr))%string)
     (filter (fun fr => negb (ignoreStackFrameFunction (rf_Function fr))) (removelast frames)).
Proof.
  revert acc; induction frames as [|fr rest IH]; intros acc; [cbn; now rewrite app_nil_r|].
  destruct rest as [|fr2 rest]; [cbn; now rewrite app_nil_r|].
  etransitivity; [exact (IH _)|].
  change (removelast (fr :: fr2 :: rest)) with (fr :: removelast (fr2 :: rest)).
  cbn [filter]. destruct (negb _); cbn [map]; [rewrite <- app_assoc|]; reflexivity.
Qed.

Lemma stackview_new e lazy iserr nostack f a :
  stackview (newCoreEvent Sprintf e lazy iserr nostack f a) = reported_stack nostack (e_pcs e).
Proof.
  unfold stackview, S_TraceView.reported_stack, getStack, newCoreEvent. cbn [ce_pc ce_stack].
  destruct nostack; [reflexivity|]. destruct (firstn 8 (e_pcs e)); [reflexivity|].
  cbn [firstn snd]. rewrite getStack_loop_eq. reflexivity.
Qed.

Lemma logs_are_logs h : Forall (fun c => is_log c = true) (logs h).
Proof. unfold logs. apply Forall_forall. intros c Hc. apply filter_In in Hc. apply Hc. Qed.

Lemma Forall_firstn {A} (P : A -> Prop) n l : Forall P l -> Forall P (firstn n l).
Proof.
  revert n; induction l as [|x l IH]; intros n H; [rewrite firstn_nil; constructor|].
  destruct n; [constructor|]. inversion H; subst. constructor; auto.
Qed.

Lemma events_of_history tr h e :
  fresh tr -> 1 <= ct_eventsmax tr ->
  Forall (fun c => is_setmax c = false) h -> Forall (fun c => is_read c = false) h ->
  let M := Z.to_nat (ct_eventsmax tr) in
  let shown := map (rendered e (ct_nostack tr)) (firstn M (logs h)) in
  snd (Events e (run h tr)) =
  if (length (logs h) <=? M)%nat then shown
  else tl shown ++ [truncated_event (e_now e) (zlen (logs h) - ct_eventsmax tr)].
Proof.
  intros Hfr HM Hm Hr M shown. pose proof Hfr as (Hf & _ & He & Ht).
  destruct (stored_first_M h tr Hfr Hm) as [_ Htr].
  rewrite Events_eq. cbn zeta. rewrite Htr. rewrite (run_noread_events h tr Hf Hm Hr), He.
  cbn [app]. change (zlen []) with 0. rewrite Z.sub_0_r. rewrite map_map. fold M.
  assert (Hshown : map (fun c => snd (snapshotEvent (e_world e)
            (match snd c with
             | CallLog k f a => newCoreEvent Sprintf (fst c) (is_lazy_kind k) (is_error_kind k) (ct_nostack tr) f a
             | _ => newCoreEvent Sprintf (fst c) false false false EmptyString []
             end) true)) (firstn M (logs h)) = shown).
  { unfold shown. apply map_ext_in. intros c Hc.
    pose proof (Forall_firstn _ M _ (logs_are_logs h)) as Hlog. rewrite Forall_forall in Hlog. specialize (Hlog c Hc).
    destruct c as [e0 [k f a| | |]]; try discriminate. cbn [snd fst]. rewrite shown_eq.
    fold (stackview (newCoreEvent Sprintf e0 (is_lazy_kind k) (is_error_kind k) (ct_nostack tr) f a)).
    rewrite stackview_new. unfold S_TraceView.rendered; cbn [snd fst].
    unfold newCoreEvent; cbn [ce_when ce_what ce_iserr]. destruct (is_lazy_kind k); reflexivity. }
  rewrite Hshown.
  unfold zlen. rewrite skipn_length.
  destruct (Nat.leb_spec (length (logs h)) M) as [Hle|Hgt].
  - replace (Z.of_nat (length (logs h) - M)) with 0 by lia. reflexivity.
  - destruct (Z.ltb_spec 0 (Z.of_nat (length (logs h) - M))); [|lia].
    replace (Z.of_nat (length (logs h)) - ct_eventsmax tr) with (Z.of_nat (length (logs h) - M)) by (unfold M; lia).
    destruct shown as [|x l] eqn:Es; [|reflexivity].
    exfalso. apply (f_equal (@length _)) in Es. unfold shown in Es. rewrite map_length, firstn_length in Es. cbn in Es. unfold M in *. lia.
Qed.


(** C14 *)
Lemma touch_stackview c len i ce : stackview (touch c len i ce) = stackview ce.
Proof.
  unfold touch. destruct c as [e [k f a| |n|n s]]; cbn [snd]; try reflexivity.
  destruct (_ <=? _)%nat; [|reflexivity]. apply (snapshot_after (e_world e) ce s).
Qed.

Lemma run_stackview h : forall tr i ce,
  nth_error (ct_events tr) i = Some ce ->
  exists ce', nth_error (ct_events (run h tr)) i = Some ce' /\ stackview ce' = stackview ce.
Proof.
  induction h as [|c h IH]; intros tr i ce Hn; [eauto|].
  rewrite run_cons. destruct (IH _ _ _ (do_call_nth _ c _ _ Hn)) as (ce' & H1 & H2).
  exists ce'. split; [assumption|]. rewrite H2. apply touch_stackview.
Qed.

Lemma event_stack tr0 h1 e k f a h2 er n s p :
  ct_finished (run h1 tr0) = false -> zlen (ct_events (run h1 tr0)) < ct_eventsmax (run h1 tr0) ->
  let i := length (ct_events (run h1 tr0)) in
  let tr := run (h1 ++ (e, CallLog k f a) :: h2) tr0 in
  position n (zlen (ct_events tr)) (ct_truncated tr) i = Some p ->
  exists ev, nth_error (snd (EventsDetail er n s tr)) p = Some ev /\
             Stack ev = if s then reported_stack (ct_nostack tr0) (e_pcs e) else [].
Proof.
  intros Hf Hl i tr Hp. unfold tr in *. rewrite run_app, run_cons in *.
  assert (Hst : log_stored (run h1 tr0) (e, CallLog k f a) = true).
  { unfold log_stored; cbn [snd]. rewrite Hf. cbn [negb andb]. apply Z.ltb_lt. exact Hl. }
  pose proof (do_log_nth_new _ e k f a Hst) as Hn.
  destruct (run_stackview h2 _ _ _ Hn) as (ce & Hce & Hs).
  rewrite (read_position er n s _ i ce Hce p Hp). eexists. split; [reflexivity|].
  rewrite shown_eq. cbn [Stack]. fold (stackview ce). rewrite Hs, stackview_new.
  destruct (run_const h1 tr0) as (_ & _ & _ & _ & ->). reflexivity.
Qed.

End Lemmas.

Lemma ignore_iff f : ignoreStackFrameFunction f = true <-> own_frame f.
Proof.
  unfold ignoreStackFrameFunction, own_frame, HasPrefix.
  destruct (String.prefix "github.com/peterbourgon/trc" f) eqn:E0; cbn [negb].
  - apply prefix_iff in E0.
    destruct (HasSuffix f "Tracef") eqn:E1; cbn [orb]; [apply HasSuffix_iff in E1; intuition|].
    destruct (HasSuffix f "Errorf") eqn:E2; [apply HasSuffix_iff in E2; intuition|].
    destruct (String.prefix "github.com/peterbourgon/trc.Region" f) eqn:E3; [apply prefix_iff in E3; intuition|].
    destruct (String.prefix "github.com/peterbourgon/trc/eztrc." f) eqn:E4; [apply prefix_iff in E4; intuition|].
    split; [discriminate|]. intros [_ [H|[H|[H|H]]]].
    + apply HasSuffix_iff in H. congruence.
    + apply HasSuffix_iff in H. congruence.
    + apply prefix_iff in H. congruence.
    + apply prefix_iff in H. congruence.
  - split; [discriminate|]. intros [H _]. apply prefix_iff in H. congruence.
Qed.

(** C13 *)
Section Proc.
Context {arg pc : Type}.
Notation coreTrace := (coreTrace arg pc).


Variable now : nat -> Z.
Variable ids : nat -> string.
Variable pooled : nat -> coreTrace.
Notation proc_step := (proc_step now ids pooled).
Notation proc_run := (proc_run now ids pooled).

Lemma update_map {A B} (f : A -> B) i x l : map f (update i x l) = update i (f x) (map f l).
Proof. revert i; induction l as [|y l IH]; intros [|i]; cbn; congruence || (f_equal; auto). Qed.

Lemma update_split {A} i (x y : A) l :
  nth_error l i = Some y -> firstn i l ++ x :: skipn (S i) l = update i x l.
Proof.
  revert i; induction l as [|z l IH]; intros [|i] H; try discriminate; cbn; [reflexivity|].
  f_equal. apply (IH i). exact H.
Qed.

Lemma update_none {A} i (x : A) l : nth_error l i = None -> update i x l = l.
Proof.
  revert i; induction l as [|z l IH]; intros [|i] H; try discriminate; cbn; [reflexivity|reflexivity|].
  f_equal. apply IH. exact H.
Qed.

Lemma SetTraceMaxEvents_clamp g n : g_maxEvents (SetTraceMaxEvents g n) = clamp n.
Proof.
  unfold SetTraceMaxEvents, clamp, traceMaxEventsMin, traceMaxEventsMax; cbn [g_maxEvents].
  destruct (Z.ltb_spec n 10); [cbn; lia|]. destruct (Z.ltb_spec 10000 n); lia.
Qed.

Definition plimits (p : proc arg pc) : Z * list Z := (g_maxEvents (p_globals p), map ct_eventsmax (p_traces p)).

Lemma proc_step_limits p o : plimits (proc_step p o) =
  match o with
    | PSetTraceMaxEvents n => (clamp n, snd (plimits p))
    | PNew _ _ => (fst (plimits p), snd (plimits p) ++ [fst (plimits p)])
    | PSetMaxEvents i n => (fst (plimits p), update i (clamp n) (snd (plimits p)))
  end.
Proof.
  unfold plimits. destruct o as [n|src cat|i n]; unfold M_Trace.proc_step, set_trace_max, new_trace, set_max; cbn [fst snd].
  - cbn [p_globals p_traces]. rewrite SetTraceMaxEvents_clamp. reflexivity.
  - cbn [p_globals p_traces]. rewrite map_app. reflexivity.
  - destruct (nth_error (p_traces p) i) as [tr|] eqn:E; cbn [p_globals p_traces].
    + rewrite (update_split i _ _ _ E), update_map, clamp_SetMax. reflexivity.
    + rewrite update_none; [reflexivity|]. rewrite nth_error_map, E. reflexivity.
Qed.

Lemma proc_limits ops : plimits (proc_run ops) = limits ops.
Proof.
  unfold M_Trace.proc_run, limits.
  change (1000, @nil Z) with (plimits (initial_proc (arg:=arg) (pc:=pc))).
  generalize (initial_proc (arg:=arg) (pc:=pc)) as p. induction ops as [|o ops IH]; intros p; [reflexivity|].
  cbn [fold_left]. rewrite IH. f_equal. apply proc_step_limits.
Qed.

Lemma proc_step_frame p o j tr :
  nth_error (p_traces p) j = Some tr ->
  (forall n, o <> PSetMaxEvents j n) ->
  nth_error (p_traces (proc_step p o)) j = Some tr.
Proof.
  intros Hj Ho. assert (Hlt : (j < length (p_traces p))%nat) by (apply nth_error_Some; congruence).
  destruct o as [n|src cat|i n]; unfold M_Trace.proc_step, set_trace_max, new_trace, set_max.
  - exact Hj.
  - cbn [p_traces]. rewrite nth_error_app1; assumption.
  - destruct (nth_error (p_traces p) i) as [tr'|] eqn:E; [|exact Hj]. cbn [p_traces].
    rewrite (update_split i _ _ _ E). assert (Hij : i <> j) by (intros ->; exact (Ho n eq_refl)).
    clear -Hj Hij. revert i j Hj Hij. induction (p_traces p) as [|x l IH]; intros i j Hj Hij; [destruct j; discriminate|].
    destruct i, j; cbn in *; try congruence. apply IH; [assumption|congruence].
Qed.
End Proc.

(** C06, C09, C15: further facts *)
Section More.
Context {arg world pc : Type}.
Variable Sprintf : world -> string -> list arg -> string.
Variable CallersFrames : list pc -> list rframe.
Notation env := (env arg world pc).
Notation coreTrace := (coreTrace arg pc).
Notation history := (history arg env).
Notation run := (run Sprintf CallersFrames).
Notation Events := (Events Sprintf CallersFrames).

Lemma fresh_new g now id (pooled : coreTrace) source category : fresh (newCoreTrace g now id pooled source category).
Proof. repeat split. Qed.

Lemma stored_from_le_logs (h : history) : forall limit count, zlen (stored_from limit count h) <= zlen (filter is_log h).
Proof.
  unfold zlen. induction h as [|c h IH]; intros limit count; [cbn; lia|].
  cbn [stored_from filter]. destruct c as [e [k f a| |n|n s]]; cbn [snd is_log]; try apply IH.
  destruct (_ <? _); cbn [length].
  - specialize (IH limit (count + 1)). lia.
  - specialize (IH limit count). lia.
Qed.

(** the first event call is always stored if the limits are positive *)
Lemma stored_from_nonempty (h : history) : forall limit,
  1 <= limit -> filter is_log h <> [] -> stored_from limit 0 h <> [].
Proof.
  induction h as [|c h IH]; intros limit Hl Hne; [exact Hne|].
  cbn [stored_from filter] in *. destruct c as [e [k f a| |n|n s]]; cbn [snd is_log] in *; try (apply IH; assumption).
  - destruct (Z.ltb_spec 0 limit); [discriminate|lia].
  - apply IH; [unfold clamp; lia|assumption].
Qed.

Lemma events_any_history tr (h : history) e :
  fresh tr -> 1 <= ct_eventsmax tr ->
  let S := stored (ct_eventsmax tr) h in
  let T := zlen (logs h) - zlen S in
  let summary (ev : Event) := (When ev, IsError ev) in
  let summary_call (c : env * call arg) := (e_now (fst c), is_error_log c) in
  exists real,
    snd (Events e (run h tr)) = (real ++ if 0 <? T then [truncated_event (e_now e) T] else [])%list /\
    map summary real = map summary_call (if 0 <? T then tl S else S).
Proof.
  intros Hfr HM S T summary summary_call.
  destruct (stored_with_setmax Sprintf CallersFrames h tr Hfr) as [H1 H2]. fold S in H1, H2.
  rewrite Events_eq. cbn zeta. rewrite H2. fold T.
  set (sh := map (fun c => snd (snapshotEvent Sprintf CallersFrames (e_world e) c true)) (ct_events (run h tr))).
  assert (Hsum : map summary sh = map summary_call S).
  { unfold sh. rewrite map_map.
    transitivity (map (fun x : Z * string * list arg * bool => let '(w, _, _, b) := x in (w, b)) (map ev_info (ct_events (run h tr)))).
    - rewrite map_map. apply map_ext. intros ce. rewrite shown_eq. reflexivity.
    - rewrite H1, map_map. apply map_ext_in. intros c Hc.
      assert (Hl : is_log c = true).
      { pose proof (stored_subseq (before_finish h) (ct_eventsmax tr) 0) as Hsub.
        assert (Hin : forall (l l' : history), subseq l l' -> forall x, In x l -> In x l').
        { clear. intros l l' Hs. induction Hs; intros y Hy; [exact Hy| |right; auto].
          destruct Hy; [left; assumption|right; auto]. }
        apply (Hin _ _ Hsub) in Hc. apply filter_In in Hc. apply Hc. }
      destruct c as [e0 [k f a| | |]]; try discriminate. reflexivity. }
  destruct (Z.ltb_spec 0 T).
  - assert (Hne : sh <> []).
    { intros Hn. rewrite Hn in Hsum. cbn in Hsum. symmetry in Hsum. apply map_eq_nil in Hsum.
      revert Hsum. unfold S, stored. apply stored_from_nonempty; [assumption|].
      intros Hn2. unfold T, logs in *. rewrite Hn2 in *. unfold zlen in *. cbn in *. lia. }
    destruct sh as [|x l]; [contradiction|]. exists l. split; [reflexivity|].
    destruct S; [discriminate|]. cbn in Hsum |- *. congruence.
  - exists sh. rewrite app_nil_r. auto.
Qed.

Lemma run_pools (h h' : history) : 
  Forall2 (fun c c' => snd c = snd c' /\ e_now (fst c) = e_now (fst c') /\
                         e_world (fst c) = e_world (fst c') /\ e_pcs (fst c) = e_pcs (fst c')) h h' ->
  forall tr, run h tr = run h' tr.
Proof.
  induction 1 as [|[e c] [e' c'] h h' (Hc & Hn & Hw & Hp) _ IH]; intros tr; [reflexivity|].
  cbn [fst snd] in *. subst c'. rewrite !run_cons.
  replace (do_call Sprintf CallersFrames tr (e', c)) with (do_call Sprintf CallersFrames tr (e, c)); [apply IH|].
  destruct c as [k f a| |n|n s]; unfold do_call; cbn [fst snd].
  - rewrite !do_log_eq. destruct (ct_finished tr); [reflexivity|]. unfold add_event, newCoreEvent, newNormalStringer, newLazyStringer.
    rewrite Hn, Hw, Hp. destruct (is_lazy_kind k); reflexivity.
  - rewrite Hn. reflexivity.
  - reflexivity.
  - unfold EventsDetail. rewrite Hn, Hw. reflexivity.
Qed.
End More.

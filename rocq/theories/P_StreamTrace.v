(** C38, C40: what a subscriber sees of a trace used by one goroutine. *)
From Verif Require Import Go L_List M_Strings M_Types M_Filter S_Filter L_Filter S_Trace M_Trace S_TraceView L_Trace M_RingBuf M_RingBufs S_Collector M_Text M_Broker S_Broker L_Broker P_Broker M_Decor S_Decor L_Decor P_Context P_Search P_Filter P_Decor M_Fmt S_Stream.
From Coq Require Import ZifyBool.
Open Scope string_scope.
Open Scope list_scope.
Open Scope Z_scope.

Section Stream.
Context {arg world pc RE : Type}.
Variable Sprintf : world -> string -> list arg -> string.
Variable CallersFrames : list pc -> list rframe.
Variable Compile : string -> RE + string.
Variable MatchString : RE -> string -> bool.
Variable str : string -> arg.
Variable caps : string -> Z.
Notation env := (env arg world pc).
Notation coreTrace := (coreTrace arg pc).
Notation coreEvent := (coreEvent arg pc).
Notation trace := (trace arg).
Notation sys := (sys arg pc RE).
Notation denv := (denv arg world pc).
Notation ucall := (ucall arg world pc RE).
Notation publish := (publish Sprintf CallersFrames Compile MatchString caps).
Notation t_log := (t_log Sprintf CallersFrames Compile MatchString caps).
Notation t_Finish := (t_Finish Sprintf CallersFrames Compile MatchString str caps).
Notation t_do := (t_do Sprintf CallersFrames Compile MatchString str caps).
Notation t_run := (t_run Sprintf CallersFrames Compile MatchString str caps).
Notation EventsDetail := (EventsDetail Sprintf CallersFrames).
Notation snapshotEvent := (snapshotEvent Sprintf CallersFrames).
Notation log_call := (log_call Sprintf).
Notation b_run := (b_run Compile MatchString caps).
Notation logged := (logged Sprintf).
Notation streamed1 := (streamed1 Sprintf).
Notation streamed := (streamed Sprintf).
Notation wanted := (wanted Compile MatchString).
Notation matches := (matches Compile MatchString).

(** ** The broker's side *)
Lemma subs_not_empty ch h : Forall valid_bop h -> subscription ch h <> None -> (zlen (b_subs (b_run h)) <=? 0) = false.
Proof.
  intros Hv H. pose proof (sub_ok_after Compile MatchString caps ch h Hv) as K. unfold sub_ok in K. rewrite fst_view in K.
  destruct (subscription ch h); [|contradiction]. destruct (b_subs (b_run h)) as [|x l]; [cbn in K; contradiction|].
  unfold zlen. cbn [length]. lia.
Qed.
Lemma subscription_snoc ch (h : list (bop RE)) o : subscription ch (h ++ [o]) = sub_after ch (subscription ch h) o.
Proof. unfold subscription. rewrite fold_left_app. reflexivity. Qed.
Lemma published_app (h h' : list (bop RE)) : published (h ++ h') = published h ++ published h'.
Proof. unfold published. apply flat_map_app. Qed.

Lemma zlen_app {A} (a b : list A) : zlen (a ++ b) = zlen a + zlen b.
Proof. unfold zlen. rewrite app_length. lia. Qed.
Lemma skipn_app_exact {A} (a b : list A) : skipn (length a) (a ++ b) = b.
Proof. rewrite skipn_app, skipn_all, Nat.sub_diag. reflexivity. Qed.
Lemma firstn_app_exact {A} (a b : list A) : firstn (length a) (a ++ b) = a.
Proof. rewrite firstn_app, firstn_all, Nat.sub_diag, app_nil_r. reflexivity. Qed.

(** The snapshot a publish takes of a core trace. *)
Definition snap (d : denv) (c : coreTrace) : coreTrace * StaticTrace :=
  let '(c', evs) := EventsDetail (d_env d) (if negb (ct_finished c) then 1 else -1) false c in
  let duration := Duration (e_now (d_later d)) c' in
  (c', MkStatic (ct_source c') (ct_id c') (ct_category c') (ct_start c') duration (DurationString duration) (ct_finished c') (ct_errored c') evs).

Lemma publish_core d i s : (i < length (s_cores s))%nat -> (zlen (b_subs (b_run (s_broker s))) <=? 0) = false ->
  publish d (TCore i) s =
  Ok (MkSys (update i (fst (snap d (core_at s i))) (s_cores s))
            (s_broker s ++ [BPublish (d_order d) (Ok (snd (snap d (core_at s i))))]) (s_out s)).
Proof.
  intros Hi Hs. unfold M_Decor.publish. rewrite Hs. cbn [NewStreamTrace]. unfold snap, Finished.
  destruct (EventsDetail _ _ _ _) as [c' evs]. cbn [bind]. rewrite core_at_set_same by exact Hi. reflexivity.
Qed.

(** One call on a trace with one publish decorator directly on the core trace. *)
Definition published_call (t : trace) (s s' : sys) (d : denv) (c1 : coreTrace) : Prop :=
  core_at s' (t_core t) = fst (snap d c1) /\ length (s_cores s') = length (s_cores s) /\
  s_broker s' = s_broker s ++ [BPublish (d_order d) (Ok (snd (snap d c1)))].

Lemma publish_after i s c1 d : (i < length (s_cores s))%nat -> (zlen (b_subs (b_run (s_broker s))) <=? 0) = false ->
  exists s', publish d (TCore i) (set_core s i c1) = Ok s' /\
    core_at s' i = fst (snap d c1) /\ length (s_cores s') = length (s_cores s) /\
    s_broker s' = s_broker s ++ [BPublish (d_order d) (Ok (snd (snap d c1)))].
Proof.
  intros Hi Hs. eexists. split; [apply publish_core; [cbn; rewrite update_length; exact Hi|exact Hs]|].
  rewrite core_at_set_same by exact Hi. split; [|split].
  - unfold core_at. cbn [s_cores]. rewrite nth_update by (cbn; rewrite update_length; exact Hi). rewrite Nat.eqb_refl. reflexivity.
  - cbn [s_cores set_core]. rewrite !update_length. reflexivity.
  - reflexivity.
Qed.

Lemma t_log_published t : published_once t = true -> forall k f a es s, exists_ s t -> (zlen (b_subs (b_run (s_broker s))) <=? 0) = false ->
  exists s', t_log t k f a es s = Ok s' /\
    published_call t s s' (publishing t es) (log_call k (d_env (es (depth t))) (prefix_format t ++ f)%string (prefix_args t ++ a) (core_at s (t_core t))).
Proof.
  unfold published_call. induction t as [i|t IH|t IH id dst|t IH pf pa]; cbn [published_once]; intros Hp k f a es s H Hs; [discriminate| | |].
  - destruct t as [i| | |]; try discriminate. cbn [M_Decor.t_log bind]. apply publish_after; assumption.
  - destruct (IH Hp k f a (inner_envs es) (logEvent Sprintf id dst (if is_error_kind k then "ERROR: " ++ f else f)%string a (es O) s)) as (s' & E & K); [exact H|exact Hs|].
    exists s'. split; [exact E|]. destruct t; [discriminate| | |]; exact K.
  - destruct (IH Hp k (pf ++ f)%string (pa ++ a) (inner_envs es) s H Hs) as (s' & E & K).
    exists s'. split; [exact E|]. cbn [prefix_format prefix_args]. rewrite append_assoc, <- app_assoc. destruct t; [discriminate| | |]; exact K.
Qed.
Lemma t_Finish_published t : published_once t = true -> forall es s, exists_ s t -> (zlen (b_subs (b_run (s_broker s))) <=? 0) = false ->
  exists s', t_Finish t es s = Ok s' /\
    published_call t s s' (publishing t es) (Finish (e_now (d_env (es (depth t)))) (core_at s (t_core t))).
Proof.
  unfold published_call. induction t as [i|t IH|t IH id dst|t IH pf pa]; cbn [published_once]; intros Hp es s H Hs; [discriminate| | |].
  - destruct t as [i| | |]; try discriminate. cbn [M_Decor.t_Finish bind]. apply publish_after; assumption.
  - destruct (IH Hp (inner_envs es) s H Hs) as (s' & E & K). cbn [M_Decor.t_Finish]. rewrite E. cbn [bind]. eexists. split; [reflexivity|].
    destruct t; [discriminate| | |]; exact K.
  - destruct (IH Hp (inner_envs es) s H Hs) as (s' & E & K). exists s'. split; [exact E|]. destruct t; [discriminate| | |]; exact K.
Qed.

(** ** The trace's side *)
Definition shows (ev : Event) (ce : coreEvent) : Prop :=
  ce_when ce = When ev /\ z_str (ce_what ce) = Some (What ev) /\ ce_iserr ce = IsError ev /\ Stack ev = [].
Lemma shows_snapshot w b ev ce : shows ev ce -> shows ev (fst (snapshotEvent w ce b)) /\ snd (snapshotEvent w ce false) = ev.
Proof.
  intros (H1 & H2 & H3 & H4). split.
  - unfold M_Trace.snapshotEvent, getStack, stringer_String. destruct ev as [w' t' st' e']. cbn in *. subst.
    destruct b; [destruct (ce_pc ce), (ce_stack ce)|]; cbn; rewrite ?H2; unfold shows; cbn; repeat split; auto.
  - rewrite shown_eq, H2. destruct ev; cbn in *. congruence.
Qed.
Lemma shows_new k f a ec (w' : world) ns :
  let ev := MkEvent (e_now ec) (Sprintf (if is_lazy_kind k then w' else e_world ec) f a) [] (is_error_kind k) in
  let ce := newCoreEvent Sprintf ec (is_lazy_kind k) (is_error_kind k) ns f a in
  shows ev (fst (snapshotEvent w' ce false)) /\ snd (snapshotEvent w' ce false) = ev.
Proof.
  cbn zeta. split.
  - unfold M_Trace.snapshotEvent, newCoreEvent, stringer_String, shows. destruct (is_lazy_kind k); cbn; repeat split.
  - rewrite shown_eq. unfold newCoreEvent. destruct (is_lazy_kind k); reflexivity.
Qed.

(** The core trace is in the state the specification says. *)
Definition represents (i : identity) (p : progress) (c : coreTrace) : Prop :=
  ct_source c = i_source i /\ ct_id c = i_id i /\ ct_category c = i_category i /\ ct_start c = i_start i /\
  ct_eventsmax c = i_limit i /\ 1 <= i_limit i /\ ct_errored c = pr_errored p /\
  (match pr_finished p with Some at_ => ct_finished c = true /\ ct_duration c = at_ - i_start i | None => ct_finished c = false end) /\
  Forall2 shows (pr_kept p) (ct_events c) /\ 0 <= pr_count p /\
  zlen (pr_kept p) = Z.min (pr_count p) (i_limit i) /\ ct_truncated c = pr_count p - Z.min (pr_count p) (i_limit i).

Lemma forall2_len {A B} (R : A -> B -> Prop) l l' : Forall2 R l l' -> zlen l = zlen l'.
Proof. unfold zlen. induction 1; cbn [length]; [reflexivity|]. lia. Qed.

Lemma shows_map w b l l' : Forall2 shows l l' -> Forall2 shows l (map (fun ce => fst (snapshotEvent w ce b)) l') /\ map (fun ce => snd (snapshotEvent w ce false)) l' = l.
Proof.
  induction 1 as [|ev ce l l' H Hs IH]; [split; [constructor|reflexivity]|]. destruct (shows_snapshot w b ev ce H) as [K1 K2]. destruct IH as [I1 I2].
  cbn [map]. split; [constructor; assumption|congruence].
Qed.
Lemma forall2_app_inv_len {A B} (R : A -> B -> Prop) l l' k : Forall2 R l l' -> Forall2 R (firstn k l) (firstn k l') /\ Forall2 R (skipn k l) (skipn k l').
Proof.
  intros H. revert k. induction H as [|x y l l' Hx H IH]; intros [|k]; cbn; try (split; constructor; auto; fail).
  destruct (IH k) as [I1 I2]. split; [constructor; assumption|assumption].
Qed.

Lemma represents_read i p c e n b : represents i p c -> represents i p (fst (EventsDetail e n b c)).
Proof.
  intros (H1 & H2 & H3 & H4 & H5 & H6 & H7 & H8 & H9 & H10 & H11 & H12). rewrite EventsDetail_eq. cbn [fst].
  unfold represents. cbn. repeat (split; [assumption|]). split; [|auto].
  set (k := unread n (zlen (ct_events c))). destruct (forall2_app_inv_len _ _ _ k H9) as [F1 F2].
  rewrite <- (firstn_skipn k (pr_kept p)). apply Forall2_app; [exact F1|]. apply shows_map. exact F2.
Qed.

Lemma snap_finished i p c d at_ : represents i p c -> pr_finished p = Some at_ ->
  represents i p (fst (snap d c)) /\ snd (snap d c) = finished_view i d p at_.
Proof.
  intros H E. pose proof (represents_read i p c (d_env d) (-1) false H) as Hr.
  destruct H as (H1 & H2 & H3 & H4 & H5 & H6 & H7 & H8 & H9 & H10 & H11 & H12). rewrite E in H8. destruct H8 as [H8 H8d].
  unfold snap. rewrite H8. cbn [negb]. rewrite EventsDetail_eq in *. cbn [fst] in Hr. cbn [fst snd]. split; [exact Hr|].
  unfold finished_view, Duration. cbn [ct_source ct_id ct_category ct_start ct_errored ct_finished ct_duration ct_nostack ct_events ct_eventsmax ct_truncated]. rewrite H1, H2, H3, H4, H7, H8, H8d. f_equal.
  unfold complete. replace (unread (-1) (zlen (ct_events c))) with O by (unfold unread; cbn; lia). cbn [skipn].
  destruct (shows_map (e_world (d_env d)) false _ _ H9) as [_ K]. rewrite K. rewrite H12.
  destruct (pr_count p <=? i_limit i) eqn:L.
  - replace (0 <? _) with false by lia. reflexivity.
  - replace (0 <? _) with true by lia. replace (Z.min (pr_count p) (i_limit i)) with (i_limit i) by lia.
    destruct (pr_kept p) as [|x l]; [cbn in H11; lia|]. reflexivity.
Qed.

Lemma unread_one (l : list coreEvent) ce : unread 1 (zlen (l ++ [ce])) = length l.
Proof. unfold unread. rewrite zlen_app. unfold zlen. cbn [length]. replace (_ || _) with false by lia. lia. Qed.

(** An event call on a trace that is not finished, and the snapshot after it. *)
Lemma snap_logged i p c d k ec f a : represents i p c -> pr_finished p = None ->
  let room := pr_count p <? i_limit i in
  let ev := MkEvent (e_now ec) (Sprintf (if is_lazy_kind k then e_world (d_env d) else e_world ec) f a) [] (is_error_kind k) in
  let p' := MkProgress (pr_count p + 1) (if room then pr_kept p ++ [ev] else pr_kept p) (pr_errored p || is_error_kind k) None in
  let c1 := log_call k ec f a c in
  represents i p' (fst (snap d c1)) /\
  snd (snap d c1) = active_view i d p' [if room then ev else truncated_event (e_now (d_env d)) (pr_count p' - i_limit i)].
Proof.
  intros H E room ev p' c1. destruct H as (H1 & H2 & H3 & H4 & H5 & H6 & H7 & H8 & H9 & H10 & H11 & H12). rewrite E in H8.
  set (ce := newCoreEvent Sprintf ec (is_lazy_kind k) (is_error_kind k) (ct_nostack c) f a).
  destruct (shows_new k f a ec (e_world (d_env d)) (ct_nostack c)) as [N1 N2]. fold ev ce in N1, N2.
  assert (Ec : c1 = if room
    then MkCT (ct_source c) (ct_id c) (ct_category c) (ct_start c) (ct_errored c || is_error_kind k) false (ct_duration c) (ct_nostack c) (ct_events c ++ [ce]) (ct_eventsmax c) (ct_truncated c)
    else MkCT (ct_source c) (ct_id c) (ct_category c) (ct_start c) (ct_errored c || is_error_kind k) false (ct_duration c) (ct_nostack c) (ct_events c) (ct_eventsmax c) (ct_truncated c + 1)).
  { assert (Er : (ct_eventsmax c <=? zlen (ct_events c)) = negb room).
    { rewrite <- (forall2_len _ _ _ H9), H11, H5. unfold room. lia. }
    unfold c1, ce. destruct k; cbn [M_Trace.log_call]; unfold Tracef, LazyTracef, Errorf, LazyErrorf; rewrite H8; unfold add_event, mark_errored; cbn;
      rewrite Er, ?orb_false_r, ?orb_true_r, ?H8; destruct room; reflexivity. }
  unfold snap. rewrite Ec. destruct room eqn:Er; unfold room in Er; cbn [ct_finished negb]; rewrite EventsDetail_eq; cbn [fst snd ct_events ct_truncated].
  - rewrite unread_one, skipn_app_exact, firstn_app_exact. cbn [map]. rewrite N2.
    replace (0 <? ct_truncated c) with false by lia. split; [|unfold active_view, Duration; cbn; rewrite H1, H2, H3, H4, H7; reflexivity].
    unfold represents. cbn. repeat (split; [assumption|]). split; [rewrite H7; reflexivity|]. split; [reflexivity|].
    split; [apply Forall2_app; [exact H9|constructor; [exact N1|constructor]]|]. rewrite zlen_app. unfold zlen at 2. cbn [length]. lia.
  - replace (0 <? ct_truncated c + 1) with true by lia.
    assert (Hn : exists l x, pr_kept p = l ++ [x]).
    { destruct (pr_kept p) as [|y l'] using rev_ind; [cbn in H11; lia|eauto]. }
    destruct Hn as (l & x & El). rewrite El in H9. apply Forall2_app_inv_l in H9 as (l1 & l2 & F1 & F2 & Ee).
    inversion F2 as [|? cx ? l3 Hx F3]; subst. inversion F3; subst. rewrite Ee, unread_one, skipn_app_exact, firstn_app_exact.
    destruct (shows_snapshot (e_world (d_env d)) false x cx Hx) as [X1 X2]. cbn [map]. rewrite X2. cbn [app tl].
    replace (ct_truncated c + 1) with (pr_count p' - i_limit i) by (cbn; lia).
    split; [|unfold active_view, Duration; cbn; rewrite H1, H2, H3, H4, H7; reflexivity].
    unfold represents. cbn. repeat (split; [assumption|]). split; [rewrite H7; reflexivity|]. split; [reflexivity|].
    rewrite El. split; [apply Forall2_app; [exact F1|constructor; [exact X1|constructor]]|]. rewrite <- El. lia.
Qed.
(** ** Runs *)
Lemma wanted_from_app ch h h' : forall cur, wanted_from Compile MatchString ch cur (h ++ h') =
  wanted_from Compile MatchString ch cur h ++ wanted_from Compile MatchString ch (fold_left (sub_after ch) h cur) h'.
Proof. induction h as [|o h IH]; intros cur; [reflexivity|]. cbn [app wanted_from fold_left]. rewrite IH, app_assoc. reflexivity. Qed.

Definition follows (ch : string) (f : Filter RE) (t : trace) (i : identity) (s : sys) (p : progress) (out : list StaticTrace) (s' : sys) : Prop :=
  exists_ s' t /\ represents i p (core_at s' (t_core t)) /\ Forall valid_bop (s_broker s') /\ subscription ch (s_broker s') = Some f /\
  published (s_broker s') = published (s_broker s) ++ out /\
  wanted ch (s_broker s') = wanted ch (s_broker s) ++ filter (matches f) out.

Lemma broker_snoc ch f (s s' : sys) o : Forall valid_bop (s_broker s) -> subscription ch (s_broker s) = Some f -> s_broker s' = s_broker s ++ [o] ->
  valid_bop o -> cancels ch o = false ->
  Forall valid_bop (s_broker s') /\ subscription ch (s_broker s') = Some f /\ published (s_broker s') = published (s_broker s) ++ published1 o /\
  wanted ch (s_broker s') = wanted ch (s_broker s) ++ filter (matches f) (published1 o).
Proof.
  intros Hv Hs E Ho Hc. rewrite E. split; [apply Forall_app; auto|]. split.
  { rewrite subscription_snoc, Hs. destruct o as [c g|c|or st|c|c|c]; cbn in *; try reflexivity; [destruct (String.eqb c ch); reflexivity|rewrite Hc; reflexivity]. }
  split; [rewrite published_app; unfold published; cbn [flat_map]; rewrite app_nil_r; reflexivity|].
  unfold S_Broker.wanted. rewrite wanted_from_app. fold (subscription ch (s_broker s)). rewrite Hs. cbn [wanted_from]. rewrite app_nil_r. reflexivity.
Qed.

Lemma step_follows ch f t i p s u : published_once t = true -> exists_ s t -> represents i p (core_at s (t_core t)) ->
  Forall valid_bop (s_broker s) -> subscription ch (s_broker s) = Some f -> keeps_subscription ch u ->
  exists s', t_do t u s = Ok s' /\ follows ch f t i s (fst (streamed1 t i p u)) (snd (streamed1 t i p u)) s'.
Proof.
  intros Hp He Hr Hv Hs [Ho Hk].
  assert (Hn : (zlen (b_subs (b_run (s_broker s))) <=? 0) = false) by (apply (subs_not_empty ch); [exact Hv|congruence]).
  assert (Pub : forall s' d c1 p' out, published_call t s s' d c1 -> is_order (d_order d) -> represents i p' (fst (snap d c1)) -> snd (snap d c1) = out ->
                 follows ch f t i s p' [out] s').
  { intros s' d c1 p' out (P1 & P2 & P3) Hor R E. destruct (broker_snoc ch f s s' _ Hv Hs P3) as (B1 & B2 & B3 & B4); [exact Hor|reflexivity|].
    cbn [published1] in B3, B4. rewrite E in B3, B4. unfold follows. split; [unfold exists_; rewrite P2; exact He|]. rewrite P1. auto. }
  destruct u as [k fm a es|es|e|o]; cbn [S_Decor.t_do].
  - destruct (t_log_published t Hp k fm a es s He Hn) as (s' & E & K). exists s'. split; [exact E|]. cbn [S_Stream.streamed1].
    destruct (pr_finished p) as [at_|] eqn:Ef; cbn [fst snd].
    + assert (Elog : log_call k (d_env (es (depth t))) (prefix_format t ++ fm)%string (prefix_args t ++ a) (core_at s (t_core t)) = core_at s (t_core t)).
      { destruct Hr as (_ & _ & _ & _ & _ & _ & _ & Hf & _). rewrite Ef in Hf. destruct Hf as [Hf _].
        destruct k; cbn [M_Trace.log_call]; unfold Tracef, LazyTracef, Errorf, LazyErrorf; rewrite Hf; reflexivity. }
      rewrite Elog in K. destruct (snap_finished i p _ (publishing t es) at_ Hr Ef) as [S1 S2].
      eapply Pub; [exact K|apply Ho|exact S1|exact S2].
    + destruct (snap_logged i p _ (publishing t es) k (d_env (es (depth t))) (prefix_format t ++ fm)%string (prefix_args t ++ a) Hr Ef) as [S1 S2].
      unfold S_Stream.logged. replace (e_world (d_env (if is_lazy_kind k then publishing t es else es (depth t))))
        with (if is_lazy_kind k then e_world (d_env (publishing t es)) else e_world (d_env (es (depth t)))) by (destruct (is_lazy_kind k); reflexivity).
      eapply Pub; [exact K|apply Ho|exact S1|exact S2].
  - destruct (t_Finish_published t Hp es s He Hn) as (s' & E & K). exists s'. split; [exact E|]. cbn [S_Stream.streamed1 fst snd].
    set (at_ := match pr_finished p with Some a => a | None => _ end).
    set (p' := MkProgress (pr_count p) (pr_kept p) (pr_errored p) (Some at_)).
    assert (R' : represents i p' (Finish (e_now (d_env (es (depth t)))) (core_at s (t_core t)))).
    { destruct Hr as (H1 & H2 & H3 & H4 & H5 & H6 & H7 & H8 & H9 & H10 & H11 & H12). unfold Finish, represents, p', at_.
      destruct (pr_finished p) as [at0|]; [destruct H8 as [H8 H8d]|]; rewrite H8; cbn; repeat (split; [assumption|]); try (split; [split; [assumption|assumption]|auto]).
      split; [split; [reflexivity|rewrite H4; reflexivity]|auto]. }
    destruct (snap_finished i p' _ (publishing t es) at_ R' eq_refl) as [S1 S2].
    eapply Pub; [exact K|apply Ho|exact S1|exact S2].
  - eexists. split; [reflexivity|]. cbn [S_Stream.streamed1 fst snd]. unfold t_Events, Events.
    destruct (EventsDetail e (-1) true (core_at s (t_core t))) as [c' evs] eqn:Ec. cbn [fst].
    pose proof (represents_read i p _ e (-1) true Hr) as R'. rewrite Ec in R'. cbn [fst] in R'.
    unfold follows. split; [unfold exists_, set_core; cbn [s_cores]; rewrite update_length; exact He|].
    rewrite core_at_set_same by exact He. split; [exact R'|]. cbn [s_broker set_core filter]. rewrite !app_nil_r. auto.
  - eexists. split; [reflexivity|]. cbn [S_Stream.streamed1 fst snd].
    destruct (broker_snoc ch f s (MkSys (s_cores s) (s_broker s ++ [o]) (s_out s)) o Hv Hs eq_refl Ho Hk) as (B1 & B2 & B3 & B4).
    unfold follows. split; [exact He|]. split; [exact Hr|]. auto.
Qed.

Lemma run_follows ch f t i us : published_once t = true -> Forall (keeps_subscription ch) us ->
  forall p s, exists_ s t -> represents i p (core_at s (t_core t)) -> Forall valid_bop (s_broker s) -> subscription ch (s_broker s) = Some f ->
  exists s', t_run t us s = Ok s' /\ follows ch f t i s (fst (streamed t i p us)) (snd (streamed t i p us)) s'.
Proof.
  intros Hp. induction us as [|u us IH]; intros Hk p s He Hr Hv Hs.
  - exists s. split; [reflexivity|]. cbn. unfold follows. rewrite !app_nil_r. repeat (split; [assumption|]). split; reflexivity.
  - inversion Hk as [|? ? Hu Hus]; subst. destruct (step_follows ch f t i p s u Hp He Hr Hv Hs Hu) as (s1 & E1 & A1 & A2 & A3 & A4 & A5 & A6).
    cbn [S_Stream.streamed]. destruct (streamed1 t i p u) as [p1 out1]. cbn [fst snd] in *.
    destruct (IH Hus p1 s1 A1 A2 A3 A4) as (s2 & E2 & B1 & B2 & B3 & B4 & B5 & B6).
    destruct (streamed t i p1 us) as [p2 out2]. cbn [fst snd] in *. exists s2. cbn [S_Decor.t_run]. rewrite E1. cbn [bind]. split; [exact E2|].
    unfold follows. repeat (split; [assumption|]). rewrite B5, A5, B6, A6, filter_app, <- !app_assoc. auto.
Qed.

(** ** Creation *)
Definition identity_of (coll : collector arg) (b : birth arg pc) (category : string) : identity :=
  MkIdentity (c_source coll) (b_id b) category (b_now b) (g_maxEvents (b_globals b)).

Lemma decorate_all_logs decs : Forall (fun d => d <> DPublish) decs -> forall ds t s t' s', published_once t = true ->
  decorate_all Sprintf CallersFrames Compile MatchString str caps decs ds t s = Ok (t', s') ->
  published_once t' = true /\ t_core t' = t_core t /\ s_cores s' = s_cores s /\ s_broker s' = s_broker s.
Proof.
  induction 1 as [|d decs Hd Hds IH]; intros ds t s t' s' Hp E; cbn [decorate_all] in E; [injection E as <- <-; auto|].
  destruct d as [|dst]; [congruence|]. cbn [decorate bind] in E. exact (IH (inner_envs ds) (TLog t (t_observe ID t s) dst) _ t' s' Hp E).
Qed.
Lemma maybeFree_broker (t : trace) (s : sys) : s_broker (fst (maybeFree t s)) = s_broker s.
Proof.
  unfold maybeFree. destruct (has_Free t); [|reflexivity]. induction t as [i|t IH|t IH id d|t IH pf pa]; cbn [t_Free].
  - destruct (Free (core_at s i)). reflexivity.
  - destruct (has_Free t); [exact IH|reflexivity].
  - destruct (has_Free t); [exact IH|reflexivity].
  - reflexivity.
Qed.
Lemma frees_other n (dr : list trace) : forall s : sys, (forall t, In t dr -> exists_ s t /\ t_core t <> n) ->
  core_at (fold_left (fun s t => fst (maybeFree t s)) dr s) n = core_at s n /\
  length (s_cores (fold_left (fun s t => fst (maybeFree t s)) dr s)) = length (s_cores s) /\
  s_broker (fold_left (fun s t => fst (maybeFree t s)) dr s) = s_broker s.
Proof.
  induction dr as [|t dr IH]; intros s Hdr; [auto|]. cbn [fold_left].
  destruct (Hdr t (or_introl eq_refl)) as [Hx Hn]. destruct (maybeFree_other t s n Hx (not_eq_sym Hn)) as [A B].
  rewrite <- A, <- B, <- (maybeFree_broker t s). apply IH. intros t0 Ht0. destruct (Hdr t0 (or_intror Ht0)) as [Hx0 Hn0]. split; [unfold exists_; rewrite B; exact Hx0|exact Hn0].
Qed.

Lemma creation_follows ch f coll b c category ds es s c' t s1 coll' dropped :
  MaybeGet c = None -> Forall (fun d => d <> DPublish) (c_decorators coll) -> 1 <= g_maxEvents (b_globals b) ->
  (forall n, is_order (d_order (ds n))) -> Forall valid_bop (s_broker s) -> subscription ch (s_broker s) = Some f ->
  NewTrace Sprintf CallersFrames Compile MatchString str caps coll b c category ds es s = Ok (c', t, s1, coll', dropped) ->
  (forall t0, In t0 dropped -> exists_ s t0) ->
  published_once t = true /\ follows ch f t (identity_of coll b category) s at_creation [active_view (identity_of coll b category) (ds O) at_creation []] s1.
Proof.
  intros Hc Hd Hm Hor Hv Hs E Hdr. unfold NewTrace in E. rewrite Hc in E. unfold New, new_core in E. cbn [decorate_all decorate] in E.
  set (core := newCoreTrace _ _ _ _ _ _) in E. set (s0 := MkSys _ _ _) in E. set (n := length (s_cores s)) in E.
  assert (H0 : (n < length (s_cores s0))%nat) by (unfold s0, n; cbn [s_cores]; rewrite app_length; cbn; lia).
  assert (Hn : (zlen (b_subs (b_run (s_broker s0))) <=? 0) = false) by (apply (subs_not_empty ch); [exact Hv|unfold s0; cbn [s_broker]; rewrite Hs; discriminate]).
  rewrite (publish_core (ds O) n s0 H0 Hn) in E.
  assert (E0 : core_at s0 n = core) by (unfold core_at, s0; cbn [s_cores]; rewrite app_nth2; fold n; [rewrite Nat.sub_diag; reflexivity|lia]).
  rewrite E0 in E. cbn [bind] in E.
  set (s2 := MkSys (update n (fst (snap (ds O) core)) (s_cores s0)) _ _) in E.
  apply bind_ok in E as ([t3 s3] & E3 & E).
  apply bind_ok in E as ([cats dr] & E4 & E). injection E as <- <- <- <- <-.
  destruct (decorate_all_logs _ Hd _ (TPublish (TCore n)) _ _ _ eq_refl E3) as (P1 & P2 & P3 & P4). cbn [t_core] in P2.
  split; [exact P1|].
  assert (L3 : length (s_cores s3) = S n).
  { rewrite P3. unfold s2. cbn [s_cores]. rewrite update_length. unfold s0, n. cbn [s_cores]. rewrite app_length. cbn. lia. }
  destruct (frees_other n dr s3) as (F1 & F2 & F3).
  { intros t0 Ht0. specialize (Hdr t0 Ht0). unfold exists_ in *. fold n in Hdr. lia. }
  assert (R0 : represents (identity_of coll b category) at_creation core).
  { unfold represents, core, newCoreTrace. cbn. repeat (split; [reflexivity || assumption|]). split; [constructor|]. lia. }
  assert (Sn : fst (snap (ds O) core) = fst (EventsDetail (d_env (ds O)) 1 false core) /\
               snd (snap (ds O) core) = active_view (identity_of coll b category) (ds O) at_creation []).
  { unfold snap, core, newCoreTrace. cbn [ct_finished negb]. rewrite EventsDetail_eq. cbn. split; reflexivity. }
  destruct Sn as [Sn1 Sn2].
  destruct (broker_snoc ch f s (fold_left (fun s t => fst (maybeFree t s)) dr s3) (BPublish (d_order (ds O)) (Ok (snd (snap (ds O) core)))) Hv Hs) as (B1 & B2 & B3 & B4).
  { rewrite F3, P4. reflexivity. }
  { apply Hor. }
  { reflexivity. }
  cbn [published1] in B3, B4. rewrite Sn2 in B3, B4.
  unfold follows. split; [unfold exists_; rewrite F2, P2, L3; lia|]. split; [|auto].
  rewrite P2, F1. unfold core_at. rewrite P3. unfold s2. cbn [s_cores]. rewrite nth_update by exact H0. rewrite Nat.eqb_refl, Sn1.
  apply represents_read. exact R0.
Qed.
(** C38.  A new trace of a collector, and then any calls on it by one goroutine, with
    anything else happening at the broker in between: a subscription with filter f on
    channel ch wants, and if there is room gets, the f-matching ones of: an empty trace at
    creation, and then what [streamed] says. *)
Theorem C38_streamed_exactly :
  forall ch f coll b c category ds es s ops freed us,
    MaybeGet c = None -> Forall (fun d => d <> DPublish) (c_decorators coll) -> 1 <= g_maxEvents (b_globals b) ->
    Forall valid_op ops -> coll_run nil_trace new_collector_storage ops = Ok (c_categories coll, freed) ->
    (forall cat t, In t (held cat ops) -> exists_ s t) ->
    (forall n, is_order (d_order (ds n))) -> Forall valid_bop (s_broker s) -> subscription ch (s_broker s) = Some f ->
    Forall (keeps_subscription ch) us ->
    exists c' t s1 coll' dropped s2,
      let i := identity_of coll b category in
      let expected := active_view i (ds O) at_creation [] :: snd (streamed t i at_creation us) in
      NewTrace Sprintf CallersFrames Compile MatchString str caps coll b c category ds es s = Ok (c', t, s1, coll', dropped) /\
      t_run t us s1 = Ok s2 /\
      published (s_broker s2) = published (s_broker s) ++ expected /\
      wanted ch (s_broker s2) = wanted ch (s_broker s) ++ filter (matches f) expected /\
      ((forall h1 h2, s_broker s2 = h1 ++ h2 -> zlen (wanted ch h1) <= caps ch + receives ch h1) ->
       delivered (b_chans (b_run (s_broker s2)) ch) = wanted ch (s_broker s) ++ filter (matches f) expected).
Proof.
  intros ch f coll b c category ds es s ops freed us Hc Hd Hm Hv Hrun Hheld Hor Hb Hs Hus.
  destruct (C44_new_trace Sprintf CallersFrames Compile MatchString str caps coll b c category ds es s ops freed Hc Hd Hv Hrun Hheld)
    as (c' & t & s1 & coll' & dropped & E & _ & _ & _ & (older & _ & Eh) & _).
  assert (Hdr : forall t0, In t0 dropped -> exists_ s t0).
  { intros t0 Ht0. apply (Hheld category). injection Eh as ->. apply in_or_app. right. exact Ht0. }
  destruct (creation_follows ch f coll b c category ds es s c' t s1 coll' dropped Hc Hd Hm Hor Hb Hs E Hdr) as (Hp & A1 & A2 & A3 & A4 & A5 & A6).
  destruct (run_follows ch f t _ us Hp Hus at_creation s1 A1 A2 A3 A4) as (s2 & E2 & B1 & B2 & B3 & B4 & B5 & B6).
  exists c', t, s1, coll', dropped, s2. cbn zeta. split; [exact E|]. split; [exact E2|].
  match goal with |- _ /\ wanted ch _ = ?w /\ _ => assert (W : wanted ch (s_broker s2) = w) end.
  { rewrite B6, A6, <- app_assoc, <- filter_app. reflexivity. }
  split; [rewrite B5, A5, <- app_assoc; reflexivity|]. split; [exact W|].
  intros Hroom. rewrite <- W. apply C35_everything_if_there_is_room; assumption.
Qed.

(** What this is for event calls followed by Finish: one trace for each call, with one event
    (the one just logged or the truncation marker), and then the complete trace. *)
Definition event_of (t : trace) (u : ucall) : list Event := match u with ULog k f a es => [logged t k f a es] | _ => [] end.
Definition error_call (u : ucall) : bool := match u with ULog k _ _ _ => is_error_kind k | _ => false end.

Lemma events_streamed t i : 0 <= i_limit i -> forall calls p, Forall (fun u => is_event_call u = true) calls -> pr_finished p = None -> 0 <= pr_count p ->
  zlen (pr_kept p) = Z.min (pr_count p) (i_limit i) ->
  let '(p', out) := streamed t i p calls in
  length out = length calls /\ pr_finished p' = None /\ pr_count p' = pr_count p + zlen calls /\
  pr_kept p' = firstn (Z.to_nat (i_limit i)) (pr_kept p ++ flat_map (event_of t) calls) /\
  pr_errored p' = (pr_errored p || existsb error_call calls) /\
  forall j k f a es, nth_error calls j = Some (ULog k f a es) ->
    exists tr, nth_error out j = Some tr /\ TraceFinished tr = false /\
      TraceSource tr = i_source i /\ TraceID tr = i_id i /\ TraceCategory tr = i_category i /\ TraceStarted tr = i_start i /\
      TraceErrored tr = (pr_errored p || existsb error_call (firstn (S j) calls)) /\
      TraceEvents tr = [if pr_count p + Z.of_nat j <? i_limit i then logged t k f a es
                        else truncated_event (e_now (d_env (publishing t es))) (pr_count p + Z.of_nat j + 1 - i_limit i)].
Proof.
  intros Hl. induction calls as [|u calls IH]; intros p Hc Hf Hn Hk.
  - cbn. rewrite app_nil_r, orb_false_r, Z.add_0_r. split; [reflexivity|]. split; [exact Hf|]. split; [reflexivity|]. split.
    { symmetry. apply firstn_all2. unfold zlen in Hk. lia. }
    split; [reflexivity|]. intros [|j] ? ? ? ? E0; discriminate E0.
  - inversion Hc as [|? ? Hu Hcs]; subst. destruct u as [k f a es|es|e|o]; try discriminate. cbn [S_Stream.streamed S_Stream.streamed1]. rewrite Hf.
    set (ev := logged t k f a es). set (p1 := MkProgress _ _ _ _).
    assert (Hk1 : zlen (pr_kept p1) = Z.min (pr_count p1) (i_limit i)).
    { unfold p1. cbn. destruct (pr_count p <? i_limit i) eqn:L; [rewrite zlen_app; cbn|]; lia. }
    specialize (IH p1 Hcs eq_refl). assert (Hn1 : 0 <= pr_count p1) by (cbn; lia). specialize (IH Hn1 Hk1).
    destruct (streamed t i p1 calls) as [p' out]. destruct IH as (I1 & I2 & I3 & I4 & I5 & I6).
    cbn [app length]. split; [lia|]. split; [exact I2|]. split; [rewrite I3; unfold zlen; cbn; lia|]. split; [|split].
    + rewrite I4. cbn [flat_map event_of app]. fold ev. unfold p1. cbn [pr_kept]. destruct (pr_count p <? i_limit i) eqn:L.
      * rewrite <- app_assoc. reflexivity.
      * unfold zlen in Hk. rewrite !firstn_app. rewrite !firstn_all2 by lia. replace (Z.to_nat (i_limit i) - length (pr_kept p))%nat with O by lia. reflexivity.
    + rewrite I5. cbn. rewrite orb_assoc. reflexivity.
    + intros [|j] k' f' a' es' E.
      * injection E as <- <- <- <-. eexists. split; [reflexivity|]. cbn. rewrite Z.add_0_r, orb_false_r. fold ev. repeat (split; [reflexivity|]). reflexivity.
      * destruct (I6 j k' f' a' es' E) as (tr & T1 & T2 & T3 & T4 & T5 & T6 & T7 & T8). exists tr. split; [exact T1|]. repeat (split; [assumption|]).
        split; [rewrite T7; cbn; rewrite orb_assoc; reflexivity|]. rewrite T8. cbn [p1 pr_count].
        replace (pr_count p + 1 + Z.of_nat j) with (pr_count p + Z.of_nat (S j)) by lia. reflexivity.
Qed.

Lemma streamed_app t i (us us' : list ucall) : forall p, streamed t i p (us ++ us') =
  (fst (streamed t i (fst (streamed t i p us)) us'), snd (streamed t i p us) ++ snd (streamed t i (fst (streamed t i p us)) us')).
Proof.
  induction us as [|u us IH]; intros p; cbn [app S_Stream.streamed fst snd]; [destruct (streamed t i p us'); reflexivity|].
  destruct (streamed1 t i p u) as [p1 o1]. rewrite IH. destruct (streamed t i p1 us) as [p2 o2]. cbn [fst snd]. rewrite app_assoc. reflexivity.
Qed.

Theorem C38_one_event_at_a_time_then_everything :
  forall t i (calls : list ucall) es, 0 <= i_limit i -> Forall (fun u => is_event_call u = true) calls ->
    exists singles final,
      snd (streamed t i at_creation (calls ++ [UFinish es])) = singles ++ [final] /\ length singles = length calls /\
      (forall j k f a es, nth_error calls j = Some (ULog k f a es) ->
         exists tr, nth_error singles j = Some tr /\ TraceFinished tr = false /\
           TraceSource tr = i_source i /\ TraceID tr = i_id i /\ TraceCategory tr = i_category i /\ TraceStarted tr = i_start i /\
           TraceErrored tr = existsb error_call (firstn (S j) calls) /\
           TraceEvents tr = [if Z.of_nat j <? i_limit i then logged t k f a es
                             else truncated_event (e_now (d_env (publishing t es))) (Z.of_nat j + 1 - i_limit i)]) /\
      TraceFinished final = true /\ TraceErrored final = existsb error_call calls /\
      TraceSource final = i_source i /\ TraceID final = i_id i /\ TraceCategory final = i_category i /\ TraceStarted final = i_start i /\
      TraceDuration final = e_now (d_env (es (depth t))) - i_start i /\
      TraceEvents final =
        (let all := flat_map (event_of t) calls in
         if zlen calls <=? i_limit i then all
         else tl (firstn (Z.to_nat (i_limit i)) all) ++ [truncated_event (e_now (d_env (publishing t es))) (zlen calls - i_limit i)]).
Proof.
  intros t i calls es Hl Hc. rewrite streamed_app.
  pose proof (events_streamed t i Hl calls at_creation Hc eq_refl (Z.le_refl 0)) as H. cbn [pr_kept at_creation] in H.
  specialize (H ltac:(cbn; lia)). destruct (streamed t i at_creation calls) as [p out]. destruct H as (I1 & I2 & I3 & I4 & I5 & I6). cbn [fst snd].
  eexists out, _. split; [reflexivity|]. split; [exact I1|]. split; [exact I6|]. cbn. rewrite I2. split; [reflexivity|].
  split; [exact I5|]. do 5 (split; [reflexivity|]).
  unfold complete. cbn [pr_count pr_kept]. rewrite I3, I4. cbn [at_creation pr_count pr_kept app]. rewrite Z.add_0_l.
  destruct (zlen calls <=? i_limit i) eqn:L; [|reflexivity]. apply firstn_all2.
  assert (Hlen : length (flat_map (event_of t) calls) = length calls).
  { clear -Hc. induction Hc as [|u calls Hu Hc IH]; [reflexivity|]. destruct u; try discriminate. cbn. f_equal. exact IH. }
  rewrite Hlen. unfold zlen in L. lia.
Qed.

(** The two filters of the property. *)
Definition accept_all (f : Filter RE) : Prop :=
  unused f /\ Sources f = [] /\ IDs f = [] /\ FCategory f = "" /\ IsActive f = false /\ IsFinished f = false /\
  MinDuration f = None /\ IsSuccess f = false /\ IsErrored f = false /\ Query f = "".
Definition finished_only (f : Filter RE) : Prop :=
  unused f /\ Sources f = [] /\ IDs f = [] /\ FCategory f = "" /\ IsActive f = false /\ IsFinished f = true /\
  MinDuration f = None /\ IsSuccess f = false /\ IsErrored f = false /\ Query f = "".
Lemma matches_iff f tr : unused f -> matches f tr = true <-> accepts Compile MatchString f tr.
Proof. apply Allow_unused. Qed.
Theorem C38_filters :
  (forall f l, accept_all f -> filter (matches f) l = l) /\
  (forall f l, finished_only f -> filter (matches f) l = filter TraceFinished l).
Proof.
  split.
  - intros f l (H0 & H1 & H2 & H3 & H4 & H5 & H6 & H7 & H8 & H9). induction l as [|tr l IH]; [reflexivity|]. cbn [filter].
    replace (matches f tr) with true; [rewrite IH; reflexivity|]. symmetry. apply matches_iff; [exact H0|].
    split; [|unfold query_condition; rewrite H9; destruct (Compile ""); [congruence|exact I]].
    unfold field_conditions. rewrite H1, H2, H3, H4, H5, H6, H7, H8. repeat split; try congruence; try discriminate.
  - intros f l (H0 & H1 & H2 & H3 & H4 & H5 & H6 & H7 & H8 & H9). apply filter_ext. intros tr. apply eq_true_iff_eq. rewrite matches_iff by exact H0.
    split; [intros [(_ & _ & _ & _ & K & _) _]; apply K; exact H5|]. intros K.
    split; [|unfold query_condition; rewrite H9; destruct (Compile ""); [congruence|exact I]].
    unfold field_conditions. rewrite H1, H2, H3, H4, H5, H6, H7, H8. repeat split; try congruence; try discriminate.
Qed.

(** Hence a subscriber for finished traces gets exactly the complete trace. *)
Theorem C38_finished_only :
  forall t i (d : denv) (calls : list ucall) es, 0 <= i_limit i -> Forall (fun u => is_event_call u = true) calls ->
    exists final,
      filter TraceFinished (active_view i d at_creation [] :: snd (streamed t i at_creation (calls ++ [UFinish es]))) = [final] /\
      TraceEvents final =
        (let all := flat_map (event_of t) calls in
         if zlen calls <=? i_limit i then all
         else tl (firstn (Z.to_nat (i_limit i)) all) ++ [truncated_event (e_now (d_env (publishing t es))) (zlen calls - i_limit i)]).
Proof.
  intros t i d calls es Hl Hc. destruct (C38_one_event_at_a_time_then_everything t i calls es Hl Hc) as (singles & final & E & L & J & F & _ & _ & _ & _ & _ & _ & Ev).
  exists final. split; [|exact Ev]. rewrite E. cbn [filter TraceFinished active_view]. rewrite filter_app. cbn [filter]. rewrite F.
  replace (filter TraceFinished singles) with (@nil StaticTrace); [reflexivity|]. symmetry.
  assert (G : forall tr, In tr singles -> TraceFinished tr = false).
  { intros tr Hin. apply In_nth_error in Hin as (j & Ej).
    assert (Hj : (j < length calls)%nat) by (rewrite <- L; apply nth_error_Some; congruence).
    destruct (nth_error calls j) as [u|] eqn:Eu; [|apply nth_error_None in Eu; lia].
    pose proof (proj1 (Forall_forall _ _) Hc u (nth_error_In _ _ Eu)) as Hu. destruct u as [k f a es'|?|?|?]; try discriminate.
    destruct (J j k f a es' Eu) as (tr' & E' & F' & _). congruence. }
  clear -G. induction singles as [|x l IH]; [reflexivity|]. cbn [filter]. rewrite (G x) by (left; reflexivity). apply IH. intros tr H. apply G. right. exact H.
Qed.

(** C40.  Every call from the first Finish on publishes the finished trace... *)
Theorem C40_one_copy_per_call_from_finish :
  forall t i (us : list ucall), Forall (fun u => match u with UBroker o => published1 o = [] | _ => True end) us ->
    length (filter TraceFinished (snd (streamed t i at_creation us))) = length (filter is_trace_call (from_finish us)).
Proof.
  intros t i us H.
  assert (G1 : forall us p at_, pr_finished p = Some at_ -> Forall (fun u : ucall => match u with UBroker o => published1 o = [] | _ => True end) us ->
             length (filter TraceFinished (snd (streamed t i p us))) = length (filter is_trace_call us)).
  { clear. induction us as [|u us IH]; intros p at_ Hp H; [reflexivity|]. inversion H as [|? ? Hu Hus]; subst. cbn [S_Stream.streamed].
    destruct u as [k f a es|es|e|o]; cbn [S_Stream.streamed1]; rewrite ?Hp.
    - specialize (IH p at_ Hp Hus). destruct (streamed t i p us). cbn. f_equal. exact IH.
    - set (p1 := MkProgress _ _ _ _). specialize (IH p1 at_ eq_refl Hus). destruct (streamed t i p1 us). cbn. f_equal. exact IH.
    - specialize (IH p at_ Hp Hus). destruct (streamed t i p us). cbn. exact IH.
    - specialize (IH p at_ Hp Hus). destruct (streamed t i p us). rewrite Hu. cbn. exact IH. }
  assert (G0 : forall us p, pr_finished p = None -> Forall (fun u : ucall => match u with UBroker o => published1 o = [] | _ => True end) us ->
             length (filter TraceFinished (snd (streamed t i p us))) = length (filter is_trace_call (from_finish us))).
  { clear H us. induction us as [|u us IH]; intros p Hp H; [reflexivity|]. inversion H as [|? ? Hu Hus]; subst. cbn [S_Stream.streamed from_finish].
    destruct u as [k f a es|es|e|o]; cbn [S_Stream.streamed1 is_finish_call]; rewrite ?Hp.
    - set (p1 := MkProgress _ _ _ _). specialize (IH p1 eq_refl Hus). destruct (streamed t i p1 us). cbn. exact IH.
    - set (p1 := MkProgress _ _ _ _). specialize (G1 us p1 _ eq_refl Hus). destruct (streamed t i p1 us). cbn. f_equal. exact G1.
    - specialize (IH p Hp Hus). destruct (streamed t i p us). cbn. exact IH.
    - specialize (IH p Hp Hus). destruct (streamed t i p us). rewrite Hu. cbn. exact IH. }
  apply G0; [reflexivity|exact H].
Qed.
(** ... so it is published exactly once iff Finish is called, once, and nothing after it. *)
Theorem C40_exactly_once_iff :
  forall t i (us : list ucall), Forall (fun u => match u with UBroker o => published1 o = [] | _ => True end) us ->
    (length (filter TraceFinished (snd (streamed t i at_creation us))) = 1%nat <->
     exists calls es others, us = calls ++ UFinish es :: others /\ existsb is_finish_call calls = false /\ existsb is_trace_call others = false).
Proof.
  intros t i us H. rewrite (C40_one_copy_per_call_from_finish t i us H). split.
  - clear. induction us as [|u us IH]; cbn [from_finish]; [discriminate|]. destruct (is_finish_call u) eqn:E.
    + destruct u as [k f a es|es|e|o]; try discriminate. cbn. intros [= Hl]. exists [], es, us. split; [reflexivity|]. split; [reflexivity|].
      destruct (existsb is_trace_call us) eqn:Ex; [|reflexivity]. exfalso. apply existsb_exists in Ex as (x & Hx & Ex).
      assert (Hin : In x (filter is_trace_call us)) by (apply filter_In; auto). destruct (filter is_trace_call us); [destruct Hin|discriminate].
    + intros Hl. destruct (IH Hl) as (calls & es & others & -> & H1 & H2). exists (u :: calls), es, others. cbn. rewrite E. auto.
  - intros (calls & es & others & -> & H1 & H2).
    assert (E : from_finish (calls ++ UFinish es :: others) = UFinish es :: others).
    { clear -H1. induction calls as [|u calls IH]; [reflexivity|]. cbn in *. apply orb_false_iff in H1 as [E1 E2]. rewrite E1. auto. }
    rewrite E. cbn. f_equal. clear -H2. induction others as [|u others IH]; [reflexivity|]. cbn in *. apply orb_false_iff in H2 as [E1 E2]. rewrite E1. auto.
Qed.
Lemma prefix_append p x : String.prefix p (p ++ x) = true.
Proof. induction p as [|a p IH]; cbn; [destruct x; reflexivity|]. destruct (ascii_dec a a); [exact IH|contradiction]. Qed.
(** All the copies are of the same trace, apart from the time of the truncation marker. *)
Definition timeless (tr : StaticTrace) : StaticTrace :=
  MkStatic (TraceSource tr) (TraceID tr) (TraceCategory tr) (TraceStarted tr) (TraceDuration tr) (TraceDurationStr tr) (TraceFinished tr) (TraceErrored tr)
           (map (fun ev => if String.prefix "(truncated event count " (What ev) then MkEvent 0 (What ev) (Stack ev) (IsError ev) else ev) (TraceEvents tr)).
Theorem C40_copies_are_equal :
  forall t i (us : list ucall) tr tr', Forall (fun u => match u with UBroker o => published1 o = [] | _ => True end) us ->
    In tr (filter TraceFinished (snd (streamed t i at_creation us))) -> In tr' (filter TraceFinished (snd (streamed t i at_creation us))) ->
    timeless tr = timeless tr'.
Proof.
  intros t i us tr tr' H.
  assert (V : forall (d d' : denv) p at_, timeless (finished_view i d p at_) = timeless (finished_view i d' p at_)).
  { intros d d' p at_. unfold finished_view, timeless. cbn [TraceSource TraceID TraceCategory TraceStarted TraceDuration TraceDurationStr TraceFinished TraceErrored TraceEvents].
    f_equal. unfold complete. destruct (pr_count p <=? i_limit i); [reflexivity|]. rewrite !map_app. apply (f_equal2 (@app Event)); [reflexivity|].
    unfold truncated_event. cbn [map What]. rewrite prefix_append. reflexivity. }
  assert (G1 : forall us p at_, pr_finished p = Some at_ -> Forall (fun u : ucall => match u with UBroker o => published1 o = [] | _ => True end) us ->
             forall x, In x (filter TraceFinished (snd (streamed t i p us))) -> exists d : denv, x = finished_view i d p at_).
  { clear. induction us as [|u us IH]; intros p at_ Hp H x; [intros []|]. inversion H as [|? ? Hu Hus]; subst. cbn [S_Stream.streamed].
    destruct u as [k f a es|es|e|o]; cbn [S_Stream.streamed1]; rewrite ?Hp.
    - specialize (IH p at_ Hp Hus x). destruct (streamed t i p us). cbn. intros [<-|Hx]; [eauto|exact (IH Hx)].
    - assert (Ep : MkProgress (pr_count p) (pr_kept p) (pr_errored p) (Some at_) = p) by (destruct p; cbn in *; congruence). rewrite Ep.
      specialize (IH p at_ Hp Hus x). destruct (streamed t i p us). cbn. intros [<-|Hx]; [eauto|exact (IH Hx)].
    - specialize (IH p at_ Hp Hus x). destruct (streamed t i p us). cbn. exact IH.
    - specialize (IH p at_ Hp Hus x). destruct (streamed t i p us). rewrite Hu. cbn. exact IH. }
  assert (G0 : forall us p, pr_finished p = None -> Forall (fun u : ucall => match u with UBroker o => published1 o = [] | _ => True end) us ->
             exists p' at_, forall x, In x (filter TraceFinished (snd (streamed t i p us))) -> exists d : denv, x = finished_view i d p' at_).
  { clear H us. induction us as [|u us IH]; intros p Hp H; [exists p, 0; intros x []|]. inversion H as [|? ? Hu Hus]; subst. cbn [S_Stream.streamed].
    destruct u as [k f a es|es|e|o]; cbn [S_Stream.streamed1]; rewrite ?Hp.
    - set (p1 := MkProgress _ _ _ _). destruct (IH p1 eq_refl Hus) as (p' & at_ & K). exists p', at_. destruct (streamed t i p1 us). cbn. exact K.
    - set (p1 := MkProgress _ _ _ _). specialize (G1 us p1 _ eq_refl Hus). exists p1, (e_now (d_env (es (depth t)))). intros x. specialize (G1 x).
      destruct (streamed t i p1 us). cbn. intros [<-|Hx]; [eauto|exact (G1 Hx)].
    - destruct (IH p Hp Hus) as (p' & at_ & K). exists p', at_. destruct (streamed t i p us). cbn. exact K.
    - destruct (IH p Hp Hus) as (p' & at_ & K). exists p', at_. destruct (streamed t i p us). rewrite Hu. cbn. exact K. }
  destruct (G0 us at_creation eq_refl H) as (p' & at_ & K). intros H1 H2.
  destruct (K _ H1) as (d & ->). destruct (K _ H2) as (d' & ->). apply V.
Qed.
End Stream.
Print Assumptions C38_streamed_exactly.
Print Assumptions C38_one_event_at_a_time_then_everything.
Print Assumptions C38_filters.
Print Assumptions C38_finished_only.
Print Assumptions C40_one_copy_per_call_from_finish.
Print Assumptions C40_exactly_once_iff.
Print Assumptions C40_copies_are_equal.

(** A case: eleven events with a limit of ten, Finish, and a late call; the hypotheses of
    C38_streamed_exactly hold, and the late call brings a second copy. *)
Lemma filter_shorter {A} (g : A -> bool) l : (length (filter g l) <= length l)%nat.
Proof. induction l as [|x l IH]; cbn; [lia|]. destruct (g x); cbn; lia. Qed.
Definition ss_s : sys string Z string := MkSys [] [BStream "ch" no_filter] [].
Definition ss_calls : list (ucall string unit Z string) :=
  map (fun n => ULog (if (n =? 3)%Z then KLazyErrorf else KTracef) "%s" [(String (ascii_of_nat (Z.to_nat n + 97)) "")] (dd_es (101 + n))) [0; 1; 2; 3; 4; 5; 6; 7; 8; 9; 10]
  ++ [UFinish (dd_es 120); UBroker (BReceive "ch"); ULog KTracef "late" [] (dd_es 121)].
Example C38_instance :
  MaybeGet (Background : ctx string) = None /\ Forall (fun d => d <> DPublish) (c_decorators dd_coll) /\ 1 <= g_maxEvents (b_globals (dd_birth 100 "A")) /\
  coll_run nil_trace new_collector_storage [] = Ok (c_categories dd_coll, []) /\
  (forall n, is_order (d_order (dd_es 100 n))) /\ Forall valid_bop (s_broker ss_s) /\ subscription "ch" (s_broker ss_s) = Some no_filter /\
  Forall (keeps_subscription "ch") ss_calls /\ accept_all no_filter /\
  exists c t s1 coll s2,
    dd_NewTrace dd_coll (dd_birth 100 "A") Background "cat" (dd_es 100) (dd_es 100) ss_s = Ok (c, t, s1, coll, []) /\
    dd_run t ss_calls s1 = Ok s2 /\
    (forall h1 h2, s_broker s2 = h1 ++ h2 -> zlen (wanted demo_compile demo_match "ch" h1) <= dd_caps "ch" + receives "ch" h1) /\
    map (fun tr => (TraceFinished tr, map What (TraceEvents tr))) (delivered (b_chans (b_run demo_compile demo_match dd_caps (s_broker s2)) "ch")) =
    (false, []) :: map (fun x => (false, [x])) ["a"; "b"; "c"; "d"; "e"; "f"; "g"; "h"; "i"; "j"; "(truncated event count 1)"] ++
    [(true, ["b"; "c"; "d"; "e"; "f"; "g"; "h"; "i"; "j"; "(truncated event count 1)"]);
     (true, ["b"; "c"; "d"; "e"; "f"; "g"; "h"; "i"; "j"; "(truncated event count 1)"])].
Proof.
  split; [reflexivity|]. split; [repeat constructor; discriminate|]. split; [cbn; lia|]. split; [reflexivity|].
  assert (Hid : is_order (fun l => l)) by (intros l; apply Permutation_refl).
  split; [intros n; exact Hid|]. split; [repeat constructor|]. split; [reflexivity|].
  split; [repeat (constructor; [split; [try exact I; intros n; exact Hid|exact I || reflexivity]|]); constructor|].
  split; [repeat split|].
  eexists _, _, _, _, _. split; [vm_compute; reflexivity|]. split; [vm_compute; reflexivity|]. split; [|vm_compute; reflexivity].
  intros h1 h2 E.
  assert (L : zlen (wanted demo_compile demo_match "ch" h1) <= 15).
  { assert (W : forall h cur, zlen (wanted_from demo_compile demo_match "ch" cur h) <= zlen (published h)).
    { induction h as [|o h IH]; intros cur; cbn [wanted_from published flat_map]; [reflexivity|]. fold (published h). rewrite !zlen_app.
      specialize (IH (sub_after "ch" cur o)). assert (zlen (match cur with Some f => filter (matches demo_compile demo_match f) (published1 o) | None => [] end) <= zlen (published1 o)); [|lia].
      destruct cur as [f|]; [|unfold zlen; cbn; lia]. unfold zlen. pose proof (filter_shorter (matches demo_compile demo_match f) (published1 o)). lia. }
    etransitivity; [apply W|].
    assert (N : zlen (published h1) + zlen (published h2) = 14) by (rewrite <- zlen_app, <- published_app, <- E; vm_compute; reflexivity).
    unfold zlen in *. lia. }
  assert (R : forall h : list (bop string), forallb (fun o => match o with BGiveUp _ => false | _ => true end) h = true -> 0 <= receives "ch" h).
  { induction h as [|o h IH]; cbn; [lia|]. destruct o; try exact IH; [|discriminate]. destruct (String.eqb ch "ch"); intros H; specialize (IH H); lia. }
  assert (R1 : forallb (fun o : bop string => match o with BGiveUp _ => false | _ => true end) h1 = true).
  { apply (f_equal (forallb (fun o : bop string => match o with BGiveUp _ => false | _ => true end))) in E. rewrite forallb_app in E.
    symmetry in E. vm_compute in E. apply andb_true_iff in E as [E _]. exact E. }
  specialize (R h1 R1). unfold dd_caps. lia.
Qed.
(** C40's finding in this case: a subscriber for finished traces gets two copies. *)
Theorem C40_finished_once_refuted :
  exists c t s1 coll s2,
    dd_NewTrace dd_coll (dd_birth 100 "A") Background "cat" (dd_es 100) (dd_es 100) (MkSys [] [BStream "ch" (MkFilter [] [] "" false true None false false "" None)] []) = Ok (c, t, s1, coll, []) /\
    dd_run t ss_calls s1 = Ok s2 /\
    map TraceID (delivered (b_chans (b_run demo_compile demo_match dd_caps (s_broker s2)) "ch")) = ["A"; "A"].
Proof. eexists _, _, _, _, _. split; [vm_compute; reflexivity|]. split; vm_compute; reflexivity. Qed.
Print Assumptions C40_finished_once_refuted.

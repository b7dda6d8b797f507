(** C33, C39: snapshots taken while other goroutines use the trace. *)
From Verif Require Import Go L_List M_Strings M_Types S_Trace M_Trace S_TraceView L_Trace M_Text M_Snapshot S_Snapshot L_Snapshot D_Demo P_Trace.
From Coq Require Import Lia.
Open Scope string_scope.
Open Scope list_scope.
Open Scope Z_scope.

Section Events.
Context {arg world pc : Type}.
Variable Sprintf : world -> string -> list arg -> string.
Variable CallersFrames : list pc -> list rframe.
Notation env := (env arg world pc).
Notation coreTrace := (coreTrace arg pc).
Notation coreEvent := (coreEvent arg pc).
Notation history := (history arg env).
Notation run := (run Sprintf CallersFrames).
Notation event_of_trace := (event_of_trace Sprintf).

Lemma before_finish_app (h x : history) : before_finish (h ++ x) = if existsb is_finish h then before_finish h else before_finish h ++ before_finish x.
Proof.
  induction h as [|c h IH]; [reflexivity|]. cbn [app before_finish existsb]. destruct (is_finish c) eqn:E; [reflexivity|].
  cbn [orb]. rewrite IH. destruct (existsb is_finish h); reflexivity.
Qed.
Lemma logs_app (h x : history) : logs (h ++ x) = if existsb is_finish h then logs h else logs h ++ logs x.
Proof. unfold logs. rewrite before_finish_app. destruct (existsb is_finish h); [reflexivity|]. apply filter_app. Qed.
Lemma logs_more (h x : history) c : In c (logs h) -> In c (logs (h ++ x)).
Proof. rewrite logs_app. destruct (existsb is_finish h); [auto|]. intros H. apply in_or_app. left. exact H. Qed.
Lemma logs_zlen_more (h x : history) : zlen (logs h) <= zlen (logs (h ++ x)).
Proof. rewrite logs_app. destruct (existsb is_finish h); [lia|]. unfold zlen. rewrite app_length. lia. Qed.

Definition is_call (h : history) e k f a (ce : coreEvent) : Prop :=
  ce_when ce = e_now e /\ ce_iserr ce = is_error_kind k /\
    z_fmt (ce_what ce) = f /\ z_args (ce_what ce) = a /\
    match z_str (ce_what ce) with
    | None => is_lazy_kind k = true
    | Some t => exists r, (is_lazy_kind k = true -> In r h /\ is_read r = true) /\ t = Sprintf (e_world (if is_lazy_kind k then fst r else e)) f a
    end.
Definition from_call (h : history) (ce : coreEvent) : Prop :=
  exists e k f a, In (e, CallLog k f a) (logs h) /\ is_call h e k f a ce.
Lemma is_call_more h x e k f a ce : is_call h e k f a ce -> is_call (h ++ x) e k f a ce.
Proof.
  intros (H2 & H3 & H4 & H5 & H6). repeat (split; [assumption|]). destruct (z_str (ce_what ce)); [|exact H6]. destruct H6 as (r & H6 & H7). exists r. split; [|exact H7].
  intros Hl. destruct (H6 Hl) as [A B]. split; [apply in_or_app; left; exact A|exact B].
Qed.
Lemma from_call_more h x ce : from_call h ce -> from_call (h ++ x) ce.
Proof. intros (e & k & f & a & H1 & H2). exists e, k, f, a. split; [apply logs_more; exact H1|]. apply is_call_more. exact H2. Qed.
Lemma snapshot_what w (ce : coreEvent) s :
  ce_what (fst (snapshotEvent Sprintf CallersFrames w ce s)) =
  MkStringer (z_fmt (ce_what ce)) (z_args (ce_what ce)) (Some (match z_str (ce_what ce) with Some t => t | None => Sprintf w (z_fmt (ce_what ce)) (z_args (ce_what ce)) end)).
Proof.
  unfold M_Trace.snapshotEvent, getStack, stringer_String.
  destruct ce as [w0 [f a t] ps st b]. destruct s; [destruct ps, st|]; destruct t; reflexivity.
Qed.
Lemma is_call_read h e1 k f a ce e n s : is_call h e1 k f a ce -> is_call (h ++ [(e, CallEvents n s)]) e1 k f a (fst (snapshotEvent Sprintf CallersFrames (e_world e) ce s)).
Proof.
  intros H. apply (is_call_more h [(e, CallEvents n s)]) in H. destruct H as (H2 & H3 & H4 & H5 & H6).
  pose proof (snapshot_after Sprintf CallersFrames (e_world e) ce s) as (A & B & _ & D).
  split; [congruence|]. split; [congruence|]. rewrite snapshot_what. cbn [z_fmt z_args z_str].
  split; [exact H4|]. split; [exact H5|]. destruct (z_str (ce_what ce)); [exact H6|]. exists (e, CallEvents n s). rewrite H6, H4, H5. cbn [fst].
  split; [|reflexivity]. intros _. split; [apply in_or_app; right; left; reflexivity|reflexivity].
Qed.
Lemma from_call_read h ce e n s : from_call h ce -> from_call (h ++ [(e, CallEvents n s)]) (fst (snapshotEvent Sprintf CallersFrames (e_world e) ce s)).
Proof. intros (e1 & k & f & a & H1 & H2). exists e1, k, f, a. split; [apply logs_more; exact H1|]. apply is_call_read. exact H2. Qed.
Lemma is_call_touch h e k f a ce c len i : is_call h e k f a ce -> is_call (h ++ [c]) e k f a (touch Sprintf CallersFrames c len i ce).
Proof.
  intros H. unfold touch. destruct c as [e' [k' f' a'| |n|n s]]; cbn [snd fst]; try (apply is_call_more; exact H).
  destruct (_ <=? _)%nat; [apply is_call_read|apply is_call_more]; exact H.
Qed.
Lemma is_call_new h e k f a nostack : is_call h e k f a (newCoreEvent Sprintf e (is_lazy_kind k) (is_error_kind k) nostack f a).
Proof.
  split; [reflexivity|]. split; [reflexivity|]. split; [destruct (is_lazy_kind k); reflexivity|]. split; [destruct (is_lazy_kind k); reflexivity|].
  destruct (is_lazy_kind k); [reflexivity|]. cbn. exists (e, CallFinish). split; [discriminate|reflexivity].
Qed.
(** The event of a call stays in its place. *)
Lemma call_in_place ha e k f a hb c0 : log_stored (run ha c0) (e, CallLog k f a) = true ->
  exists ce, nth_error (ct_events (run (ha ++ (e, CallLog k f a) :: hb) c0)) (length (ct_events (run ha c0))) = Some ce /\
             is_call (ha ++ (e, CallLog k f a) :: hb) e k f a ce.
Proof.
  intros Hl. induction hb as [|c hb IH] using rev_ind.
  - rewrite run_app. eexists. split; [apply (do_log_nth_new Sprintf CallersFrames); exact Hl|]. apply is_call_new.
  - destruct IH as (ce & E & H). replace (ha ++ (e, CallLog k f a) :: hb ++ [c]) with ((ha ++ (e, CallLog k f a) :: hb) ++ [c]) by (rewrite <- app_assoc; reflexivity).
    rewrite run_app. eexists. split; [apply (do_call_nth Sprintf CallersFrames); exact E|]. apply is_call_touch. exact H.
Qed.
Lemma stored_from_calls h c0 : fresh c0 -> Forall (from_call h) (ct_events (run h c0)).
Proof.
  intros (Hf & _ & He & _). induction h as [|[e c] h IH] using rev_ind; [cbn; rewrite He; constructor|].
  rewrite run_app. cbn [M_Trace.run fold_left]. unfold M_Trace.run. cbn [fold_left]. fold (run h c0). set (tr := run h c0) in *.
  assert (IH' : Forall (from_call (h ++ [(e, c)])) (ct_events tr)) by (eapply Forall_impl; [|exact IH]; intros ce; apply from_call_more).
  destruct c as [k f a| |n|n s]; unfold M_Trace.do_call; cbn [fst snd].
  - rewrite do_log_eq. destruct (ct_finished tr) eqn:Ef; [exact IH'|].
    assert (En : Forall (from_call (h ++ [(e, CallLog k f a)])) (ct_events tr ++ [newCoreEvent Sprintf e (is_lazy_kind k) (is_error_kind k) (ct_nostack tr) f a])).
    { apply Forall_app. split; [exact IH'|]. constructor; [|constructor]. exists e, k, f, a. split.
      - rewrite logs_app. unfold tr in Ef. pose proof (finished_spec_gen Sprintf CallersFrames h c0 Hf) as F. unfold Finished in F. rewrite <- F, Ef.
        apply in_or_app. right. left. reflexivity.
      - apply is_call_new. }
    unfold add_event. destruct (is_error_kind k) eqn:Ek; cbn [ct_events ct_eventsmax ct_nostack mark_errored];
      destruct (_ <=? _); cbn [ct_events]; try exact IH'; exact En.
  - unfold Finish. destruct (ct_finished tr); exact IH'.
  - exact IH'.
  - rewrite EventsDetail_eq. cbn [fst ct_events]. apply Forall_app. split.
    + apply Forall_forall. intros ce Hin. apply (proj1 (Forall_forall _ _) IH'). rewrite <- (firstn_skipn (unread n (zlen (ct_events tr)))). apply in_or_app. left. exact Hin.
    + apply Forall_map. apply Forall_forall. intros ce Hin. apply from_call_read. apply (proj1 (Forall_forall _ _) IH).
      rewrite <- (firstn_skipn (unread n (zlen (ct_events tr)))). apply in_or_app. right. exact Hin.
Qed.
Lemma truncated_bound h c0 : fresh c0 -> ct_truncated (run h c0) <= zlen (logs h).
Proof.
  intros H. destruct (stored_with_setmax Sprintf CallersFrames h c0 H) as [_ E]. rewrite E. unfold zlen. lia.
Qed.

(** What a read shows of it. *)
Lemma shown_call h e k f a ce er n s rest : is_call h e k f a ce ->
  let ev := snd (snapshotEvent Sprintf CallersFrames (e_world er) ce s) in
  let h' := h ++ [(er, CallEvents n s)] ++ rest in
  When ev = e_now e /\ IsError ev = is_error_kind k /\ (s = false -> Stack ev = []) /\
  exists r, In r h' /\ is_read r = true /\ What ev = Sprintf (e_world (if is_lazy_kind k then fst r else e)) f a.
Proof.
  intros (H2 & H3 & H4 & H5 & H6) ev h'. unfold ev. rewrite shown_eq. cbn [When IsError What Stack].
  split; [exact H2|]. split; [exact H3|]. split; [intros ->; reflexivity|].
  assert (Hread : In (er, CallEvents n s) h') by (unfold h'; apply in_or_app; right; left; reflexivity).
  destruct (z_str (ce_what ce)) as [t|].
  - destruct H6 as (r & H6 & ->). exists (if is_lazy_kind k then r else (er, CallEvents n s)). destruct (is_lazy_kind k).
    + destruct (H6 eq_refl) as [A B]. split; [apply in_or_app; left; exact A|]. split; [exact B|reflexivity].
    + split; [exact Hread|]. split; reflexivity.
  - exists (er, CallEvents n s). split; [exact Hread|]. split; [reflexivity|]. rewrite H6, H4, H5. reflexivity.
Qed.
Lemma read_from_calls h c0 e n s rest ev : fresh c0 ->
  In ev (snd (EventsDetail Sprintf CallersFrames e n s (run h c0))) ->
  let h' := h ++ [(e, CallEvents n s)] ++ rest in
  (event_of_trace h' ev \/ truncation_marker h' ev) /\ (s = false -> Stack ev = []).
Proof.
  intros H Hin h'. rewrite EventsDetail_eq in Hin. cbn [snd] in Hin. set (tr := run h c0) in *.
  set (evs := map (fun c => snd (snapshotEvent Sprintf CallersFrames (e_world e) c s)) (skipn (unread n (zlen (ct_events tr))) (ct_events tr))) in *.
  assert (Hread : In (e, CallEvents n s) h') by (unfold h'; apply in_or_app; right; left; reflexivity).
  assert (Real : In ev evs -> (event_of_trace h' ev \/ truncation_marker h' ev) /\ (s = false -> Stack ev = [])).
  { intros Hev. unfold evs in Hev. apply in_map_iff in Hev as (ce & <- & Hce).
    assert (F : from_call h ce). { apply (proj1 (Forall_forall _ _) (stored_from_calls h c0 H)). fold tr. rewrite <- (firstn_skipn (unread n (zlen (ct_events tr)))). apply in_or_app. right. exact Hce. }
    destruct F as (e1 & k & f & a & H1 & H2). destruct (shown_call h e1 k f a ce e n s rest H2) as (A & B & C & r & D1 & D2 & D3).
    split; [left|exact C]. exists e1, k, f, a, r. split; [apply logs_more; exact H1|]. repeat (split; [assumption|]). assumption. }
  destruct (Z.ltb_spec 0 (ct_truncated tr)) as [Ht|Ht]; [|apply Real; exact Hin].
  destruct evs as [|ev0 evs]; [contradiction|]. apply in_app_iff in Hin as [Hin|[<-|[]]]; [apply Real; right; exact Hin|].
  split; [|reflexivity]. right. exists (e, CallEvents n s), (ct_truncated tr). split; [exact Hread|]. split; [reflexivity|]. split; [|reflexivity].
  split; [exact Ht|]. pose proof (truncated_bound h c0 H). pose proof (logs_zlen_more h ([(e, CallEvents n s)] ++ rest)). unfold h'. fold tr in H0. lia.
Qed.

(** After Finish every complete read shows the same. *)
Definition same_events (tr : coreTrace) (l1 l2 : list Event) : Prop :=
  map (fun ev => (What ev, IsError ev)) l1 = map (fun ev => (What ev, IsError ev)) l2 /\
  (ct_truncated tr = 0 -> map When l1 = map When l2).
Lemma complete_reads e1 s1 e2 s2 h tr : ct_finished tr = true ->
  same_events tr (snd (EventsDetail Sprintf CallersFrames e1 (-1) s1 tr))
                 (snd (EventsDetail Sprintf CallersFrames e2 (-1) s2 (run h (fst (EventsDetail Sprintf CallersFrames e1 (-1) s1 tr))))).
Proof.
  intros Hf. assert (Hk : forall t : coreTrace, unread (-1) (zlen (ct_events t)) = 0%nat) by (intros t; unfold unread; cbn; lia).
  rewrite !EventsDetail_eq, !Hk. cbn zeta. cbn [firstn skipn app fst snd].
  set (tr1 := MkCT _ _ _ _ _ _ _ _ _ _ _). assert (Hf1 : ct_finished tr1 = true) by exact Hf.
  destruct (run_finished_fields Sprintf CallersFrames h tr1 Hf1) as (_ & _ & _ & Ht & Hlen).
  change (ct_truncated tr1) with (ct_truncated tr) in Ht. rewrite Ht.
  set (l1 := map (fun c => snd (snapshotEvent Sprintf CallersFrames (e_world e1) c s1)) (ct_events tr)) in *.
  set (l2 := map (fun c => snd (snapshotEvent Sprintf CallersFrames (e_world e2) c s2)) (ct_events (run h tr1))) in *.
  assert (Hl : map (fun ev => (When ev, What ev, IsError ev)) l1 = map (fun ev => (When ev, What ev, IsError ev)) l2).
  { apply list_eq_nth_error. intros i. unfold l1, l2. rewrite !nth_error_map.
    destruct (nth_error (ct_events tr) i) as [ce|] eqn:En; cbn [option_map].
    - assert (En1 : nth_error (ct_events tr1) i = Some (fst (snapshotEvent Sprintf CallersFrames (e_world e1) ce s1))).
      { unfold tr1. cbn [ct_events]. rewrite nth_error_map, En. reflexivity. }
      destruct (run_settled Sprintf CallersFrames h tr1 i _ _ _ _ _ En1 (snapshot_after Sprintf CallersFrames (e_world e1) ce s1)) as (ce' & En2 & Hs).
      rewrite En2. cbn [option_map]. rewrite (shown_settled Sprintf CallersFrames _ _ _ _ _ _ _ Hs), shown_eq. reflexivity.
    - apply nth_error_None in En.
      assert (Hn : (length (ct_events (run h tr1)) <= i)%nat) by (rewrite Hlen; unfold tr1; cbn [ct_events]; rewrite map_length; exact En).
      apply nth_error_None in Hn. rewrite Hn. reflexivity. }
  assert (Hw : map (fun ev => (What ev, IsError ev)) l1 = map (fun ev => (What ev, IsError ev)) l2).
  { apply (f_equal (map (fun x : Z * string * bool => (snd (fst x), snd x)))) in Hl. rewrite !map_map in Hl. exact Hl. }
  assert (Ht' : map When l1 = map When l2).
  { apply (f_equal (map (fun x : Z * string * bool => fst (fst x)))) in Hl. rewrite !map_map in Hl. exact Hl. }
  clearbody l1 l2. split.
  - destruct (0 <? ct_truncated tr); [|exact Hw]. destruct l1 as [|a l1], l2 as [|b l2]; try discriminate; [exact Hw|]. cbn [app tl].
    rewrite !map_app. cbn [map] in Hw. injection Hw as _ _ Hw. rewrite Hw. reflexivity.
  - intros H0. rewrite H0 in *. cbn. exact Ht'.
Qed.
End Events.

Section Theorems.
Context {arg world pc : Type}.
Variable Sprintf : world -> string -> list arg -> string.
Variable CallersFrames : list pc -> list rframe.
Notation env := (env arg world pc).
Notation run := (run Sprintf CallersFrames).
Notation Events := (Events Sprintf CallersFrames).
Notation machine := (machine arg world pc).

(** C33, C39.  Any number of goroutines, any programs, any schedule: the calls on the
    trace, in the order of its lock, explain the trace and every snapshot. *)
Theorem C33_C39_snapshots_of_every_schedule :
  forall c0 programs sched,
    let m := mrun Sprintf CallersFrames sched (start c0 programs) in
    m_core m = run (m_calls m) c0 /\
    Forall (searched_from Sprintf CallersFrames c0 (m_calls m)) (m_searched m) /\
    Forall (streamed_from Sprintf CallersFrames c0 (m_calls m)) (m_streamed m).
Proof. intros c0 programs sched m. destruct (run_ok Sprintf CallersFrames c0 programs sched) as (A & _ & B & C). auto. Qed.

(** C33.  A search snapshot that says finished is complete: from then on every read of the
    trace shows the same events, and the trace has the same error flag. *)
Theorem C33_finished_snapshot_is_complete :
  forall (c0 : coreTrace arg pc) programs sched st,
    let m := mrun Sprintf CallersFrames sched (start c0 programs) in
    In st (m_searched m) -> TraceFinished st = true ->
    Finished (m_core m) = true /\ TraceErrored st = Errored (m_core m) /\
    forall e, let evs := snd (Events e (m_core m)) in
      map (fun ev => (What ev, Stack ev, IsError ev)) (TraceEvents st) = map (fun ev => (What ev, Stack ev, IsError ev)) evs /\
      (ct_truncated (m_core m) = 0 -> TraceEvents st = evs).
Proof.
  intros c0 programs sched st m Hin Hfin. destruct (run_ok Sprintf CallersFrames c0 programs sched) as (Hc & _ & _ & Hr). fold m in Hc, Hr.
  pose proof (proj1 (Forall_forall _ _) Hr _ Hin) as (h1 & h2 & h3 & h4 & rest & now & e1 & Eh & _ & Hf & He & Hev & _).
  rewrite Hf in Hfin.
  assert (F3 : Finished (run (h1 ++ h2 ++ h3) c0) = true) by (rewrite app_assoc, run_app; apply run_finished_fields; exact Hfin).
  assert (F4 : Finished (run (h1 ++ h2 ++ h3 ++ h4) c0) = true).
  { replace (h1 ++ h2 ++ h3 ++ h4) with ((h1 ++ h2 ++ h3) ++ h4) by (rewrite <- !app_assoc; reflexivity). rewrite run_app. apply run_finished_fields. exact F3. }
  assert (Em : m_core m = run ([(e1, CallEvents (-1) true)] ++ rest) (run (h1 ++ h2 ++ h3 ++ h4) c0)).
  { rewrite Hc, Eh, <- run_app. f_equal. rewrite <- !app_assoc. reflexivity. }
  assert (Em' : m_core m = run (h4 ++ [(e1, CallEvents (-1) true)] ++ rest) (run (h1 ++ h2 ++ h3) c0)).
  { rewrite Hc, Eh, <- run_app. f_equal. rewrite <- !app_assoc. reflexivity. }
  split; [rewrite Em; apply run_finished_fields; exact F4|].
  split; [rewrite He, Em'; unfold Errored; destruct (run_finished_fields Sprintf CallersFrames (h4 ++ [(e1, CallEvents (-1) true)] ++ rest) _ F3) as (_ & A & _); symmetry; exact A|].
  intros e evs. unfold evs. rewrite Hev.
  pose proof (reads_stable_after_finish Sprintf CallersFrames e1 e rest (run (h1 ++ h2 ++ h3 ++ h4) c0) F4) as R.
  rewrite run_app in Em. unfold M_Trace.run at 2 in Em. cbn [fold_left] in Em. unfold do_call in Em. cbn [fst snd] in Em. unfold M_Trace.Events in *.
  destruct (EventsDetail Sprintf CallersFrames e1 (-1) true (run (h1 ++ h2 ++ h3 ++ h4) c0)) as [tr1 ev1] eqn:E1. cbn [fst] in Em. rewrite <- Em in R.
  destruct (EventsDetail Sprintf CallersFrames e (-1) true (m_core m)) as [tr2 ev2] eqn:E2. cbn [snd]. destruct R as [R1 R2]. split; [exact R1|].
  intros H0. apply R2. rewrite EventsDetail_eq in E1. injection E1 as E1 _.
  assert (F1 : ct_finished tr1 = true) by (rewrite <- E1; exact F4).
  destruct (run_finished_fields Sprintf CallersFrames rest tr1 F1) as (_ & _ & _ & T & _). rewrite <- Em, H0, <- E1 in T. symmetry. exact T.
Qed.

(** A search snapshot that says errored is right. *)
Theorem C33_errored_snapshot_is_right :
  forall g start_time id (pooled : coreTrace arg pc) source category programs sched st,
    let c0 := newCoreTrace g start_time id pooled source category in
    let m := mrun Sprintf CallersFrames sched (start c0 programs) in
    In st (m_searched m ++ m_streamed m) -> TraceErrored st = true ->
    existsb is_error_log (before_finish (m_calls m)) = true /\ Errored (m_core m) = true.
Proof.
  intros g start_time id pooled source category programs sched st c0 m Hin He.
  destruct (run_ok Sprintf CallersFrames c0 programs sched) as (Hc & _ & Hs & Hr). fold m in Hc, Hr, Hs.
  assert (H : exists h rest, m_calls m = h ++ rest /\ Errored (run h c0) = true).
  { apply in_app_or in Hin as [Hin|Hin].
    - pose proof (proj1 (Forall_forall _ _) Hr _ Hin) as (h1 & h2 & h3 & h4 & rest & now & e1 & Eh & _ & _ & E & _).
      exists (h1 ++ h2 ++ h3), (h4 ++ [(e1, CallEvents (-1) true)] ++ rest). split; [rewrite Eh, <- !app_assoc; reflexivity|congruence].
    - pose proof (proj1 (Forall_forall _ _) Hs _ Hin) as (h1 & h2 & h3 & h4 & h5 & rest & e1 & now & Eh & _ & _ & _ & E & _). cbn zeta in *.
      eexists _, rest. split; [|rewrite <- E; exact He]. rewrite Eh, <- !app_assoc. reflexivity. }
  destruct H as (h & rest & Eh & Hh). rewrite Hc, Eh.
  assert (F : ct_finished c0 = false) by reflexivity.
  rewrite (errored_spec_gen Sprintf CallersFrames h c0 F) in Hh. rewrite (errored_spec_gen Sprintf CallersFrames (h ++ rest) c0 F). rewrite before_finish_app.
  change (ct_errored c0) with false in *. cbn [orb] in *. destruct (existsb is_finish h); [auto|]. rewrite !existsb_app, Hh. auto.
Qed.

(** C33, C39.  Every event of a snapshot is an event of the trace or the marker that counts the
    truncated ones; streamed events have no stack. *)
Theorem C33_C39_events_are_events_of_the_trace :
  forall g start_time id (pooled : coreTrace arg pc) source category programs sched st ev,
    let c0 := newCoreTrace g start_time id pooled source category in
    let m := mrun Sprintf CallersFrames sched (start c0 programs) in
    In st (m_searched m ++ m_streamed m) -> In ev (TraceEvents st) ->
    event_of_trace Sprintf (m_calls m) ev \/ truncation_marker (m_calls m) ev.
Proof.
  intros g start_time id pooled source category programs sched st ev c0 m Hin Hev.
  destruct (run_ok Sprintf CallersFrames c0 programs sched) as (Hc & _ & Hs & Hr). fold m in Hc, Hr, Hs.
  assert (F : fresh c0) by apply fresh_new.
  apply in_app_or in Hin as [Hin|Hin].
  - pose proof (proj1 (Forall_forall _ _) Hr _ Hin) as (h1 & h2 & h3 & h4 & rest & now & e1 & Eh & _ & _ & _ & E & _). rewrite E in Hev.
    destruct (read_from_calls Sprintf CallersFrames _ c0 e1 (-1) true rest ev F Hev) as [R _].
    rewrite Eh. replace (h1 ++ h2 ++ h3 ++ h4 ++ [(e1, CallEvents (-1) true)] ++ rest) with ((h1 ++ h2 ++ h3 ++ h4) ++ [(e1, CallEvents (-1) true)] ++ rest) by (rewrite <- !app_assoc; reflexivity). exact R.
  - pose proof (proj1 (Forall_forall _ _) Hs _ Hin) as (h1 & h2 & h3 & h4 & h5 & rest & e1 & now & Eh & E & _). cbn zeta in *. rewrite E in Hev.
    destruct (read_from_calls Sprintf CallersFrames _ c0 e1 _ false (h3 ++ h4 ++ h5 ++ rest) ev F Hev) as [R _].
    rewrite Eh. rewrite app_assoc. exact R.
Qed.
Theorem C39_streamed_without_stacks :
  forall g start_time id (pooled : coreTrace arg pc) source category programs sched st ev,
    let c0 := newCoreTrace g start_time id pooled source category in
    let m := mrun Sprintf CallersFrames sched (start c0 programs) in
    In st (m_streamed m) -> In ev (TraceEvents st) -> Stack ev = [].
Proof.
  intros g start_time id pooled source category programs sched st ev c0 m Hin Hev.
  destruct (run_ok Sprintf CallersFrames c0 programs sched) as (Hc & _ & Hs & Hr). fold m in Hc, Hr, Hs.
  assert (F : fresh c0) by apply fresh_new.
  pose proof (proj1 (Forall_forall _ _) Hs _ Hin) as (h1 & h2 & h3 & h4 & h5 & rest & e1 & now & Eh & E & _). cbn zeta in *. rewrite E in Hev.
  destruct (read_from_calls Sprintf CallersFrames _ c0 e1 _ false (h3 ++ h4 ++ h5 ++ rest) ev F Hev) as [_ R]. apply R. reflexivity.
Qed.

(** C39.  Every event call and every Finish is followed by a snapshot all of which is read
    after the call. *)
Theorem C39_every_call_is_followed_by_a_snapshot :
  forall (c0 : coreTrace arg pc) programs sched ha e c hb,
    let m := mrun Sprintf CallersFrames sched (start c0 programs) in
    forallb (forallb through_publisher) programs = true -> all_returned m ->
    m_calls m = ha ++ (e, c) :: hb -> publishes c = true ->
    exists st, In st (m_streamed m) /\ streamed_from Sprintf CallersFrames (run (ha ++ [(e, c)]) c0) hb st.
Proof.
  intros c0 programs sched ha e c hb m Hp Hd E Hc. apply Exists_exists.
  apply (all_returned_followed Sprintf CallersFrames c0 m); try assumption. apply run_followed. exact Hp.
Qed.

(** C39.  So, when everybody is done with a finished trace, the complete trace has been streamed. *)
Theorem C39_finished_trace_is_streamed_completely :
  forall (c0 : coreTrace arg pc) programs sched,
    let m := mrun Sprintf CallersFrames sched (start c0 programs) in
    forallb (forallb through_publisher) programs = true -> all_returned m ->
    Finished c0 = false -> Finished (m_core m) = true ->
    exists st, In st (m_streamed m) /\ TraceFinished st = true /\ TraceErrored st = Errored (m_core m) /\
      (forall t, TraceDuration st = Duration t (m_core m)) /\
      forall e, let evs := snd (Events e (m_core m)) in
        map (fun ev => (What ev, IsError ev)) (TraceEvents st) = map (fun ev => (What ev, IsError ev)) evs /\
        (ct_truncated (m_core m) = 0 -> map When (TraceEvents st) = map When evs).
Proof.
  intros c0 programs sched m Hp Hd H0 Hf. destruct (run_ok Sprintf CallersFrames c0 programs sched) as (Hc & _). fold m in Hc.
  rewrite Hc, (finished_spec_gen Sprintf CallersFrames _ c0 H0) in Hf. apply existsb_exists in Hf as ([ef cf] & Hin & Hcf).
  apply in_split in Hin as (ha & hb & Eh). unfold is_finish in Hcf. cbn [snd] in Hcf. destruct cf; try discriminate.
  destruct (C39_every_call_is_followed_by_a_snapshot c0 programs sched ha ef CallFinish hb Hp Hd Eh eq_refl) as (st & Hst & h1 & h2 & h3 & h4 & h5 & rest & e1 & now & Eb & Eev & Edu & Efi & Eer & _).
  fold m in Hst. set (c1 := run (ha ++ [(ef, CallFinish)]) c0) in *. cbn zeta in *.
  assert (F1 : Finished c1 = true).
  { unfold c1. rewrite (finished_spec_gen Sprintf CallersFrames _ c0 H0), existsb_app. cbn. apply orb_true_r. }
  assert (Fx : forall h, Finished (run h c1) = true) by (intros h; apply run_finished_fields; exact F1).
  rewrite Fx in *. assert (Em : m_core m = run hb c1). { rewrite Hc, Eh. unfold c1. rewrite <- run_app, <- app_assoc. reflexivity. }
  assert (Fr : forall h, ct_errored (run h c1) = ct_errored c1 /\ ct_duration (run h c1) = ct_duration c1) by (intros h; destruct (run_finished_fields Sprintf CallersFrames h c1 F1) as (_ & A & B & _); auto).
  exists st. split; [exact Hst|]. split; [exact Efi|]. split; [rewrite Eer, Em; unfold Errored; rewrite !(proj1 (Fr _)); reflexivity|]. split.
  { intros t. rewrite Edu, Em. unfold Duration. pose proof (fun h => Fx h) as Fx'. unfold Finished in Fx'. rewrite !Fx', !(proj2 (Fr _)). reflexivity. }
  intros e. rewrite Eev.
  assert (Em' : m_core m = run (h3 ++ h4 ++ h5 ++ rest) (fst (EventsDetail Sprintf CallersFrames e1 (-1) false (run (h1 ++ h2) c1)))).
  { rewrite Em, Eb. replace (h1 ++ h2 ++ [(e1, CallEvents (-1) false)] ++ h3 ++ h4 ++ h5 ++ rest) with ((h1 ++ h2) ++ [(e1, CallEvents (-1) false)] ++ h3 ++ h4 ++ h5 ++ rest) by (rewrite <- !app_assoc; reflexivity). rewrite run_app, run_app. reflexivity. }
  pose proof (complete_reads Sprintf CallersFrames e1 false e true (h3 ++ h4 ++ h5 ++ rest) (run (h1 ++ h2) c1) (Fx _)) as [R1 R2].
  rewrite <- Em' in R1, R2. split; [exact R1|]. intros T. apply R2.
  destruct (run_finished_fields Sprintf CallersFrames (h1 ++ h2) c1 F1) as (_ & _ & _ & T1 & _).
  destruct (run_finished_fields Sprintf CallersFrames hb c1 F1) as (_ & _ & _ & T2 & _). rewrite <- Em in T2. congruence.
Qed.

Lemma unread_one n : unread 1 (Z.of_nat (S n)) = n.
Proof. unfold unread. cbn [Z.leb Z.compare orb]. destruct (Z.ltb_spec (Z.of_nat (S n)) 1); lia. Qed.
Lemma latest_event (c0 : coreTrace arg pc) programs sched ha e k f a hb :
    let m := mrun Sprintf CallersFrames sched (start c0 programs) in
    fresh c0 ->
    forallb (forallb through_publisher) programs = true -> all_returned m ->
    Finished (m_core m) = false ->
    Forall (fun c => is_setmax c = false) (m_calls m) -> zlen (logs (m_calls m)) <= ct_eventsmax c0 ->
    m_calls m = ha ++ (e, CallLog k f a) :: hb -> logs hb = [] ->
    exists st ev r, In st (m_streamed m) /\ TraceEvents st = [ev] /\ TraceFinished st = false /\ TraceErrored st = Errored (m_core m) /\
      When ev = e_now e /\ IsError ev = is_error_kind k /\ Stack ev = [] /\
      In r (m_calls m) /\ is_read r = true /\ What ev = Sprintf (e_world (if is_lazy_kind k then fst r else e)) f a.
Proof.
  intros m Fr Hp Hd Hact Hset Hlim Eh Hlast.
  destruct (run_ok Sprintf CallersFrames c0 programs sched) as (Hc & _). fold m in Hc.
  destruct (C39_every_call_is_followed_by_a_snapshot c0 programs sched ha e _ hb Hp Hd Eh eq_refl) as (st & Hst & h1 & h2 & h3 & h4 & h5 & rest & e1 & now & Eb & Eev & Edu & Efi & Eer & _).
  fold m in Hst. set (call := (e, CallLog k f a)) in *. set (c1 := run (ha ++ [call]) c0) in *. cbn zeta in *.
  assert (F0 : ct_finished c0 = false) by apply Fr. assert (X0 : ct_errored c0 = false) by apply Fr.
  assert (NoFin : existsb is_finish (m_calls m) = false) by (rewrite <- (finished_spec_gen Sprintf CallersFrames _ c0 F0), <- Hc; exact Hact).
  assert (NF : forall l1 l2, m_calls m = l1 ++ l2 -> existsb is_finish l1 = false /\ existsb is_finish l2 = false).
  { intros l1 l2 E. rewrite E, existsb_app in NoFin. apply orb_false_iff in NoFin. exact NoFin. }
  (* of every part of the history after the call *)
  assert (At : forall x y, hb = x ++ y -> Finished (run x c1) = false /\ ct_truncated (run x c1) = 0 /\
                 map ev_info (ct_events (run x c1)) = map call_info (logs (ha ++ [call]))).
  { intros x y E. assert (Ecalls : m_calls m = ((ha ++ [call]) ++ x) ++ y) by (rewrite Eh, E, <- !app_assoc; reflexivity).
    destruct (NF _ _ Ecalls) as [N1 N2]. unfold c1. rewrite <- run_app.
    split; [rewrite (finished_spec_gen Sprintf CallersFrames _ c0 F0); exact N1|].
    assert (Hs : Forall (fun c => is_setmax c = false) ((ha ++ [call]) ++ x)) by (rewrite Ecalls in Hset; apply Forall_app in Hset; apply Hset).
    assert (Lx : logs ((ha ++ [call]) ++ x) = logs (ha ++ [call])).
    { destruct (NF (ha ++ [call]) (x ++ y)) as [N3 _]; [rewrite Ecalls, <- !app_assoc; reflexivity|]. rewrite logs_app, N3.
      rewrite E, logs_app in Hlast. destruct (existsb is_finish x); [rewrite Hlast; apply app_nil_r|]. apply app_eq_nil in Hlast as [-> _]. apply app_nil_r. }
    destruct (stored_first_M Sprintf CallersFrames _ c0 Fr Hs) as [S1 S2]. rewrite Lx in S1, S2.
    assert (Len : zlen (logs (ha ++ [call])) <= ct_eventsmax c0). { rewrite <- Lx. rewrite Ecalls in Hlim. pose proof (logs_zlen_more ((ha ++ [call]) ++ x) y) as L. exact (Z.le_trans _ _ _ L Hlim). }
    unfold zlen in Len. split.
    - rewrite S2, skipn_all2 by (clear - Len; lia). reflexivity.
    - rewrite S1, firstn_all2 by (clear - Len; lia). reflexivity. }
  assert (Elogs : logs (ha ++ [call]) = logs ha ++ [call]).
  { destruct (NF ha (call :: hb) Eh) as [N _]. rewrite logs_app, N. reflexivity. }
  (* the event in its place *)
  assert (Stored : log_stored (run ha c0) call = true).
  { unfold log_stored, call. cbn [snd]. destruct (NF ha (call :: hb) Eh) as [N _].
    pose proof (finished_spec_gen Sprintf CallersFrames ha c0 F0) as F. unfold Finished in F. rewrite F, N. cbn [negb andb].
    assert (Hs : Forall (fun c => is_setmax c = false) ha) by (rewrite Eh in Hset; apply Forall_app in Hset; apply Hset).
    assert (Mx : ct_eventsmax (run ha c0) = ct_eventsmax c0).
    { clear -Hs. generalize c0. induction Hs as [|[e0 c] l Hc Hl IH]; intros tr; [reflexivity|].
      rewrite run_cons, IH. destruct c; cbn in Hc; try discriminate; unfold do_call; cbn [fst snd].
      - rewrite do_log_eq. destruct (ct_finished tr); [reflexivity|]. unfold add_event. destruct (is_error_kind k); cbn [mark_errored ct_eventsmax ct_events]; destruct (_ <=? _); reflexivity.
      - unfold Finish. destruct (ct_finished tr); reflexivity.
      - rewrite EventsDetail_eq. reflexivity. }
    rewrite Mx. apply Z.ltb_lt. destruct (stored_first_M Sprintf CallersFrames ha c0 Fr Hs) as [S1 _].
    apply (f_equal (@length _)) in S1. rewrite !map_length in S1. pose proof (firstn_le_length (Z.to_nat (ct_eventsmax c0)) (logs ha)) as L.
    rewrite Eh in Hlim. replace (ha ++ call :: hb) with ((ha ++ [call]) ++ hb) in Hlim by (rewrite <- app_assoc; reflexivity).
    pose proof (logs_zlen_more (ha ++ [call]) hb) as L2. rewrite Elogs in L2. unfold zlen in *. rewrite app_length in L2. cbn [length] in L2.
    rewrite firstn_length in S1. clear - S1 L L2 Hlim. lia. }
  assert (Lha : length (ct_events (run ha c0)) = length (logs ha)).
  { destruct (At [] hb eq_refl) as (_ & _ & A). apply (f_equal (@length _)) in A. rewrite !map_length, Elogs, app_length in A. cbn [M_Trace.run fold_left length] in A.
    unfold M_Trace.run in A. cbn [fold_left] in A. unfold c1 in A. rewrite run_app in A. unfold M_Trace.run at 1 in A. cbn [fold_left] in A. rewrite do_call_len, Stored in A. clear - A. lia. }
  assert (A12 : hb = (h1 ++ h2) ++ [(e1, CallEvents (if Finished (run h1 c1) then -1 else 1) false)] ++ h3 ++ h4 ++ h5 ++ rest) by (rewrite Eb, <- !app_assoc; reflexivity).
  destruct (At h1 _ Eb) as (B1 & _). rewrite B1 in *. destruct (At _ _ A12) as (_ & B2 & B3).
  destruct (call_in_place Sprintf CallersFrames ha e k f a (h1 ++ h2) c0 Stored) as (ce & Ece & Hce). fold call in Ece, Hce.
  replace (run (ha ++ call :: h1 ++ h2) c0) with (run (h1 ++ h2) c1) in Ece by (unfold c1; rewrite <- run_app, <- app_assoc; reflexivity).
  set (tr := run (h1 ++ h2) c1) in *.
  assert (Ltr : length (ct_events tr) = S (length (logs ha))).
  { apply (f_equal (@length _)) in B3. rewrite !map_length, Elogs, app_length in B3. cbn [length] in B3. rewrite B3. apply Nat.add_1_r. }
  assert (Etr : skipn (unread 1 (zlen (ct_events tr))) (ct_events tr) = [ce]).
  { replace (unread 1 (zlen (ct_events tr))) with (length (logs ha)).
    - rewrite Lha in Ece. revert Ltr Ece. clear. generalize (logs ha) (ct_events tr). intros l l'. generalize (length l). clear l. intros n. revert l'.
      induction n as [|n IH]; intros [|x l'] L E; cbn in *; try discriminate.
      + injection E as ->. destruct l'; [reflexivity|discriminate].
      + apply IH; [lia|exact E].
    - unfold zlen. rewrite Ltr. symmetry. apply unread_one. }
  rewrite EventsDetail_eq in Eev. cbn zeta in Eev. cbn [snd] in Eev. rewrite B2, Etr in Eev. cbn [map Z.ltb Z.compare] in Eev.
  destruct (shown_call Sprintf CallersFrames _ e k f a ce e1 1 false (h3 ++ h4 ++ h5 ++ rest) Hce) as (W1 & W2 & W3 & r & W4 & W5 & W6).
  exists st, (snd (snapshotEvent Sprintf CallersFrames (e_world e1) ce false)), r. split; [exact Hst|]. split; [exact Eev|].
  assert (A4 : hb = (h1 ++ h2 ++ [(e1, CallEvents 1 false)] ++ h3 ++ h4) ++ h5 ++ rest) by (rewrite Eb, <- !app_assoc; reflexivity).
  assert (A5 : hb = (h1 ++ h2 ++ [(e1, CallEvents 1 false)] ++ h3 ++ h4 ++ h5) ++ rest) by (rewrite Eb, <- !app_assoc; reflexivity).
  split; [rewrite Efi; apply (At _ _ A4)|].
  split.
  { rewrite Eer, Hc, Eh. unfold c1. rewrite <- run_app, !(errored_spec_gen Sprintf CallersFrames _ c0 F0). rewrite X0. cbn [orb].
    replace (ha ++ call :: hb) with (((ha ++ [call]) ++ (h1 ++ h2 ++ [(e1, CallEvents 1 false)] ++ h3 ++ h4 ++ h5)) ++ rest) by (rewrite <- app_assoc, <- A5, <- app_assoc; reflexivity).
    set (l := (ha ++ [call]) ++ _). rewrite (before_finish_app l rest).
    destruct (NF l rest) as [N _]; [rewrite Eh; unfold l; rewrite <- app_assoc, <- A5, <- app_assoc; reflexivity|]. rewrite N, existsb_app.
    assert (Hno : existsb is_error_log (before_finish rest) = false).
    { rewrite A5, logs_app in Hlast. destruct (NF (ha ++ [call]) hb) as [_ N2]; [rewrite Eh, <- app_assoc; reflexivity|]. rewrite A5, existsb_app in N2. apply orb_false_iff in N2 as [N2 _]. rewrite N2 in Hlast.
      apply app_eq_nil in Hlast as [_ Hl]. unfold logs in Hl. clear -Hl. induction (before_finish rest) as [|[e0 c] l IH]; [reflexivity|]. cbn in *. destruct c; try discriminate; cbn; auto. }
    rewrite Hno, orb_false_r. reflexivity. }
  split; [exact W1|]. split; [exact W2|]. split; [apply W3; reflexivity|]. split; [|split; [exact W5|exact W6]].
  rewrite Eh, A12. replace (ha ++ call :: (h1 ++ h2) ++ [(e1, CallEvents 1 false)] ++ h3 ++ h4 ++ h5 ++ rest) with ((ha ++ call :: h1 ++ h2) ++ [(e1, CallEvents 1 false)] ++ h3 ++ h4 ++ h5 ++ rest) by (rewrite <- !app_assoc; cbn [app]; rewrite <- !app_assoc; reflexivity).
  exact W4.
Qed.
(** C39.  And of an active trace within its limit, the latest event has been streamed. *)
Theorem C39_latest_event_is_streamed :
  forall g start_time id (pooled : coreTrace arg pc) source category programs sched ha e k f a hb,
    let c0 := newCoreTrace g start_time id pooled source category in
    let m := mrun Sprintf CallersFrames sched (start c0 programs) in
    forallb (forallb through_publisher) programs = true -> all_returned m ->
    Finished (m_core m) = false ->
    Forall (fun c => is_setmax c = false) (m_calls m) -> zlen (logs (m_calls m)) <= g_maxEvents g ->
    m_calls m = ha ++ (e, CallLog k f a) :: hb -> logs hb = [] ->
    exists st ev r, In st (m_streamed m) /\ TraceEvents st = [ev] /\ TraceFinished st = false /\ TraceErrored st = Errored (m_core m) /\
      When ev = e_now e /\ IsError ev = is_error_kind k /\ Stack ev = [] /\
      In r (m_calls m) /\ is_read r = true /\ What ev = Sprintf (e_world (if is_lazy_kind k then fst r else e)) f a.
Proof.
  intros g start_time id pooled source category programs sched ha e k f a hb c0 m.
  exact (latest_event c0 programs sched ha e k f a hb (fresh_new _ _ _ _ _ _)).
Qed.
End Theorems.
Print Assumptions C33_C39_snapshots_of_every_schedule.
Print Assumptions C33_finished_snapshot_is_complete.
Print Assumptions C33_errored_snapshot_is_right.
Print Assumptions C33_C39_events_are_events_of_the_trace.
Print Assumptions C39_streamed_without_stacks.
Print Assumptions C39_every_call_is_followed_by_a_snapshot.
Print Assumptions C39_finished_trace_is_streamed_completely.
Print Assumptions C39_latest_event_is_streamed.

(** Schedules: goroutine i at time t, so many steps. *)
Definition ds (i : nat) (t : Z) (n : nat) : list (nat * env nat demo_world Z) := repeat (i, demo_e t) n.
Definition drun (programs : list (list (gcall nat))) (sched : list (list (nat * env nat demo_world Z))) : machine nat demo_world Z :=
  mrun demo_Sprintf demo_frames (List.concat sched) (start (demo_new 10) programs).
Definition dlog (k : kind) (f : string) : call nat := CallLog k f [].

(** Finding: two goroutines log an event each, and one event is streamed twice, the other never. *)
Theorem C39_each_event_once_refuted :
  exists programs sched, let m := drun programs sched in
    programs = [[GPublished (dlog KTracef "a")]; [GPublished (dlog KTracef "b")]] /\ all_returned m /\
    map What (snd (Events demo_Sprintf demo_frames (demo_e 200) (m_core m))) = ["a"; "b"] /\
    map (fun st => map What (TraceEvents st)) (m_streamed m) = [["b"]; ["b"]].
Proof.
  eexists. exists [ds 0 101 1; ds 1 102 1; ds 0 103 7; ds 1 104 7]. split; [reflexivity|].
  split; [|split; vm_compute; reflexivity]. vm_compute. repeat constructor.
Qed.
Print Assumptions C39_each_event_once_refuted.

(** Finding: a streamed trace claims to be finished and holds one of two events. *)
Theorem C39_finished_means_complete_refuted :
  exists programs sched, let m := drun programs sched in
    map (fun st => (TraceFinished st, map What (TraceEvents st))) (m_streamed m) = [(false, ["a"]); (true, ["b"]); (true, ["a"; "b"])] /\
    all_returned m /\ Finished (m_core m) = true.
Proof.
  exists [[GPublished (dlog KTracef "a"); GPublished (dlog KTracef "b")]; [GPublished CallFinish]], [ds 0 101 8; ds 0 102 3; ds 1 103 1; ds 0 104 5; ds 1 105 7].
  split; [vm_compute; reflexivity|]. split; [vm_compute; repeat constructor|vm_compute; reflexivity].
Qed.
Print Assumptions C39_finished_means_complete_refuted.

(** Finding: a search result says finished with a duration that is not the trace's. *)
Theorem C33_finished_duration_refuted :
  exists programs sched, let m := drun programs sched in
    map (fun st => (TraceFinished st, TraceDuration st)) (m_searched m) = [(true, 10)] /\ Duration 200 (m_core m) = 20.
Proof. exists [[GSearch]; [GBare CallFinish]], [ds 0 110 1; ds 1 120 1; ds 0 121 4]. split; vm_compute; reflexivity. Qed.
Print Assumptions C33_finished_duration_refuted.

(** Finding: a search result says not errored and contains an error event. *)
Theorem C33_not_errored_with_error_event_refuted :
  exists programs sched, let m := drun programs sched in
    map (fun st => (TraceErrored st, map IsError (TraceEvents st))) (m_searched m) = [(false, [true])].
Proof. exists [[GSearch]; [GPublished (dlog KErrorf "bad")]], [ds 0 110 3; ds 1 120 3; ds 0 121 2]. vm_compute. reflexivity. Qed.
Print Assumptions C33_not_errored_with_error_event_refuted.

(** The theorems say something about these: a finished snapshot with events, an errored one,
    a goroutine that waits for the broker's lock. *)
Example C33_instance :
  let m := drun [[GSearch; GSearch]; [GBare (dlog KErrorf "bad"); GBare (dlog KLazyTracef "x"); GBare CallFinish]] [ds 1 101 2; ds 0 102 5; ds 1 103 1; ds 0 104 5] in
  all_returned m /\
  map (fun st => (TraceFinished st, TraceErrored st, map What (TraceEvents st))) (m_searched m) = [(false, true, ["bad"; "x"]); (true, true, ["bad"; "x"])].
Proof. split; [vm_compute; repeat constructor|vm_compute; reflexivity]. Qed.
Example C39_instance :
  let programs := [[GPublished (dlog KTracef "a"); GSearch]; [GPublished (dlog KLazyErrorf "b"); GBare (CallEvents 5 true)]] in
  let m := drun programs [ds 0 101 3; ds 1 102 3; ds 0 103 10; ds 1 104 10] in
  forallb (forallb through_publisher) programs = true /\ all_returned m /\ Finished (m_core m) = false /\
  zlen (logs (m_calls m)) = 2 /\
  map (fun st => map What (TraceEvents st)) (m_streamed m) = [["b"]; ["b"]] /\
  exists ha hb, m_calls m = ha ++ (demo_e 102, dlog KLazyErrorf "b") :: hb /\ ha <> [] /\ hb <> [] /\ logs hb = [].
Proof.
  split; [reflexivity|]. split; [vm_compute; repeat constructor|]. split; [vm_compute; reflexivity|]. split; [vm_compute; reflexivity|]. split; [vm_compute; reflexivity|].
  eexists [_], [_; _; _; _]. split; [vm_compute; reflexivity|]. split; [discriminate|]. split; [discriminate|reflexivity].
Qed.

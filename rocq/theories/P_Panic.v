(** C110: a panic leaves no lock held. *)
From Verif Require Import Go L_List M_Strings M_Types S_Trace M_Trace M_Mutex P_Mutex M_Locks P_Locks M_Panic.
From Coq Require Import Lia.
Open Scope nat_scope.
Open Scope list_scope.

Lemma ordered_release H p : NoDup H -> ordered [] p -> ordered H (map Rel H ++ p).
Proof.
  induction H as [|l H IH]; intros N Hp; [exact Hp|]. apply NoDup_cons_iff in N. destruct N as [N1 N2]. cbn [map app ordered]. split; [left; reflexivity|].
  cbn [remove]. destruct (lock_eq_dec l l) as [_|n]; [|contradiction]. rewrite notin_remove by exact N1. exact (IH N2 Hp).
Qed.
Lemma NoDup_remove_lock l H : NoDup H -> NoDup (remove lock_eq_dec l H).
Proof.
  induction H as [|x H IH]; intros N; [constructor|]. apply NoDup_cons_iff in N. destruct N as [N1 N2]. cbn [remove].
  destruct (lock_eq_dec l x); [exact (IH N2)|]. constructor; [|exact (IH N2)]. intros Hin. apply N1. exact (proj1 (in_remove _ _ _ _ Hin)).
Qed.
Lemma all_deferred H : filter deferred H = H.
Proof. induction H as [|[] H IH]; cbn; rewrite ?IH; reflexivity. Qed.
Lemma ordered_panic a : forall k H q p, NoDup H -> ordered H (a ++ q) -> ordered [] p ->
  ordered H (firstn k a ++ map Rel (held_after H (firstn k a)) ++ p).
Proof.
  induction a as [|[l|l] a IH]; intros [|k] H q p N Ho Hp; cbn [firstn held_after app]; try (apply ordered_release; assumption).
  - cbn [app ordered] in Ho. destruct Ho as [Ho1 Ho2]. cbn [ordered]. split; [exact Ho1|]. apply (IH k (l :: H) q p); [|exact Ho2|exact Hp].
    constructor; [|exact N]. intros Hin. specialize (Ho1 l Hin). lia.
  - cbn [app ordered] in Ho. destruct Ho as [Ho1 Ho2]. cbn [ordered]. split; [exact Ho1|]. apply (IH k _ q p); [apply NoDup_remove_lock; exact N|exact Ho2|exact Hp].
Qed.
Lemma ordered_attempt a p : ordered [] p -> ordered [] (attempt_locks a ++ p).
Proof.
  destruct a as [o [k|]]; cbn [attempt_locks fst snd]; intros Hp; [|apply ordered_op; exact Hp].
  unfold panics_at. rewrite all_deferred, <- app_assoc. apply (ordered_panic _ _ _ []); [constructor|apply ordered_op; reflexivity|exact Hp].
Qed.
Lemma ordered_attempts l : ordered [] (flat_map attempt_locks l).
Proof. rewrite <- (app_nil_r (flat_map attempt_locks l)). apply ordered_flat; [intros a q; apply ordered_attempt|reflexivity]. Qed.
Lemma good_attempts programs : good (lk_start (map (flat_map attempt_locks) programs)).
Proof.
  constructor; cbn.
  - intros i p E. rewrite nth_error_map in E. destruct (nth_error programs i); [|discriminate]. injection E as <-. apply ordered_attempts.
  - constructor.
  - intros l i [].
Qed.

(** C110.  Any goroutines, any calls, each of which may panic at any point: unless all is done, some
    goroutine can go on, everything can complete, ... *)
Theorem C110_no_deadlock :
  forall (programs : list (list attempt)) (sched : list nat),
    let start := lk_start (map (flat_map attempt_locks) programs) in
    let m := lk_run sched start in
    (finished m \/ exists i, can_go_on m i) /\
    exists more, length more <= work_left m /\ finished (lk_run (sched ++ more) start).
Proof.
  intros programs sched start m. assert (Gm : good m) by (apply good_run; apply good_attempts). split; [apply good_progress; exact Gm|].
  assert (G : forall n m', work_left m' <= n -> good m' -> exists more, length more <= work_left m' /\ finished (lk_run more m')).
  { induction n as [|n IH]; intros m' Hn G; (destruct (good_progress m' G) as [F|[j J]]; [exists []; split; [cbn; lia|exact F]|]).
    - pose proof (C51_steps_are_progress m' j J). lia.
    - pose proof (C51_steps_are_progress m' j J) as E. destruct (IH (lk_step m' j)) as (more & H1 & H2); [lia|apply good_step; exact G|].
      exists (j :: more). split; [cbn; lia|exact H2]. }
  destruct (G (work_left m) m (le_n _) Gm) as (more & H1 & H2). exists more. split; [exact H1|]. unfold lk_run in *. rewrite fold_left_app. exact H2.
Qed.
Print Assumptions C110_no_deadlock.

(** ... and whoever has returned from all its calls, by a panic or not, holds no lock. *)
Theorem C110_nothing_stays_locked :
  forall (programs : list (list attempt)) (sched : list nat),
    let m := lk_run sched (lk_start (map (flat_map attempt_locks) programs)) in
    (forall i l, nth_error (lk_threads m) i = Some [] -> owner (lk_owners m) l <> Some i) /\
    (finished m -> forall l, owner (lk_owners m) l = None).
Proof.
  intros programs sched m. assert (G : good m) by (apply good_run; apply good_attempts).
  assert (A : forall i l, nth_error (lk_threads m) i = Some [] -> owner (lk_owners m) l <> Some i).
  { intros i l Ei Eo. pose proof (good_ordered m G i [] Ei) as Ho. cbn [ordered] in Ho. apply owner_Some in Eo. apply held_In in Eo. rewrite Ho in Eo. destruct Eo. }
  split; [exact A|]. intros F l. destruct (owner (lk_owners m) l) as [i|] eqn:Eo; [|reflexivity]. exfalso.
  assert (Li : i < length (lk_threads m)) by (apply (good_owner m G l), owner_Some, Eo).
  destruct (nth_error (lk_threads m) i) as [q|] eqn:Ei; [|apply nth_error_None in Ei; lia].
  assert (q = []) by (unfold finished in F; rewrite Forall_forall in F; apply F; exact (nth_error_In _ _ Ei)). subst q. exact (A i l Ei Eo).
Qed.
Print Assumptions C110_nothing_stays_locked.

(** ** What a panic in formatting leaves of the event *)
(** Tracef: nothing.  If formatting does not panic, neither does the call, and it is the call of C06 to
    C11; a trace that is finished or full does not format. *)
Theorem C110_Tracef :
  forall (arg world pc : Type) (Sprintf : world -> string -> list arg -> option string) (e : env arg world pc) format args (tr : coreTrace arg pc),
    let '(tr', panics) := Tracef_p Sprintf e format args tr in
    (panics = true <-> ct_finished tr = false /\ (zlen (ct_events tr) < ct_eventsmax tr)%Z /\ Sprintf (e_world e) format args = None) /\
    (panics = true -> tr' = tr) /\
    (panics = false -> tr' = Tracef (text Sprintf) e format args tr).
Proof.
  intros arg world pc Sprintf e format args tr. unfold Tracef_p, add_event_p, Tracef.
  destruct (ct_finished tr); [repeat split; try discriminate; intros (H & _); discriminate|].
  destruct (Z.leb_spec (ct_eventsmax tr) (zlen (ct_events tr))); [repeat split; try discriminate; intros (_ & H1 & _); lia|].
  destruct (Sprintf (e_world e) format args); repeat split; try discriminate; try lia; try congruence. intros (_ & _ & H1). discriminate.
Qed.
Print Assumptions C110_Tracef.

(** Finding: Errorf leaves the mark.  Whenever it panics, the trace is errored from then on, and has the
    events it had. *)
Theorem C110_Errorf_refuted :
  forall (arg world pc : Type) (Sprintf : world -> string -> list arg -> option string) (e : env arg world pc) format args (tr : coreTrace arg pc),
    let '(tr', panics) := Errorf_p Sprintf e format args tr in
    (panics = true <-> ct_finished tr = false /\ (zlen (ct_events tr) < ct_eventsmax tr)%Z /\ Sprintf (e_world e) format args = None) /\
    (panics = true -> Errored tr' = true /\ ct_events tr' = ct_events tr /\ ct_truncated tr' = ct_truncated tr) /\
    (panics = false -> tr' = Errorf (text Sprintf) e format args tr).
Proof.
  intros arg world pc Sprintf e format args tr. unfold Errorf_p, add_event_p, Errorf.
  destruct (ct_finished tr); [repeat split; try discriminate; intros (H & _); discriminate|]. cbn [mark_errored ct_eventsmax ct_events].
  destruct (Z.leb_spec (ct_eventsmax tr) (zlen (ct_events tr))); [repeat split; try discriminate; intros (_ & H1 & _); lia|].
  destruct (Sprintf (e_world e) format args); repeat split; try discriminate; try lia; try congruence. intros (_ & _ & H1). discriminate.
Qed.
Print Assumptions C110_Errorf_refuted.

(** A search that panics while it holds a category and a trace gives both back, the trace first; then the
    goroutine logs to that trace while another one creates a trace in that category. *)
Definition panicking_search : attempt := (Search 0 [(7, [(3, 1)])] None, Some 4).
Example C110_instance :
  attempt_locks panicking_search = [Acq (LSet 0); Rel (LSet 0); Acq (LRing 0 7); Acq (LTrace 3); Rel (LTrace 3); Rel (LRing 0 7)] /\
  let programs := [[panicking_search; (LogTrace 0 3 0, None)]; [(NewTrace 0 5 7 0 None, None)]] in
  let m := lk_run (repeat 0 6 ++ repeat 1 6 ++ repeat 0 4) (lk_start (map (flat_map attempt_locks) programs)) in
  finished m /\ lk_owners m = [] /\
  (* a formatting that panics *)
  let tr := newCoreTrace (arg := unit) (pc := unit) initial_globals 5 "id" zeroCoreTrace "s" "c" in
  let e := MkEnv 6%Z tt [] (MkCE 0%Z (MkStringer EmptyString [] None) [] [] false) (MkStringer EmptyString [] None) in
  snd (Errorf_p (fun _ _ _ => None) e "x" [] tr) = true /\ Errored (fst (Errorf_p (fun _ _ _ => None) e "x" [] tr)) = true.
Proof. vm_compute. repeat split; repeat constructor. Qed.

(** C12: concurrent calls of String on one event text. *)
From Verif Require Import Go M_Stringer L_Stringer.
Open Scope string_scope.

(** For every schedule of any number of calls and every outcome of the
    formattings: no call panics, all calls that returned returned the same text,
    and that text was there from the start (eager event) or was produced by one of
    the formattings. *)
Theorem C12_concurrent_readers_agree :
  forall (c0 : option string) (sched : list (nat * string)),
    let st := srun sched (sinit c0) in
    (forall i, calls st i <> Panicked) /\
    (forall i j s s', calls st i = Returned s -> calls st j = Returned s' -> s = s') /\
    (forall i s, calls st i = Returned s -> c0 = Some s \/ (c0 = None /\ In s (formatted st))).
Proof. exact string_agree. Qed.
Print Assumptions C12_concurrent_readers_agree.

(** A value returned at one time agrees with those returned at any later time. *)
Theorem C12_later_readers_agree :
  forall (c0 : option string) (sched1 sched2 : list (nat * string)) (i j : nat) (s s' : string),
    calls (srun sched1 (sinit c0)) i = Returned s ->
    calls (srun (sched1 ++ sched2) (sinit c0)) j = Returned s' ->
    s = s'.
Proof.
  intros c0 s1 s2 i j s s' Hi Hj.
  assert (Hi' : calls (srun (s1 ++ s2) (sinit c0)) i = Returned s).
  { unfold srun. rewrite fold_left_app. apply returned_stays. exact Hi. }
  destruct (string_agree c0 (s1 ++ s2)) as (_ & H & _). exact (H i j s s' Hi' Hj).
Qed.
Print Assumptions C12_later_readers_agree.

(** A call that is given four steps has returned, whatever the others do. *)
Theorem C12_readers_never_wait :
  forall (c0 : option string) (sched : list (nat * string)) (i : nat),
    (4 <= count_steps i sched)%nat -> exists s, calls (srun sched (sinit c0)) i = Returned s.
Proof. exact call_returns. Qed.
Print Assumptions C12_readers_never_wait.

(** Two calls format at the same time, with different texts; a third comes later. *)
Example C12_instance :
  let sched := [(0, ""); (1, ""); (0, "a"); (1, "b"); (1, ""); (0, ""); (0, ""); (2, "")]%nat in
  let st := srun sched (sinit None) in
  (calls st 0, calls st 1, calls st 2)%nat = (Returned "b", Returned "b", Returned "b") /\ formatted st = ["b"; "a"].
Proof. vm_compute. auto. Qed.

(** No data races in brokers. *)
From Verif Require Import Go L_List S_HappensBefore M_BrokerRace S_BrokerRace L_HappensBefore L_BrokerRace.
From Coq Require Import Lia Permutation.
Open Scope list_scope.
Open Scope nat_scope.

(** Any number of goroutines, each with any careful program of calls to Publish, Stream, StreamStats and of receptions from
    channels, in any schedule: no two accesses to the memory of the broker race. *)
Theorem C106_no_race : forall programs sched, Forall (Forall careful) programs -> no_race (b_log (b_run sched (b_start programs))).
Proof. intros programs sched C. apply i_race, run_inv, start_inv, C. Qed.
(** In particular the last statistics, read without the lock when Stream returns, and the traces read by those who received them. *)
Theorem C106_nobody_races : forall programs sched g g' p, Forall (Forall careful) programs ->
  ~ racing (b_log (b_run sched (b_start programs))) g g' p.
Proof.
  intros programs sched g g' p C (i & j & a & b & w & w' & L & Hi & Hj & A & B & W & N). apply N.
  apply (C106_no_race programs sched C); [exact L|]. exists g, a, g', b, p, w, w'. auto.
Qed.

Definition same_order (x y : order) : bool :=
  match x, y with
  | OMtx, OMtx => true | OMessage c m, OMessage c' m' => (c =? c') && (m =? m') | OOwn x, OOwn y => x =? y | _, _ => false
  end.
Lemma same_order_refl x : same_order x x = true.
Proof. destruct x; cbn; rewrite ?Nat.eqb_refl; reflexivity. Qed.
Lemma not_before (l : history place order) r i j : covers same_order l r = true -> r i j = false -> ~ before l i j.
Proof. intros C N H. destruct (covers_before same_order same_order_refl _ _ _ _ C H) as [R _]. congruence. Qed.
Definition closure (l : history place order) : nat -> nat -> bool :=
  let n := length l in
  let row i := fold_left (fun set j => if existsb (fun k => edge same_order l k j) (i :: set) then j :: set else set) (seq 0 n) [] in
  let rows := map row (seq 0 n) in
  fun i j => existsb (Nat.eqb j) (nth i rows []).

Definition everything : list (nat * nat) -> list (nat * nat) := fun l => l.
Definition yes : nat -> bool := fun _ => true.
(** Finding: all subscribers receive the same trace, so one that changes it races with the others (and changes what they see). *)
Theorem C106_shared_trace_refuted : exists programs sched n,
  (forall p o, In p programs -> In o p -> careful o \/ o = EditTrace) /\
  racing (b_log (b_run sched (b_start programs))) 3 4 (PTrace n).
Proof.
  exists [[Stream 0]; [Stream 1]; [Publish everything yes yes]; [Receive 0; EditTrace]; [Receive 1; Look]], [0; 1; 2; 3; 4; 3; 4], 0. split.
  - intros p o Hp Ho. cbn in Hp. repeat (destruct Hp as [<-|Hp]; [cbn in Ho; repeat (destruct Ho as [<-|Ho]; [cbn; auto using Permutation_refl|]); destruct Ho|]). destruct Hp.
  - match goal with |- racing ?l _ _ _ => let v := eval vm_compute in l in change (racing v 3 4 (PTrace 0)) end.
    eexists 28, 29, _, _, _, _. split; [lia|]. split; [reflexivity|]. split; [reflexivity|]. split; [reflexivity|]. split; [reflexivity|].
    split; [left; reflexivity|]. match goal with |- ~ before ?l _ _ => apply (not_before l (closure l)); vm_compute; reflexivity end.
Qed.
(** Finding: Stream keeps the slices of the filter it was given, so a program that reuses them races with Publish. *)
Theorem C106_shared_filter_refuted : exists programs sched s,
  (forall p o, In p programs -> In o p -> careful o \/ o = EditFilter s) /\
  racing (b_log (b_run sched (b_start programs))) 1 2 (PFilter s).
Proof.
  exists [[Stream 0]; [Publish everything yes yes]; [EditFilter 0]], [0; 1; 2], 0. split.
  - intros p o Hp Ho. cbn in Hp. repeat (destruct Hp as [<-|Hp]; [cbn in Ho; repeat (destruct Ho as [<-|Ho]; [cbn; auto using Permutation_refl|]); destruct Ho|]). destruct Hp.
  - match goal with |- racing ?l _ _ _ => let v := eval vm_compute in l in change (racing v 1 2 (PFilter 0)) end.
    eexists 10, 15, _, _, _, _. split; [lia|]. split; [reflexivity|]. split; [reflexivity|]. split; [reflexivity|]. split; [reflexivity|].
    split; [right; reflexivity|]. match goal with |- ~ before ?l _ _ => apply (not_before l (closure l)); vm_compute; reflexivity end.
Qed.

(** Finding: a relay, which publishes the traces it receives at another broker, races with the other subscribers although it
    changes nothing: that Publish writes to the received trace. *)
Theorem C106_relay_refuted : exists programs sched n x,
  (forall p o, In p programs -> In o p -> careful o \/ o = Relay x) /\
  racing (b_log (b_run sched (b_start programs))) 3 4 (PTrace n).
Proof.
  exists [[Stream 0]; [Stream 1]; [Publish everything yes yes]; [Receive 0; Relay 0]; [Receive 1; Look]], [0; 1; 2; 3; 4; 3; 4], 0, 0. split.
  - intros p o Hp Ho. cbn in Hp. repeat (destruct Hp as [<-|Hp]; [cbn in Ho; repeat (destruct Ho as [<-|Ho]; [cbn; auto using Permutation_refl|]); destruct Ho|]). destruct Hp.
  - match goal with |- racing ?l _ _ _ => let v := eval vm_compute in l in change (racing v 3 4 (PTrace 0)) end.
    eexists 30, 32, _, _, _, _. split; [lia|]. split; [reflexivity|]. split; [reflexivity|]. split; [reflexivity|]. split; [reflexivity|].
    split; [left; reflexivity|]. match goal with |- ~ before ?l _ _ => apply (not_before l (closure l)); vm_compute; reflexivity end.
Qed.

(** Two subscribers, two traces, one subscriber without room; one leaves in between, and its statistics are read while the other still streams. *)
Definition demo_programs : list (list op) :=
  [[Stream 0]; [Stream 1; Stream 1]; [Publish (@rev _) yes yes; Publish everything yes (Nat.eqb 1)]; [Receive 0; Look]; [Receive 1; Look; StreamStats 1]].
Example C106_instance :
  Forall (Forall careful) demo_programs /\
  let b := b_run [0; 1; 2; 3; 4; 3; 0; 2; 0; 4; 4; 1; 1; 1] (b_start demo_programs) in
  no_race (b_log b) /\ b_subs b = [(1, 2)] /\ b_ntrace b = 2 /\ b_queue b 1 = [(1, 1)] /\
  exists i j, i < j /\ nth_error (b_log b) i = Some (2, Writes (PSub 0)) /\ nth_error (b_log b) j = Some (0, Reads (PSub 0)) /\ before (b_log b) i j.
Proof.
  assert (C : Forall (Forall careful) demo_programs).
  { repeat constructor; intros l; [apply Permutation_sym, Permutation_rev|apply Permutation_refl]. }
  split; [exact C|]. cbv zeta. pose proof (C106_no_race demo_programs [0; 1; 2; 3; 4; 3; 0; 2; 0; 4; 4; 1; 1; 1] C) as N.
  split; [exact N|]. split; [reflexivity|]. split; [reflexivity|]. split; [reflexivity|].
  exists 23, 42. split; [lia|]. split; [reflexivity|]. split; [reflexivity|]. apply N; [lia|].
  do 7 eexists. split; [reflexivity|]. split; [reflexivity|]. split; [reflexivity|]. split; [reflexivity|]. left; reflexivity.
Qed.

Print Assumptions C106_no_race.
Print Assumptions C106_nobody_races.
Print Assumptions C106_shared_trace_refuted.
Print Assumptions C106_shared_filter_refuted.
Print Assumptions C106_relay_refuted.

(** What it means that nothing is left running. *)
From Coq Require Import List Bool Arith.
From Verif Require Import M_Goroutines.
Import ListNotations.

(** Goroutines that StreamClient.Stream started and that have not ended. *)
Definition waiting (l : list call) : nat := length (filter (fun k => match k_watcher k with WWaiting => true | _ => false end) l).
(** Calls of it that have returned, and those that have not. *)
Definition returned (k : call) : Prop := k_phase k = KReturned.
Definition unreturned (l : list call) : nat := length (filter (fun k => match k_phase k with KReturned => false | _ => true end) l).
(** Nothing is left of a call: it returned, its goroutine ended or never started. *)
Definition gone (k : call) : Prop := k_phase k = KReturned /\ k_watcher k <> WWaiting.
(** The calls for an address of trc stream whose contexts have not been cancelled. *)
Definition untold (a : addr) : list call := map snd (filter (fun t => negb (fst t)) (a_turns a)).
(** The goroutine of a call is past its wait as soon as it runs: its context was cancelled. *)
Definition told (t : bool * call) : Prop := fst t = true.

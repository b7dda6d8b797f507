(** Goroutines that run methods under one mutex, one statement at a time
    (the pattern x.mtx.Lock(); defer x.mtx.Unlock(); body of every method of the ring
    buffers, the broker and the core trace). *)
From Verif Require Import Go S_Trace.
Open Scope list_scope.

(** The body of a method: each [Do] is one statement, which updates the shared state and
    goes on depending on the state it found. *)
Inductive code {St R : Type} :=
| Ret (r : R)
| Do (upd : St -> St) (k : St -> code).
Arguments code : clear implicits.

Fixpoint exec {St R} (c : code St R) (s : St) : St * R :=
  match c with Ret r => (s, r) | Do upd k => exec (k s) (upd s) end.

(** Reading a field, writing a field, a statement that can panic (the deferred Unlock runs). *)
Definition Read {St R A} (f : St -> A) (k : A -> code St R) : code St R := Do (fun s => s) (fun s => k (f s)).
Definition Write {St R} (upd : St -> St) (k : code St R) : code St R := Do upd (fun _ => k).
Definition Try {St R A} (x : res A) (k : A -> code St (res R)) : code St (res R) := match x with Ok a => k a | Panic => Ret Panic end.

Section Machine.
Context {St R O : Type}.
Variable body : O -> code St R.

(** What a goroutine is doing, and what it will do. *)
Record thread := MkTh { th_now : option (O * code St R); th_todo : list O }.
Record mutex := MkMu {
  mu_state : St;
  mu_holder : option nat;
  mu_threads : list thread;
  mu_results : list (nat * O * R)     (* in the order of the Unlocks *)
}.
Definition mu_start (s : St) (programs : list (list O)) : mutex := MkMu s None (map (MkTh None) programs) [].

(** Goroutine i goes one step: Lock (nothing happens if it has to wait), a statement, or
    Unlock and return. *)
Definition mu_step (m : mutex) (i : nat) : mutex :=
  match nth_error (mu_threads m) i with
  | Some (MkTh None (o :: todo)) =>
      match mu_holder m with
      | Some _ => m
      | None => MkMu (mu_state m) (Some i) (update i (MkTh (Some (o, body o)) todo) (mu_threads m)) (mu_results m)
      end
  | Some (MkTh (Some (o, Do upd k)) todo) =>
      MkMu (upd (mu_state m)) (mu_holder m) (update i (MkTh (Some (o, k (mu_state m))) todo) (mu_threads m)) (mu_results m)
  | Some (MkTh (Some (o, Ret r)) todo) =>
      MkMu (mu_state m) None (update i (MkTh None todo) (mu_threads m)) (mu_results m ++ [(i, o, r)])
  | _ => m
  end.
Definition mu_run (sched : list nat) (m : mutex) : mutex := fold_left mu_step sched m.

(** The same without the mutex. *)
Definition racy_step (m : mutex) (i : nat) : mutex :=
  match nth_error (mu_threads m) i with
  | Some (MkTh None (o :: todo)) => MkMu (mu_state m) None (update i (MkTh (Some (o, body o)) todo) (mu_threads m)) (mu_results m)
  | _ => mu_step m i
  end.
End Machine.
Arguments thread : clear implicits.
Arguments mutex : clear implicits.

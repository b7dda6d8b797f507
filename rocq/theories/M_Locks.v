(** The mutexes of the package, and in which order the operations take and release them. *)
From Verif Require Import Go S_Trace.
Open Scope nat_scope.
Open Scope list_scope.

(** Collector c: ringbuffer.go:188 (the set of its categories), ringbuffer.go:9 (one per
    category), broker.go:11 (its broker); trace_core.go:73 (one per trace). *)
Inductive lock := LSet (c : nat) | LRing (c k : nat) | LBroker (c : nat) | LTrace (t : nat).
Definition lock_eq_dec : forall a b : lock, {a = b} + {a <> b}.
Proof. decide equality; apply Nat.eq_dec. Defined.
Inductive action := Acq (l : lock) | Rel (l : lock).

(** trace_core.go: Lock; defer Unlock.  Every method of a core trace except ID, Source,
    Category and Started, which take no lock. *)
Definition trace_method (t : nat) : list action := [Acq (LTrace t); Rel (LTrace t)].
Definition trace_methods (n t : nat) : list action := flat_map (fun _ => trace_method t) (seq 0 n).
(** broker.go:24-48: NewStreamTrace calls [reads] methods of the trace (none if there are
    no subscribers); filters look at the copy; sends do not block *)
Definition publish (c t reads : nat) : list action := [Acq (LBroker c)] ++ trace_methods reads t ++ [Rel (LBroker c)].
(** decorators.go:130-153 *)
Definition published_call (c t reads : nat) : list action := trace_method t ++ publish c t reads.
(** collector.go:212-216, trace_core.go:302-318 (forwarded by the decorators) *)
Definition maybe_free (t : option nat) : list action := match t with Some t => trace_method t | None => [] end.
(** collector.go:117-134, a new trace t of category k; [dropped] is the trace it displaces.
    decorators.go:114: creation is published. *)
Definition new_trace_locks (c t k reads : nat) (dropped : option nat) : list action :=
  publish c t reads ++
  [Acq (LSet c); Rel (LSet c)] ++                                  (* ringbuffer.go:204-215 *)
  [Acq (LRing c k); Rel (LRing c k)] ++                            (* ringbuffer.go:95-126 *)
  maybe_free dropped.
(** collector.go:107-112, ringbuffer.go:231-246 *)
Definition set_category_size_locks (c : nat) (rings : list nat) (dropped : list nat) : list action :=
  [Acq (LSet c)] ++ flat_map (fun k => [Acq (LRing c k); Rel (LRing c k)]) rings ++ [Rel (LSet c)] ++
  flat_map (fun t => maybe_free (Some t)) dropped.
(** collector.go:137-195: the categories (218-228); each of them is walked
    (ringbuffer.go:131-152) with calls of methods of each trace in it; at the end an event
    is logged to the trace in the context (ctx: its collector, itself, reads), if there is one *)
Definition search_locks (c : nat) (cats : list (nat * list (nat * nat))) (ctx : option (nat * nat * nat)) : list action :=
  [Acq (LSet c); Rel (LSet c)] ++
  flat_map (fun kc => [Acq (LRing c (fst kc))] ++ flat_map (fun tn => trace_methods (snd tn) (fst tn)) (snd kc) ++ [Rel (LRing c (fst kc))]) cats ++
  match ctx with Some (c', t, reads) => published_call c' t reads | None => [] end.

(** What a goroutine does with the package.  The parameters are data: what the rings hold,
    how many methods are called, what is dropped.  Formatting is assumed not to call back
    into the package, see [tracef_with_String]. *)
Inductive operation :=
| ReadTrace (t : nat)                                              (* Events, Duration, Finished, ... *)
| LogTrace (c t reads : nat)                                       (* Tracef, ..., Finish of a trace of a collector *)
| LogPlain (t : nat)                                               (* ... of a trace made by New *)
| NewTrace (c t k reads : nat) (dropped : option nat)
| SetCategorySize (c : nat) (rings dropped : list nat)
| Search (c : nat) (cats : list (nat * list (nat * nat))) (ctx : option (nat * nat * nat))
| StreamCall (c : nat).                                            (* begin or end of Stream; StreamStats: broker.go:58-108 *)
Definition locks_of (o : operation) : list action :=
  match o with
  | ReadTrace t | LogPlain t => trace_method t
  | LogTrace c t reads => published_call c t reads
  | NewTrace c t k reads dropped => new_trace_locks c t k reads dropped
  | SetCategorySize c rings dropped => set_category_size_locks c rings dropped
  | Search c cats ctx => search_locks c cats ctx
  | StreamCall c => [Acq (LBroker c); Rel (LBroker c)]
  end.

(** trace_core.go:164-178 with an argument whose String method does something to the
    package: it runs inside newNormalStringer (466-473), under the lock. *)
Definition tracef_with_String (t : nat) (inside : list action) : list action :=
  [Acq (LTrace t)] ++ inside ++ [Rel (LTrace t)].

(** Goroutines and who owns what. *)
Record locking := MkLocking { lk_threads : list (list action); lk_owners : list (lock * nat) }.
Definition owner (owners : list (lock * nat)) (l : lock) : option nat :=
  match find (fun p => if lock_eq_dec (fst p) l then true else false) owners with Some p => Some (snd p) | None => None end.
Definition lk_step (m : locking) (i : nat) : locking :=
  match nth_error (lk_threads m) i with
  | Some (Acq l :: rest) =>
      match owner (lk_owners m) l with
      | Some _ => m                                                (* waits *)
      | None => MkLocking (update i rest (lk_threads m)) ((l, i) :: lk_owners m)
      end
  | Some (Rel l :: rest) =>
      MkLocking (update i rest (lk_threads m)) (filter (fun p => if lock_eq_dec (fst p) l then false else true) (lk_owners m))
  | _ => m
  end.
Definition lk_run (sched : list nat) (m : locking) : locking := fold_left lk_step sched m.
Definition lk_start (threads : list (list action)) : locking := MkLocking threads [].

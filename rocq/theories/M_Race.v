(** What the library does to memory and locks: the machine of M_Heap, with a log of the
    accesses of each step, with the locks that are held across steps, and with searches. *)
From Verif Require Import Go M_Strings M_Types S_RingBuf S_Trace M_Trace M_Heap S_Race.
Open Scope list_scope.
Open Scope nat_scope.

Section Race.
Context {arg world pc : Type}.
Variable Sprintf : world -> string -> list arg -> string.
Variable CallersFrames : list pc -> list rframe.
Notation env := (env arg world pc).
Notation heap := (heap arg pc).
Notation machine := (machine arg world pc).
Notation hop := (hop arg world pc).

(** *** The accesses of each step, in the order of the code.  Where the code writes only
    sometimes, it is taken to write: this can only add races. *)
(** Pool.Get: an object from the pool was put there by somebody. *)
Definition got (x : nat) (s : nat -> sync) (pool : list nat) : list action := if existsb (Nat.eqb x) pool then [Acq (s x)] else [].
(** trace_core.go:112-128 *)
Definition new_script (n t : nat) (h : heap) : list action := got t SPoolT (h_tpool h) ++ [Wr (LId t); Wr (LState t); New n t].
(** trace_core.go:164-230, 350-374, 466-482 *)
Definition log_script (t : nat) (ep zp : option nat) (h : heap) : list action :=
  let o := nth t (h_traces h) zeroTO in
  if ct_finished (to_head o) then [Rd (LState t)]
  else if (ct_eventsmax (to_head o) <=? zlen (to_events o))%Z then [Rd (LState t); Wr (LState t)]
  else let '(ev, _, _) := pool_get zeroEO ep (h_epool h) (h_events h) in
       let '(z, _, _) := pool_get zeroStringer zp (h_zpool h) (h_stringers h) in
       [Rd (LState t)] ++ got ev SPoolE (h_epool h) ++ [Wr (LEvent ev)] ++ got z SPoolZ (h_zpool h) ++ [Wr (LText z); Wr (LState t)].
Definition array_of (h : heap) (ev : nat) : list nat := match eo_stack (nth ev (h_events h) zeroEO) with Some (a, _) => [a] | None => [] end.
Definition text_of (h : heap) (ev : nat) : list nat := match eo_what (nth ev (h_events h) zeroEO) with Some z => [z] | None => [] end.
(** trace_core.go:262-284, 376-398, 409-424, 484-504.  h is the memory before, h' the memory after:
    getStack writes to the array of the event, or to one it allocates. *)
Definition events_script (t : nat) (n : Z) (stacks : bool) (h h' : heap) : list action :=
  let o := nth t (h_traces h) zeroTO in
  let len := zlen (to_events o) in
  let n := if ((n <=? 0) || (len <? n))%Z then len else n in
  Rd (LState t) ::
  flat_map (fun ev => [Rd (LEvent ev)] ++
                      (if stacks then Wr (LEvent ev) :: map (fun a => Wr (LFrames a)) (array_of h ev ++ array_of h' ev) else []) ++
                      map (fun z => Rd (LText z)) (text_of h ev))
           (skipn (Z.to_nat (len - n)) (to_events o)).
(** trace_core.go:232-242, 286-300 and the above *)
Definition call_script (t : nat) (x : call arg) (ch : choices) (h h' : heap) : list action :=
  match x with
  | CallLog _ _ _ => log_script t (ch_ep ch) (ch_zp ch) h
  | CallFinish => [Rd (LState t); Rd (LId t); Wr (LState t)]
  | CallSetMaxEvents _ => [Wr (LState t)]
  | CallEvents n st => events_script t n st h h'
  end.
Definition locked (t : nat) (body : list action) : list action := Acq (SMtx t) :: body ++ [Rel (SMtx t)].
(** trace_core.go:302-318, 400-407, 506-509 *)
Definition free_script (t : nat) (h : heap) : list action :=
  let o := nth t (h_traces h) zeroTO in
  locked t (Rd (LState t) ::
    if ct_finished (to_head o)
    then flat_map (fun ev => map (fun z => Rel (SPoolZ z)) (text_of h ev) ++ [Wr (LEvent ev); Rel (SPoolE ev)]) (to_events o) ++
         [Wr (LState t); Recycle t; Rel (SPoolT t)]
    else []).
(** ringbuffer.go:204-215, 95-126 *)
Definition add_script (k : nat * string) (cats : list (nat * string * blist nat)) : list action :=
  [Acq (SSet (fst k)); Rd (LSet (fst k))] ++
  (match get_ring k cats with Some _ => [] | None => [Wr (LRing k); Wr (LSet (fst k))] end) ++
  [Rel (SSet (fst k)); Acq (SRing k); Wr (LRing k); Rel (SRing k)].
(** ringbuffer.go:26-90 *)
Definition resize_script (k : nat * string) : list action := [Acq (SRing k); Wr (LRing k); Rel (SRing k)].

(** *** Programs *)
(** What Walk's callback reads of a trace (collector.go:150-171, search_stats.go,
    filter.go, trace_static.go): any sequence of the methods of Trace.  [GId]: ID, Source,
    Category, Started; [GState]: Duration, Finished, Errored; [GEvents]: Events, EventsDetail. *)
Inductive getter := GId | GState | GEvents (e : env) (n : Z) (stacks : bool) (ch : choices).
Inductive rop :=
| ROp (o : hop)
| RLook (n : nat)                                                (* ID, Source, Category, Started *)
| RState (n : nat)                                               (* Duration, Finished, Errored *)
| RSearch (c : nat) (order : list (nat * string)) (visit : nat -> list getter)   (* order: of the map of categories *)
| RFrames (a : nat)                                              (* read the frames of a result of Events *)
| RSend (x : nat) | RRecv (x : nat).                             (* the program's own synchronisation *)
(** What a goroutine is doing, besides what M_Heap says: Resize, with the lock of the set of
    categories (ringbuffer.go:231-246); a search, with the categories to walk (collector.go:148-150);
    Walk, with the lock of the ring buffer and the traces to visit (ringbuffer.go:131-152). *)
Inductive walk :=
| WNone
| WResize (c : nat)
| WSearch (ks : list (nat * string)) (visit : nat -> list getter)
| WIn (k : nat * string) (todo : list (nat * list getter)) (ks : list (nat * string)) (visit : nat -> list getter).
Record rmachine := MkRM { r_m : machine; r_threads : list (walk * list rop); r_log : log }.
Definition r_start (programs : list (list rop)) : rmachine :=
  MkRM (hm_start (map (fun _ => []) programs)) (map (fun p => (WNone, p)) programs) [].

Definition sync_eq_dec (x y : sync) : {x = y} + {x <> y}.
Proof. repeat decide equality. Defined.
(** Who holds a mutex. *)
Definition holder (x : sync) (l : log) : option nat :=
  fold_left (fun h ia => match snd ia with
                         | Acq y => if sync_eq_dec x y then Some (fst ia) else h
                         | Rel y => if sync_eq_dec x y then None else h
                         | _ => h
                         end) l None.
Definition is_mutex (x : sync) : bool := match x with SMtx _ | SRing _ | SSet _ => true | _ => false end.
(** A step that takes a mutex that is held has to wait. *)
Definition blocked (l : log) (s : list action) : bool :=
  existsb (fun a => match a with Acq x => (is_mutex x && match holder x l with Some _ => true | None => false end)%bool | _ => false end) s.
Definition by_ (i : nat) (s : list action) : log := map (pair i) s.
(** Goroutine i does what the script says, and goes on with w and p. *)
Definition emit (r : rmachine) (i : nat) (s : list action) (m : res machine) (w : walk) (p : list rop) : res rmachine :=
  if blocked (r_log r) s then Ok r
  else m <- m ;; Ok (MkRM m (update i (w, p) (r_threads r)) (r_log r ++ by_ i s)).
(** Goroutine i starts an operation of M_Heap. *)
Definition give (m : machine) (i : nat) (o : hop) : machine :=
  MkHM (hm_heap m) (hm_sizes m) (hm_cats m) (hm_handles m) (set_thread m i HIdle [o]) (hm_results m).
Definition set_heap (m : machine) (h : heap) : machine := MkHM h (hm_sizes m) (hm_cats m) (hm_handles m) (hm_threads m) (hm_results m).

Definition r_step (r : rmachine) (i : nat) : res rmachine :=
  let m := r_m r in
  let h := hm_heap m in
  let step := h_step Sprintf CallersFrames in
  match nth_error (r_threads r) i, nth_error (hm_threads m) i with
  | Some (WIn k [] ks v, p), _ => emit r i [Rel (SRing k)] (Ok m) (WSearch ks v) p
  | Some (WIn k ((t, []) :: todo) ks v, p), _ => emit r i [] (Ok m) (WIn k todo ks v) p
  | Some (WIn k ((t, GId :: gs) :: todo) ks v, p), _ => emit r i [Rd (LId t)] (Ok m) (WIn k ((t, gs) :: todo) ks v) p
  | Some (WIn k ((t, GState :: gs) :: todo) ks v, p), _ =>
      emit r i (locked t [Rd (LState t); Rd (LId t)]) (Ok m) (WIn k ((t, gs) :: todo) ks v) p
  | Some (WIn k ((t, GEvents e n st ch :: gs) :: todo) ks v, p), _ =>
      '(h', _) <- h_call Sprintf CallersFrames t (e, CallEvents n st) ch h ;;
      emit r i (locked t (events_script t n st h h')) (Ok (set_heap m h')) (WIn k ((t, gs) :: todo) ks v) p
  | Some (WSearch [] v, p), _ => emit r i [] (Ok m) WNone p
  | Some (WSearch (k :: ks) v, p), _ =>
      match get_ring k (hm_cats m) with
      | None => Panic
      | Some b => emit r i [Acq (SRing k); Rd (LRing k)] (Ok m) (WIn k (map (fun t => (t, v t)) (bl_items b)) ks v) p
      end
  | Some (WResize c, p), Some (HResizing [] _ _, _) => emit r i [Rel (SSet c)] (step m i) WNone p
  | Some (WResize c, p), Some (HResizing (k :: _) _ _, _) => emit r i (resize_script k) (step m i) (WResize c) p
  | Some (WNone, p), Some (HAdding t k, _) => emit r i (add_script k (hm_cats m)) (step m i) WNone p
  | Some (WNone, p), Some (HFreeing ts, _) =>
      emit r i (match ts with [] => [] | t :: _ => free_script t h end) (step m i) WNone p
  | Some (WNone, ROp o :: p), Some (HIdle, _) =>
      let m' := step (give m i o) i in
      match o with
      | HNewTrace c cat g now id src pick =>
          emit r i (new_script (length (hm_handles m)) (snd (h_new g now id pick src cat h)) h) m' WNone p
      | HCall n x ch =>
          match nth_error (hm_handles m) n with
          | None => Ok r
          | Some t =>
              '(h', _) <- h_call Sprintf CallersFrames t x ch h ;;
              emit r i ([Use n] ++ (match snd x with CallFinish => [Fin n] | _ => [] end) ++ locked t (call_script t (snd x) ch h h')) m' WNone p
          end
      | HSetCategorySize c cap =>
          if (cap <=? 0)%Z then emit r i [] m' WNone p else emit r i [Acq (SSet c); Wr (LSet c)] m' (WResize c) p
      | HGC _ _ _ => emit r i [] m' WNone p
      end
  | Some (WNone, RLook n :: p), Some (HIdle, _) =>
      match nth_error (hm_handles m) n with None => Ok r | Some t => emit r i [Look n t] (Ok m) WNone p end
  | Some (WNone, RState n :: p), Some (HIdle, _) =>
      match nth_error (hm_handles m) n with
      | None => Ok r
      | Some t => emit r i (Use n :: locked t [Rd (LState t); Rd (LId t)]) (Ok m) WNone p
      end
  | Some (WNone, RSearch c order v :: p), Some (HIdle, _) =>
      emit r i [Acq (SSet c); Rd (LSet c); Rel (SSet c)] (Ok m)
           (WSearch (filter (fun k => Nat.eqb (fst k) c && match get_ring k (hm_cats m) with Some _ => true | None => false end)%bool order) v) p
  | Some (WNone, RFrames a :: p), Some (HIdle, _) => emit r i [Rd (LFrames a)] (Ok m) WNone p
  | Some (WNone, RSend x :: p), Some (HIdle, _) => emit r i [Rel (SChan x)] (Ok m) WNone p
  | Some (WNone, RRecv x :: p), Some (HIdle, _) => emit r i [Acq (SChan x)] (Ok m) WNone p
  | _, _ => Ok r
  end.
Fixpoint r_run (sched : list nat) (r : rmachine) : res rmachine :=
  match sched with [] => Ok r | i :: sched => r <- r_step r i ;; r_run sched r end.
End Race.
Arguments rmachine : clear implicits.
Arguments rop : clear implicits.
Arguments getter : clear implicits.
Arguments walk : clear implicits.

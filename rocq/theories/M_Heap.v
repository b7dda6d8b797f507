(** The memory of traces: trace, event and stringer objects that are recycled through
    pools, and the arrays behind the stacks of events (trace_core.go).  M_Trace treats
    traces as values; here they are objects that other objects point to. *)
From Verif Require Import Go M_Strings M_Types S_RingBuf S_Trace M_Trace.
Open Scope string_scope.
Open Scope list_scope.
Open Scope Z_scope.

Section Heap.
Context {arg world pc : Type}.
Variable Sprintf : world -> string -> list arg -> string.
Variable CallersFrames : list pc -> list rframe.
Notation env := (env arg world pc).
Notation coreTrace := (coreTrace arg pc).
Notation coreEvent := (coreEvent arg pc).
Notation stringer := (stringer arg).

(** A []Frame made by append from nil or from s[:0]: nil, or an array and a length.  The
    capacity is the length of the array. *)
Definition fslice := option (nat * nat).
(** trace_core.go:334-341.  [eo_what]: None is nil. *)
Record eobj := MkEO { eo_when : Z; eo_what : option nat; eo_pc : list pc; eo_stack : fslice; eo_iserr : bool }.
(** trace_core.go:72-85.  [to_head] holds all fields but events; its own events field is not used. *)
Record tobj := MkTO { to_head : coreTrace; to_events : list nat }.
(** All objects, by address, and the pools (trace_core.go:104-109, 324-329, 446-451). *)
Record heap := MkHeap {
  h_traces : list tobj;
  h_events : list eobj;
  h_stringers : list stringer;
  h_arrays : list (list Frame);
  h_tpool : list nat;
  h_epool : list nat;
  h_zpool : list nat
}.
Definition empty_heap : heap := MkHeap [] [] [] [] [] [] [].
(** An event as it is given to callers: the stack is a slice. *)
Record hevent := MkHE { he_when : Z; he_what : string; he_stack : fslice; he_iserr : bool }.

Definition zeroStringer : stringer := MkStringer "" [] None.
Definition zeroEO : eobj := MkEO 0 None [] None false.
Definition zeroTO : tobj := MkTO zeroCoreTrace [].

(** sync.Pool.Get: any object in the pool, or a new one.  [pick] is the choice. *)
Definition remove_nth {A} (j : nat) (l : list A) : list A := firstn j l ++ skipn (S j) l.
Definition pool_get {A} (zero : A) (pick : option nat) (pool : list nat) (objs : list A) : nat * list nat * list A :=
  match pick with
  | Some j => match nth_error pool j with
              | Some x => (x, remove_nth j pool, objs)
              | None => (length objs, pool, objs ++ [zero])
              end
  | None => (length objs, pool, objs ++ [zero])
  end.

(** trace_core.go:112-128.  Not locked: taken as one step, see DESIGN.md. *)
Definition h_new (g : globals) (now : Z) (id : string) (pick : option nat) (source category : string) (h : heap) : heap * nat :=
  let '(t, tpool, traces) := pool_get zeroTO pick (h_tpool h) (h_traces h) in
  let o := nth t traces zeroTO in
  (MkHeap (update t (MkTO (newCoreTrace g now id (to_head o) source category) (firstn 0 (to_events o))) traces)
          (h_events h) (h_stringers h) (h_arrays h) tpool (h_epool h) (h_zpool h), t).

(** append(stack, fr): in place if there is room, else in a new array with any spare room *)
Definition append_frame (arrays : list (list Frame)) (s : fslice) (fr : Frame) (spare : list Frame) : list (list Frame) * fslice :=
  match s with
  | Some (a, n) =>
      let arr := nth a arrays [] in
      if (n <? length arr)%nat
      then (update a (firstn n arr ++ fr :: skipn (S n) arr) arrays, Some (a, S n))
      else (arrays ++ [firstn n arr ++ fr :: spare], Some (length arrays, S n))
  | None => (arrays ++ [fr :: spare], Some (length arrays, 1%nat))
  end.
(** s[:0] *)
Definition truncate (s : fslice) : fslice := match s with Some (a, _) => Some (a, 0%nat) | None => None end.
Definition slice_len (s : fslice) : nat := match s with Some (_, n) => n | None => 0%nat end.
(** The frames of a slice. *)
Definition frames_of (arrays : list (list Frame)) (s : fslice) : list Frame :=
  match s with Some (a, n) => firstn n (nth a arrays []) | None => [] end.

(** trace_core.go:350-374.  [ep], [zp]: the choices of the pools. *)
Definition h_new_event (e : env) (ep zp : option nat) (lazy iserr nostack : bool) (format : string) (args : list arg) (h : heap) : heap * nat :=
  let '(ev, epool, events) := pool_get zeroEO ep (h_epool h) (h_events h) in
  let o := nth ev events zeroEO in
  let '(z, zpool, stringers) := pool_get zeroStringer zp (h_zpool h) (h_stringers h) in
  let zo := nth z stringers zeroStringer in
  let zo := if lazy then newLazyStringer zo format args else newNormalStringer Sprintf zo (e_world e) format args in
  let o := MkEO (e_now e) (Some z) (if nostack then [] else firstn 8 (e_pcs e)) (truncate (eo_stack o)) iserr in
  (MkHeap (h_traces h) (update ev o events) (update z zo stringers) (h_arrays h) (h_tpool h) epool zpool, ev).

(** A trace object is replaced. *)
Definition set_trace (t : nat) (o : tobj) (h : heap) : heap :=
  MkHeap (update t o (h_traces h)) (h_events h) (h_stringers h) (h_arrays h) (h_tpool h) (h_epool h) (h_zpool h).
(** tr.truncated++ *)
Definition more_truncated (c : coreTrace) : coreTrace :=
  MkCT (ct_source c) (ct_id c) (ct_category c) (ct_start c) (ct_errored c) (ct_finished c) (ct_duration c) (ct_nostack c) (ct_events c) (ct_eventsmax c) (ct_truncated c + 1).
(** trace_core.go:164-230 *)
Definition h_log (t : nat) (e : env) (ep zp : option nat) (k : kind) (format : string) (args : list arg) (h : heap) : heap :=
  let o := nth t (h_traces h) zeroTO in
  if ct_finished (to_head o) then h
  else
    let head := if is_error_kind k then mark_errored (to_head o) else to_head o in
    if ct_eventsmax head <=? zlen (to_events o) then set_trace t (MkTO (more_truncated head) (to_events o)) h
    else let '(h, ev) := h_new_event e ep zp (is_lazy_kind k) (is_error_kind k) (ct_nostack head) format args h in
         set_trace t (MkTO head (to_events o ++ [ev])) h.

(** trace_core.go:385-395 *)
Fixpoint h_stack_loop (frames : list rframe) (spares : nat -> list Frame) (arrays : list (list Frame)) (s : fslice) : list (list Frame) * fslice :=
  match frames with
  | fr :: (_ :: _) as rest =>
      if negb (ignoreStackFrameFunction (rf_Function fr))
      then let '(arrays, s') := append_frame arrays s (MkFrame (rf_Function fr) (rf_File fr ++ ":" ++ itoa (rf_Line fr))) (spares (slice_len s)) in
           h_stack_loop rest spares arrays s'
      else h_stack_loop rest spares arrays s
  | _ => (arrays, s)
  end.
(** trace_core.go:376-398; the event's stack and what is returned are the same slice *)
Definition h_get_stack (o : eobj) (spares : nat -> list Frame) (arrays : list (list Frame)) : list (list Frame) * eobj * fslice :=
  match eo_pc o with
  | [] => (arrays, o, None)
  | _ =>
      match slice_len (eo_stack o) with
      | S _ => (arrays, o, eo_stack o)
      | O => let '(arrays, s) := h_stack_loop (CallersFrames (eo_pc o)) spares arrays (eo_stack o) in
             (arrays, MkEO (eo_when o) (eo_what o) (eo_pc o) s (eo_iserr o), s)
      end
  end.
(** trace_core.go:411-422.  Panics if the event has no text. *)
Definition h_snapshot_event (w : world) (stacks : bool) (spares : nat -> list Frame) (ev : nat) (h : heap) : res (heap * hevent) :=
  let o := nth ev (h_events h) zeroEO in
  let '(arrays, o, stack) := if stacks then h_get_stack o spares (h_arrays h) else (h_arrays h, o, None) in
  match eo_what o with
  | None => Panic
  | Some z =>
      let '(zo, what) := stringer_String Sprintf w (nth z (h_stringers h) zeroStringer) in
      Ok (MkHeap (h_traces h) (update ev o (h_events h)) (update z zo (h_stringers h)) arrays (h_tpool h) (h_epool h) (h_zpool h),
          MkHE (eo_when o) what stack (eo_iserr o))
  end.
(** trace_core.go:409-424 *)
Fixpoint h_snapshot (w : world) (stacks : bool) (spares : nat -> list Frame) (evs : list nat) (h : heap) : res (heap * list hevent) :=
  match evs with
  | [] => Ok (h, [])
  | ev :: evs =>
      '(h, he) <- h_snapshot_event w stacks spares ev h ;;
      '(h, hes) <- h_snapshot w stacks spares evs h ;;
      Ok (h, he :: hes)
  end.
(** trace_core.go:262-284 *)
Definition h_events_detail (t : nat) (e : env) (n : Z) (stacks : bool) (spares : nat -> list Frame) (h : heap) : res (heap * list hevent) :=
  let o := nth t (h_traces h) zeroTO in
  let len := zlen (to_events o) in
  let n := if (n <=? 0) || (len <? n) then len else n in
  '(h, events) <- h_snapshot (e_world e) stacks spares (skipn (Z.to_nat (len - n)) (to_events o)) h ;;
  let trunc := truncated_event (e_now e) (ct_truncated (to_head o)) in
  Ok (h, if 0 <? ct_truncated (to_head o) then tl (events ++ [MkHE (When trunc) (What trunc) None (IsError trunc)]) else events).

(** trace_core.go:400-407, 506-509 *)
Definition h_free_event (ev : nat) (h : heap) : res heap :=
  let o := nth ev (h_events h) zeroEO in
  match eo_what o with
  | None => Panic
  | Some z => Ok (MkHeap (h_traces h) (update ev (MkEO (eo_when o) None [] (truncate (eo_stack o)) (eo_iserr o)) (h_events h))
                         (h_stringers h) (h_arrays h) (h_tpool h) (ev :: h_epool h) (z :: h_zpool h))
  end.
Fixpoint h_free_events (evs : list nat) (h : heap) : res heap :=
  match evs with [] => Ok h | ev :: evs => h <- h_free_event ev h ;; h_free_events evs h end.
(** trace_core.go:302-318 *)
Definition h_free (t : nat) (h : heap) : res heap :=
  let o := nth t (h_traces h) zeroTO in
  if negb (ct_finished (to_head o)) then Ok h
  else h <- h_free_events (to_events o) h ;;
       Ok (MkHeap (update t (MkTO (to_head o) (firstn 0 (to_events o))) (h_traces h)) (h_events h) (h_stringers h) (h_arrays h)
                  (t :: h_tpool h) (h_epool h) (h_zpool h)).

(** A call of a method, and what the runtime chooses during it. *)
Record choices := MkCh { ch_ep : option nat; ch_zp : option nat; ch_spares : nat -> list Frame }.
Definition h_call (t : nat) (x : env * call arg) (ch : choices) (h : heap) : res (heap * list hevent) :=
  match snd x with
  | CallLog k f a => Ok (h_log t (fst x) (ch_ep ch) (ch_zp ch) k f a h, [])
  | CallFinish => let o := nth t (h_traces h) zeroTO in Ok (set_trace t (MkTO (Finish (e_now (fst x)) (to_head o)) (to_events o)) h, [])
  | CallSetMaxEvents n => let o := nth t (h_traces h) zeroTO in Ok (set_trace t (MkTO (SetMaxEvents n (to_head o)) (to_events o)) h, [])
  | CallEvents n s => h_events_detail t (fst x) n s (ch_spares ch) h
  end.

(** Goroutines that use collectors. *)
Inductive hop :=
| HNewTrace (c : nat) (category : string) (g : globals) (now : Z) (id source : string) (pick : option nat)
| HCall (handle : nat) (x : env * call arg) (ch : choices)       (* on the n-th trace ever created *)
| HSetCategorySize (c : nat) (cap : Z)
| HGC (kt ke kz : nat -> bool).                                  (* the garbage collector takes objects out of the pools *)
(** Where a goroutine is: between operations; after newTrace and before Add (collector.go:123-129);
    inside Resize, with the categories still to do (ringbuffer.go:241-243); with traces still
    to free (collector.go:108-110, 129-131). *)
Inductive hstate :=
| HIdle
| HAdding (t : nat) (key : nat * string)
| HResizing (keys : list (nat * string)) (cap : Z) (dropped : list nat)
| HFreeing (ts : list nat).
Record machine := MkHM {
  hm_heap : heap;
  hm_sizes : nat -> Z;                                           (* ringbuffer.go:189, per collector *)
  hm_cats : list (nat * string * blist nat);                     (* by collector and category, see C01 *)
  hm_handles : list nat;                                         (* the traces ever created *)
  hm_threads : list (hstate * list hop);
  hm_results : list (nat * env * Z * bool * list hevent)         (* what Events returned: handle, parameters, events *)
}.
Definition hm_start (programs : list (list hop)) : machine :=
  MkHM empty_heap (fun _ => 1000) [] [] (map (fun p => (HIdle, p)) programs) [].

Definition key_eq (a b : nat * string) : bool := (Nat.eqb (fst a) (fst b) && String.eqb (snd a) (snd b))%bool.
Fixpoint get_ring (k : nat * string) (cats : list (nat * string * blist nat)) : option (blist nat) :=
  match cats with [] => None | (k', r) :: cats => if key_eq k k' then Some r else get_ring k cats end.
Fixpoint set_ring (k : nat * string) (r : blist nat) (cats : list (nat * string * blist nat)) : list (nat * string * blist nat) :=
  match cats with [] => [] | (k', r') :: cats => if key_eq k k' then (k', r) :: cats else (k', r') :: set_ring k r cats end.
(** ringbuffer.go:204-215 *)
Definition get_or_create (k : nat * string) (size : Z) (cats : list (nat * string * blist nat)) : list (nat * string * blist nat) :=
  match get_ring k cats with Some _ => cats | None => cats ++ [(k, MkBL (Z.to_nat size) [])] end.
Definition finish_state (ts : list nat) : hstate := match ts with [] => HIdle | _ => HFreeing ts end.
Definition set_thread (m : machine) (i : nat) (s : hstate) (p : list hop) : list (hstate * list hop) := update i (s, p) (hm_threads m).

(** Goroutine i takes a step.  The lock of the set of categories (C51) is left out: without
    it there are more interleavings.  Panics are explicit. *)
Definition h_step (m : machine) (i : nat) : res machine :=
  match nth_error (hm_threads m) i with
  | Some (HIdle, HNewTrace c cat g now id src pick :: p) =>                              (* collector.go:123-127 *)
      let '(h, t) := h_new g now id pick src cat (hm_heap m) in
      Ok (MkHM h (hm_sizes m) (hm_cats m) (hm_handles m ++ [t]) (set_thread m i (HAdding t (c, cat)) p) (hm_results m))
  | Some (HAdding t k, p) =>                                                             (* collector.go:129, ringbuffer.go:95-126 *)
      let cats := get_or_create k (hm_sizes m (fst k)) (hm_cats m) in
      match get_ring k cats with
      | None => Panic
      | Some r =>
          let '(r, out) := bl_add 0%nat r t in
          Ok (MkHM (hm_heap m) (hm_sizes m) (set_ring k r cats) (hm_handles m)
                   (set_thread m i (finish_state (match out with RAdd d true => [d] | _ => [] end)) p) (hm_results m))
      end
  | Some (HFreeing ts, p) =>                                                             (* collector.go:108-110, 129-131 *)
      match ts with
      | [] => Ok (MkHM (hm_heap m) (hm_sizes m) (hm_cats m) (hm_handles m) (set_thread m i HIdle p) (hm_results m))
      | t :: ts => h <- h_free t (hm_heap m) ;;
                   Ok (MkHM h (hm_sizes m) (hm_cats m) (hm_handles m) (set_thread m i (finish_state ts) p) (hm_results m))
      end
  | Some (HIdle, HCall n x ch :: p) =>
      match nth_error (hm_handles m) n with
      | None => Ok m                                                                     (* that trace does not exist yet *)
      | Some t =>
          '(h, evs) <- h_call t x ch (hm_heap m) ;;
          Ok (MkHM h (hm_sizes m) (hm_cats m) (hm_handles m) (set_thread m i HIdle p)
                   (hm_results m ++ match snd x with CallEvents k s => [(n, fst x, k, s, evs)] | _ => [] end))
      end
  | Some (HIdle, HSetCategorySize c cap :: p) =>                                         (* ringbuffer.go:231-239 *)
      if cap <=? 0 then Ok (MkHM (hm_heap m) (hm_sizes m) (hm_cats m) (hm_handles m) (set_thread m i HIdle p) (hm_results m))
      else Ok (MkHM (hm_heap m) (fun c' => if Nat.eqb c' c then cap else hm_sizes m c') (hm_cats m) (hm_handles m)
                    (set_thread m i (HResizing (filter (fun k => Nat.eqb (fst k) c) (map fst (hm_cats m))) cap []) p) (hm_results m))
  | Some (HIdle, HGC kt ke kz :: p) =>
      let h := hm_heap m in
      Ok (MkHM (MkHeap (h_traces h) (h_events h) (h_stringers h) (h_arrays h) (filter kt (h_tpool h)) (filter ke (h_epool h)) (filter kz (h_zpool h)))
               (hm_sizes m) (hm_cats m) (hm_handles m) (set_thread m i HIdle p) (hm_results m))
  | Some (HResizing [] cap dropped, p) =>                                                (* ringbuffer.go:245 *)
      Ok (MkHM (hm_heap m) (hm_sizes m) (hm_cats m) (hm_handles m) (set_thread m i (finish_state dropped) p) (hm_results m))
  | Some (HResizing (k :: ks) cap dropped, p) =>                                         (* ringbuffer.go:242 *)
      match get_ring k (hm_cats m) with
      | None => Panic
      | Some r =>
          let '(r, out) := bl_resize r cap in
          Ok (MkHM (hm_heap m) (hm_sizes m) (set_ring k r (hm_cats m)) (hm_handles m)
                   (set_thread m i (HResizing ks cap (dropped ++ match out with RResize d => d | _ => [] end)) p) (hm_results m))
      end
  | _ => Ok m
  end.
Fixpoint h_run (sched : list nat) (m : machine) : res machine :=
  match sched with [] => Ok m | i :: sched => m <- h_step m i ;; h_run sched m end.
End Heap.
Arguments heap : clear implicits.
Arguments tobj : clear implicits.
Arguments eobj : clear implicits.
Arguments machine : clear implicits.
Arguments hop : clear implicits.

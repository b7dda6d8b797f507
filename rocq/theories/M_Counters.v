(** The counters behind the debug page: how many traces, events and texts were made,
    allocated, given back to their pools and given up (internal/trcdebug/counters.go,
    trace_core.go, trcweb/render.go:271-300).  They run beside the memory of M_Heap. *)
From Verif Require Import Go M_Strings M_Types S_RingBuf S_Trace M_Trace M_Heap.
Open Scope list_scope.
Open Scope nat_scope.

(** counters.go: New, Alloc, Free and Lost of one kind.  Uint64 counters: as naturals, they
    do not wrap. *)
Record counts := MkCounts { n_new : nat; n_alloc : nat; n_free : nat; n_lost : nat }.
Record counters := MkCounters { of_traces : counts; of_events : counts; of_stringers : counts }.
Definition no_counts : counts := MkCounts 0 0 0 0.
Definition zero_counters : counters := MkCounters no_counts no_counts no_counts.

(** sync.Pool.Get calls New, which counts an allocation, when it does not have an object to
    give (trace_core.go:104-109, 324-329, 446-451).  See pool_get. *)
Definition pool_misses (pick : option nat) (pool : list nat) : bool :=
  match pick with Some j => match nth_error pool j with Some _ => false | None => true end | None => true end.
Definition count_new (missed : bool) (c : counts) : counts := MkCounts (n_new c + 1) (n_alloc c + if missed then 1 else 0) (n_free c) (n_lost c).
Definition count_free (c : counts) : counts := MkCounts (n_new c) (n_alloc c) (n_free c + 1) (n_lost c).
Definition count_lost (c : counts) : counts := MkCounts (n_new c) (n_alloc c) (n_free c) (n_lost c + 1).

Section Counters.
Context {arg world pc : Type}.
Variable Sprintf : world -> string -> list arg -> string.
Variable CallersFrames : list pc -> list rframe.
Notation heap := (heap arg pc).
Notation machine := (machine arg world pc).

(** trace_core.go:112-115 *)
Definition count_new_trace (pick : option nat) (h : heap) (c : counters) : counters :=
  MkCounters (count_new (pool_misses pick (h_tpool h)) (of_traces c)) (of_events c) (of_stringers c).
(** trace_core.go:350-353, 466-469, 475-478 *)
Definition count_new_event (ch : choices) (h : heap) (c : counters) : counters :=
  MkCounters (of_traces c) (count_new (pool_misses (ch_ep ch) (h_epool h)) (of_events c)) (count_new (pool_misses (ch_zp ch) (h_zpool h)) (of_stringers c)).
(** trace_core.go:164-230: an event is made unless the trace is finished or full *)
Definition count_log (t : nat) (k : kind) (ch : choices) (h : heap) (c : counters) : counters :=
  let o := nth t (h_traces h) zeroTO in
  if ct_finished (to_head o) then c
  else if (ct_eventsmax (to_head o) <=? zlen (to_events o))%Z then c
  else count_new_event ch h c.
(** trace_core.go:400-407, 506-509 *)
Definition count_free_event (c : counters) : counters := MkCounters (of_traces c) (count_free (of_events c)) (count_free (of_stringers c)).
Fixpoint count_free_events (evs : list nat) (c : counters) : counters :=
  match evs with [] => c | _ :: evs => count_free_events evs (count_free_event c) end.
(** trace_core.go:302-318 *)
Definition count_free_trace (t : nat) (h : heap) (c : counters) : counters :=
  let o := nth t (h_traces h) zeroTO in
  if negb (ct_finished (to_head o)) then MkCounters (count_lost (of_traces c)) (of_events c) (of_stringers c)
  else let c := count_free_events (to_events o) c in MkCounters (count_free (of_traces c)) (of_events c) (of_stringers c).

(** What the next step of goroutine i (see h_step) counts. *)
Definition count_step (m : machine) (i : nat) (c : counters) : counters :=
  match nth_error (hm_threads m) i with
  | Some (HIdle, HNewTrace _ _ _ _ _ _ pick :: _) => count_new_trace pick (hm_heap m) c
  | Some (HFreeing (t :: _), _) => count_free_trace t (hm_heap m) c
  | Some (HIdle, HCall n x ch :: _) =>
      match nth_error (hm_handles m) n, snd x with
      | Some t, CallLog k _ _ => count_log t k ch (hm_heap m) c
      | _, _ => c
      end
  | _ => c
  end.
Fixpoint c_run (sched : list nat) (mc : machine * counters) : res (machine * counters) :=
  match sched with
  | [] => Ok mc
  | i :: sched => m <- h_step Sprintf CallersFrames (fst mc) i ;; c_run sched (m, count_step (fst mc) i (snd mc))
  end.
End Counters.

(** trcweb/render.go:271-296: the row of one kind.  The four counters are loaded one after the
    other, here at four times; REUSE is 100 * FREE / NEW in floating point and is left out. *)
Record row := MkRow { r_new : nat; r_alloc : nat; r_free : nat; r_lost : nat }.
Definition debug_row (kind : counters -> counts) (c1 c2 c3 c4 : counters) : row :=
  MkRow (n_new (kind c1)) (n_alloc (kind c2)) (n_free (kind c3)) (n_lost (kind c4)).

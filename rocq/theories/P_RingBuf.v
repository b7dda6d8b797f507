(** C01, C02, C03: the ring buffer. *)
From Verif Require Import Go S_RingBuf M_RingBuf L_RingBuf.
Open Scope Z_scope.

(** C01.  Any history of calls on a new ring buffer gives exactly the answers of
    the bounded newest-first list of S_RingBuf, and never panics. *)
Theorem C01_ringbuf_is_bounded_list :
  forall (T : Type) (zero : T) (cap : Z) (ops : list (rb_op T)),
    0 <= cap ->
    exists r0 r',
      NewRingBuffer zero cap = Ok r0 /\
      rb_run zero r0 ops = Ok (r', snd (bl_run zero (MkBL (Z.to_nat cap) []) ops)).
Proof. exact (@ringbuf_refines_list). Qed.
Print Assumptions C01_ringbuf_is_bounded_list.

Example C01_instance :
  exists r0 r',
    NewRingBuffer 0 3 = Ok r0 /\
    rb_run 0 r0 [OAdd 1; OAdd 2; OAdd 3; OAdd 4; OWalk; OResize 2; OWalk; OStats; OResize 5; OAdd 9; OWalk]
    = Ok (r', [RAdd 0 false; RAdd 0 false; RAdd 0 false; RAdd 1 true; RWalk [4;3;2];
               RResize [2]; RWalk [4;3]; RStats 4 3 2; RResize []; RAdd 0 false; RWalk [9;4;3]]).
Proof. eexists. eexists. vm_compute. split; reflexivity. Qed.

(** C02.  On every reachable buffer, Walk calls the callback on the held values
    in order until it fails. *)
Theorem C02_walk_visits_newest_first :
  forall (T : Type) (zero : T) (St Err : Type) (cap : Z) (ops : list (rb_op T))
         (fn : St -> T -> St * option Err) (s : St) (r0 r : rb T) (outs : list (rb_out T)),
    NewRingBuffer zero cap = Ok r0 ->
    rb_run zero r0 ops = Ok (r, outs) ->
    Walk fn r s = Ok (visit fn (bl_items (fst (bl_run zero (MkBL (Z.to_nat cap) []) ops))) s).
Proof. exact (@walk_visits). Qed.
Print Assumptions C02_walk_visits_newest_first.

Example C02_instance :
  exists r0 r outs, NewRingBuffer 0 2 = Ok r0 /\
    rb_run 0 r0 [OAdd 1; OAdd 2; OAdd 3] = Ok (r, outs) /\
    Walk (fun s v => (s ++ [v], if v =? 3 then Some "stop"%string else None)) r [] = Ok ([3], Some "stop"%string).
Proof. eexists. eexists. eexists. vm_compute. repeat split. Qed.

(** C03.  Added = held + handed back, as multisets. *)
Theorem C03_nothing_lost_nothing_twice :
  forall (T : Type) (zero : T) (cap : Z) (ops : list (rb_op T)) (r0 r' : rb T) (outs : list (rb_out T)),
    0 < cap ->
    NewRingBuffer zero cap = Ok r0 ->
    rb_run zero r0 ops = Ok (r', outs) ->
    exists held,
      Walk (Err := unit) (fun s v => (s ++ [v], None)) r' [] = Ok (held, None) /\
      Permutation (added ops) (held ++ flat_map dropped_out outs).
Proof. exact (@conservation). Qed.
Print Assumptions C03_nothing_lost_nothing_twice.

(** With capacity 0 the value is discarded and not reported. *)
Example C03_capacity_zero_discards :
  exists r0 r', NewRingBuffer 0 0 = Ok r0 /\ rb_run 0 r0 [OAdd 7; OWalk] = Ok (r', [RAdd 0 false; RWalk []]).
Proof. eexists. eexists. vm_compute. split; reflexivity. Qed.

(** Searches beside other goroutines: what a collector holds at the moments of a search. *)
From Verif Require Import Go M_RingBufs M_SearchConc.
Open Scope list_scope.
Open Scope Z_scope.

Section Spec.
Context {T : Type}.
Variable zero : T.

(** The traces that a history adds. *)
Definition put (h : list (sop T)) : list T := flat_map (fun o => match o with SAdd _ tr => [tr] | _ => [] end) h.
(** A history that goroutines can make: they get a ring buffer before they add to it or
    resize it; sizes are positive (ringbuffer.go:232-234); no trace is added twice. *)
Definition proper (h : list (sop T)) : Prop :=
  (forall p o q, h = p ++ o :: q ->
     match o with
     | SCreate _ => True
     | SAdd c _ => In (SCreate c) p
     | SCap cap => 0 < cap
     | SResize c cap => In (SCreate c) p /\ 0 < cap
     end) /\
  NoDup (put h).
(** A collector with this storage holds the trace. *)
Definition holds (s : rbs T) (tr : T) : Prop := exists c l, category_content s c = Some (Ok l) /\ In tr l.
(** The storage at some moment of a search that starts with [s], while [h] happens. *)
Definition moment (s : rbs T) (h : list (sop T)) (s' : rbs T) : Prop := exists p q, h = p ++ q /\ srun zero s p = Ok s'.
(** What happens before the Walks of a search, altogether. *)
Definition meanwhile (before : nat -> list (sop T)) (walks : nat) : list (sop T) := flat_map before (seq 0 walks).
End Spec.

(** What a collector may hold: bounds from its settings. *)
From Verif Require Import Go M_Types S_RingBuf S_Trace M_Trace M_Heap S_Heap L_Heap.
Open Scope list_scope.
Open Scope nat_scope.

Section Spec.
Context {arg world pc : Type}.
Notation machine := (machine arg world pc).
Notation hop := (hop arg world pc).

(** The settings an operation makes or uses are at most [size] traces for a category and
    [events] events for a trace.  (The limit given to a single trace is cut to 10000.) *)
Definition op_within (size events : nat) (o : hop) : Prop :=
  match o with
  | HNewTrace _ _ g _ _ _ _ => (g_maxEvents g <= Z.of_nat events)%Z
  | HCall _ (_, CallSetMaxEvents n) _ => (Z.min n traceMaxEventsMax <= Z.of_nat events)%Z
  | HSetCategorySize _ cap => (cap <= Z.of_nat size)%Z
  | _ => True
  end.
(** The collectors and categories that programs name. *)
Definition named (o : hop) : list (nat * string) := match o with HNewTrace c cat _ _ _ _ _ => [(c, cat)] | _ => [] end.
Definition all_named (programs : list (list hop)) : list (nat * string) := flat_map (flat_map named) programs.

Definition events_of (m : machine) (t : nat) : nat := length (ct_events (trace_value (hm_heap m) t)).
(** all the events in all the traces in all the categories *)
Definition events_held (m : machine) : nat := list_sum (map (events_of m) (in_categories m)).
(** the room that is reserved for traces *)
Definition room (m : machine) : nat := list_sum (map (fun kr => bl_cap (snd kr)) (hm_cats m)).
End Spec.

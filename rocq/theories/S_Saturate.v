(** What the timeline of a trace should look like when times may be far apart. *)
From Verif Require Import Go M_Types M_Web.
Open Scope Z_scope.

(** A duration that fits in 64 bits *)
Definition representable (d : Z) : Prop := - 2 ^ 63 <= d < 2 ^ 63.
(** [d] is as close to [exact] as a duration of 64 bits can be. *)
Definition nearest (d exact : Z) : Prop :=
  representable d /\ forall d', representable d' -> Z.abs (d - exact) <= Z.abs (d' - exact).
(** All times of a trace: its start, its events, its end *)
Definition times (st : StaticTrace) : list Z :=
  TraceStarted st :: map When (TraceEvents st) ++ [TraceStarted st + TraceDuration st].
(** No two of them are 292 years apart. *)
Definition same_era (st : StaticTrace) : Prop :=
  forall t u, In t (times st) -> In u (times st) -> Z.abs (t - u) < 2 ^ 63.
(** The sum of the deltas of a timeline *)
Definition sum_of_deltas (rows : list renderEvent) : Z := fold_right Z.add 0 (map re_Delta rows).

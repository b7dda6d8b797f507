(** Specification for C96: when a float64 result is a good one, and which clock readings there are. *)
From Verif Require Import Go M_Float.
From Coq Require Import QArith.
Open Scope Z_scope.

(** [f] is [e] up to a relative error of k/2^53; 0 only if [e] is *)
Definition near (k : Z) (f e : Q) : Prop := (e * (1 - inject_Z k * two (-53)) <= f <= e * (1 + inject_Z k * two (-53)))%Q /\ (f == 0 <-> e == 0)%Q.
(** readings of the clock and starts: nanoseconds since the year 1 *)
Definition usable (now : Z) : Prop := now <= 2 ^ 100.
Definition usable4 (t : Z * Z * Z * Z) : Prop := let '(t1, t2, t3, t4) := t in usable t1 /\ usable t2 /\ usable t3 /\ usable t4.

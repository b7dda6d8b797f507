(** What the timeline of a trace should look like. *)
From Coq Require Import ZArith QArith.
From Verif Require Import Go M_Types M_Web M_Float.
Open Scope Z_scope.

(** Times that do not go back, from [t] to [last]. *)
Fixpoint in_time (t : Z) (evs : list Event) (last : Z) : Prop :=
  match evs with
  | [] => t <= last
  | ev :: evs => t <= When ev /\ in_time (When ev) evs last
  end.
(** The events of a trace are in order and between its start and its end. *)
Definition well_timed (st : StaticTrace) : Prop :=
  in_time (TraceStarted st) (TraceEvents st) (TraceStarted st + TraceDuration st).
(** [n] of [d] in percent, exactly *)
Definition share (n d : Z) : Q := (inject_Z (100 * n) / inject_Z d)%Q.
(** [x] is [y] up to a relative error of 2^-50 *)
Definition close (x y : Q) : Prop := (y * (1 - two (-50)) <= x <= y * (1 + two (-50)))%Q.
Definition total (qs : list Q) : Q := fold_right Qplus 0%Q qs.
(** The order of the floats that are numbers. *)
Definition float_le (x y : float) : Prop :=
  match x, y with
  | NaN, _ | _, NaN => False
  | NegInf, _ | _, PosInf => True
  | Fin a, Fin b => (a <= b)%Q
  | _, _ => False
  end.

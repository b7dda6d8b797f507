(** Specification of search statistics: counting over a list of traces. *)
From Verif Require Import Go M_Types.
Open Scope Z_scope.

Definition count {A} (p : A -> bool) (l : list A) : Z := zlen (filter p l).
Definition sum (l : list Z) : Z := fold_right Z.add 0 l.

Definition active (tr : StaticTrace) : bool := negb (TraceFinished tr).
Definition failed (tr : StaticTrace) : bool := TraceFinished tr && TraceErrored tr.
Definition succeeded (tr : StaticTrace) : bool := TraceFinished tr && negb (TraceErrored tr).

(** earliest and latest start among those that are set (0 if none is) *)
Definition earliest (starts : list Z) : Z :=
  match filter (fun t => negb (t =? 0)) starts with
  | [] => 0
  | t :: ts => fold_left Z.min ts t
  end.
Definition latest (starts : list Z) : Z :=
  match filter (fun t => negb (t =? 0)) starts with
  | [] => 0
  | t :: ts => fold_left Z.max ts t
  end.

(** The traces of a category. *)
Definition of_category (c : string) (trs : list StaticTrace) : list StaticTrace :=
  filter (fun tr => String.eqb (TraceCategory tr) c) trs.

(** Successful traces counted in bucket i: those that last at least as long as
    bucket i and all the ones before it.  If the bucketing is ascending this is
    just bucket i. *)
Definition in_bucket (bucketing : list Z) (i : nat) (tr : StaticTrace) : bool :=
  succeeded tr && forallb (fun b => b <=? TraceDuration tr) (firstn (S i) bucketing).

(** [b] is ascending *)
Fixpoint ascending (b : list Z) : Prop :=
  match b with
  | x :: ((y :: _) as rest) => x <= y /\ ascending rest
  | _ => True
  end.

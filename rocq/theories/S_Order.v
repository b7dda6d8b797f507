(** Specification of sorting and of "the k highest of a list", for a comparison
    [above x y] ("x comes before y"). *)
From Verif Require Import Go.
From Coq Require Import Sorted.

Section Order.
Context {A : Type}.
Variable above : A -> A -> bool.

(** No element is above one that precedes it. *)
Definition in_order (l : list A) : Prop := StronglySorted (fun x y => above y x = false) l.

(** What sort.Sort guarantees: a rearrangement that is in order.  Nothing is said about
    the relative order of elements neither of which is above the other. *)
Definition is_sort (sort : list A -> list A) : Prop :=
  forall l, Permutation (sort l) l /\ in_order (sort l).

(** r consists of the k highest of l, in order (all of l if there are at most k): the
    elements of l that are left out, [rest], are above none of them. *)
Definition highest (k : nat) (l r : list A) : Prop :=
  in_order r /\ length r = Nat.min k (length l) /\
  exists rest, Permutation (r ++ rest) l /\ forall x y, In x r -> In y rest -> above y x = false.

(** What a comparison must satisfy for sort.Sort to be meaningful. *)
Definition strict_weak : Prop :=
  (forall x, above x x = false) /\
  (forall x y z, above x y = true -> above y z = true -> above x z = true) /\
  (forall x y z, above x z = true -> above x y = true \/ above y z = true).
End Order.

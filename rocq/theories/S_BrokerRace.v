(** Which programs use a broker with care, and races between given goroutines. *)
From Verif Require Import Go S_HappensBefore M_BrokerRace.
From Coq Require Import Permutation.
Open Scope list_scope.
Open Scope nat_scope.

(** A program that writes neither to traces it received (nor has another broker do so) nor to filters it passed to Stream.  A map is visited in any order. *)
Definition careful (o : op) : Prop :=
  match o with Publish visit _ _ => forall l, Permutation (visit l) l | EditTrace | EditFilter _ | Relay _ => False | _ => True end.
(** Goroutines g and g' access place p, one of them to write, and nothing puts the first access before the second. *)
Definition racing (l : history place order) (g g' : nat) (p : place) : Prop :=
  exists i j a b w w', i < j /\ nth_error l i = Some (g, a) /\ nth_error l j = Some (g', b) /\
    access_of a = Some (p, w) /\ access_of b = Some (p, w') /\ (w = true \/ w' = true) /\ ~ before l i j.

(** How often a server is asked. *)
From Coq Require Import Sorted.
From Verif Require Import Go M_Retry.
Open Scope list_scope.
Open Scope Z_scope.

(** Time does not go back. *)
Definition in_order (h : list (Z * what)) : Prop := StronglySorted (fun x y : Z * what => fst x <= fst y) h.
(** The number of attempts that begin in the times from a to b. *)
Definition is_start (w : what) : bool := match w with Start => true | _ => false end.
Definition attempts (h : list (Z * what)) (a b : Z) : nat :=
  length (filter (fun x => is_start (snd x) && (a <=? fst x) && (fst x <=? b)) h).

(** The column REUSE of the debug information of a page. *)
From Verif Require Import Go M_Counters M_Float.
Open Scope Z_scope.

(** trcweb/render.go:271-289: 100 * float64(tf) / float64(tn), and likewise for events and texts;
    how it is written with two digits after the point is left out *)
Definition debug_reuse (r : row) : float := fpercent (Z.of_nat (r_free r)) (Z.of_nat (r_new r)).

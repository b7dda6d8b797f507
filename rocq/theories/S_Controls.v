(** Specification for C120: what a user of the search page sees. *)
From Verif Require Import Go M_Types M_Web M_Controls.
Open Scope string_scope.
Open Scope list_scope.
Open Scope Z_scope.

(** Trace number i, and row number j of it. *)
Definition shown (t : tab) (i : nat) (x : item) : Prop := nth_error (t_items t) i = Some x.
Definition row_at (t : tab) (i j : nat) (r : row) : Prop := exists x, shown t i x /\ nth_error (i_rows x) j = Some r.
Definition stack_at (t : tab) (i j : nat) (b : bool) : Prop := exists r, row_at t i j r /\ r_stack r = Some b.
Definition same_id (t : tab) (i i' : nat) : Prop := exists x x', shown t i x /\ shown t i' x' /\ i_id x = i_id x'.

(** IDs of letters and digits, as all that trc makes, mean themselves in a selector. *)
Definition plain (id : string) : Prop :=
  id <> "" /\ forall c, In c (list_ascii_of_string id) ->
    let n := N_of_ascii c in (48 <= n <= 57 \/ 65 <= n <= 90 \/ 97 <= n <= 122)%N.
Definition reads_ids (selects : string -> string -> bool) : Prop := forall a b, plain a -> selects a b = String.eqb a b.
Definition plain_load (a : action) : Prop :=
  match a with Load traces => Forall (fun x => plain (TraceID (fst x))) traces | _ => True end.

(** Where the pointer is, as the browser tells it: it leaves a row before it enters another. *)
Inductive pointer : list action -> option (nat * nat) -> Prop :=
| pointer_start : pointer [] None
| pointer_over h i j : pointer h None -> pointer (h ++ [Over i j]) (Some (i, j))
| pointer_out h i j : pointer h (Some (i, j)) -> pointer (h ++ [Out i j]) None
| pointer_load h p traces : pointer h p -> pointer (h ++ [Load traces]) None
| pointer_other h p a : pointer h p -> match a with Over _ _ | Out _ _ | Load _ => False | _ => True end -> pointer (h ++ [a]) p.
(** The pointer is on a row of a trace with the ID of trace i, and that row has this index. *)
Definition points_into (t : tab) (p : option (nat * nat)) (i : nat) (index : Z) : Prop :=
  exists k l r, p = Some (k, l) /\ same_id t k i /\ row_at t k l r /\ r_index r = index.

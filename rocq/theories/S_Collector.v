(** Specification of the collector's storage. *)
From Verif Require Import Go.

Section Spec.
Context {T : Type}.

(** What a user does to the storage of a collector: create a trace in a
    category, change the category size.  [order] is the map iteration order the
    run-time happens to use. *)
Inductive coll_op :=
| CNew (category : string) (tr : T)
| CSize (cap : Z) (order : list string -> list string).

(** The current category size after a history: the last positive size asked
    for, 1000 to begin with. *)
Definition size_after (ops : list coll_op) : Z :=
  fold_left (fun size o => match o with
                           | CSize n _ => if (0 <? n)%Z then n else size
                           | CNew _ _ => size
                           end) ops 1000%Z.

(** The traces a category holds after a history (given last operation first),
    newest first. *)
Fixpoint held_rev (category : string) (rops : list coll_op) : list T :=
  match rops with
  | [] => []
  | CNew c t :: before =>
      if String.eqb c category
      then firstn (Z.to_nat (size_after (rev before))) (t :: held_rev category before)
      else held_rev category before
  | CSize n _ :: before =>
      if (0 <? n)%Z then firstn (Z.to_nat n) (held_rev category before)
      else held_rev category before
  end.
Definition held (category : string) (ops : list coll_op) : list T := held_rev category (rev ops).

(** The traces created by a history, and the categories it mentions. *)
Definition created (ops : list coll_op) : list T :=
  flat_map (fun o => match o with CNew _ t => [t] | CSize _ _ => [] end) ops.
Definition mentioned (category : string) (ops : list coll_op) : Prop :=
  exists t, In (CNew category t) ops.

Definition valid_op (o : coll_op) : Prop :=
  match o with CNew _ _ => True | CSize _ order => is_order order end.
End Spec.

Arguments coll_op : clear implicits.

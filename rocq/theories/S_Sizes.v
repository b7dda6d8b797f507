(** What category sizes that cannot be had do to a collector: spec for C111. *)
From Verif Require Import Go S_Collector.
Open Scope Z_scope.

Section Spec.
Context {T : Type}.
(** The largest size that can be had *)
Variable most : Z.
Definition too_large (n : Z) : bool := most <? n.

(** Which calls of a history panic: [size] is the size asked for last, [known] says whether there is
    a category.  Asking for a size that is too large panics if there is a category; creating the
    first trace of a category does if the size asked for last is too large. *)
Fixpoint panics (size : Z) (known : list string) (ops : list (coll_op T)) : list bool :=
  match ops with
  | [] => []
  | CSize n _ :: ops =>
      if n <=? 0 then false :: panics size known ops
      else (too_large n && negb (match known with [] => true | _ => false end)) :: panics n known ops
  | CNew c _ :: ops =>
      if existsb (String.eqb c) known then false :: panics size known ops
      else if too_large size then true :: panics size known ops
      else false :: panics size (c :: known) ops
  end.
(** The calls that take effect: all but sizes that are too large and the traces whose creation
    panics. *)
Fixpoint effective (size : Z) (known : list string) (ops : list (coll_op T)) : list (coll_op T) :=
  match ops with
  | [] => []
  | CSize n o :: ops =>
      if n <=? 0 then CSize n o :: effective size known ops
      else if too_large n then effective n known ops
      else CSize n o :: effective n known ops
  | CNew c t :: ops =>
      if existsb (String.eqb c) known then CNew c t :: effective size known ops
      else if too_large size then effective size known ops
      else CNew c t :: effective size (c :: known) ops
  end.
(** Answers of calls: None is a panic. *)
Definition is_panic (o : option (list T)) : bool := match o with None => true | Some _ => false end.
End Spec.

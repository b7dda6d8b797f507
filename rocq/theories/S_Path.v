(** Splitting at a separator byte. *)
From Verif Require Import Go.
Open Scope string_scope.

Definition slash : ascii := "/".
Definition colon : ascii := ":".

(** The elements of [s] between separators; always at least one. *)
Fixpoint split (c : ascii) (s : string) : list string :=
  match s with
  | EmptyString => [EmptyString]
  | String x s =>
      if Ascii.eqb x c then EmptyString :: split c s
      else match split c s with
           | e :: es => String x e :: es
           | [] => [String x EmptyString]
           end
  end.
Fixpoint join (sep : string) (l : list string) : string :=
  match l with
  | [] => EmptyString
  | [s] => s
  | s :: l => s ++ sep ++ join sep l
  end.

(** The last two elements of a path, and all elements but the last. *)
Definition last_two (path : string) : string :=
  let es := split slash path in join "/" (skipn (length es - 2) es).
Definition parent (path : string) : string := join "/" (removelast (split slash path)).

Fixpoint has_byte (c : ascii) (s : string) : bool :=
  match s with EmptyString => false | String x s => Ascii.eqb x c || has_byte c s end.

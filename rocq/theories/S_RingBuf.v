(** Specification of a ring buffer: a list, newest value first, that never
    holds more than [bl_cap] values. *)
From Verif Require Import Go.

Section Spec.
Context {T : Type}.
Variable zero : T.

Record blist := MkBL { bl_cap : nat; bl_items : list T }.

(** The public operations and their answers ([OWalk] is a Walk whose callback
    records the values it is given and never fails). *)
Inductive rb_op := OAdd (x : T) | OResize (cap : Z) | OWalk | OStats.
Inductive rb_out :=
| RAdd (dropped : T) (ok : bool)
| RResize (dropped : list T)
| RWalk (visited : list T)
| RStats (newest oldest : T) (count : Z).

(** Adding to a full list removes and returns its last (oldest) element.  A
    list of capacity zero stores nothing and returns nothing. *)
Definition bl_add (b : blist) (x : T) : blist * rb_out :=
  match bl_cap b with
  | O => (b, RAdd zero false)
  | _ =>
      if length (bl_items b) =? bl_cap b
      then (MkBL (bl_cap b) (x :: removelast (bl_items b)), RAdd (last (bl_items b) zero) true)
      else (MkBL (bl_cap b) (x :: bl_items b), RAdd zero false)
  end%nat.

(** Resizing keeps the newest values and returns the others. *)
Definition bl_resize (b : blist) (cap : Z) : blist * rb_out :=
  if (cap <=? 0)%Z then (b, RResize [])
  else (MkBL (Z.to_nat cap) (firstn (Z.to_nat cap) (bl_items b)),
        RResize (skipn (Z.to_nat cap) (bl_items b))).

Definition bl_stats (b : blist) : rb_out :=
  match bl_items b with
  | [] => RStats zero zero 0
  | x :: _ => RStats x (last (bl_items b) zero) (Z.of_nat (length (bl_items b)))
  end.

Definition bl_step (b : blist) (o : rb_op) : blist * rb_out :=
  match o with
  | OAdd x => bl_add b x
  | OResize c => bl_resize b c
  | OWalk => (b, RWalk (bl_items b))
  | OStats => (b, bl_stats b)
  end.

Fixpoint bl_run (b : blist) (ops : list rb_op) : blist * list rb_out :=
  match ops with
  | [] => (b, [])
  | o :: ops =>
      let (b, x) := bl_step b o in
      let (b, xs) := bl_run b ops in
      (b, x :: xs)
  end.

(** What a stateful callback sees when it is called on each element of a list
    in order until it returns an error. *)
Fixpoint visit {St Err} (fn : St -> T -> St * option Err) (l : list T) (s : St)
  : St * option Err :=
  match l with
  | [] => (s, None)
  | x :: l => match fn s x with
              | (s, Some e) => (s, Some e)
              | (s, None) => visit fn l s
              end
  end.

(** The values added by a history, and the values handed back by an answer. *)
Definition added (ops : list rb_op) : list T :=
  flat_map (fun o => match o with OAdd x => [x] | _ => [] end) ops.
Definition dropped_out (o : rb_out) : list T :=
  match o with RAdd d true => [d] | RResize ds => ds | _ => [] end.
End Spec.

Arguments blist : clear implicits.
Arguments rb_op : clear implicits.
Arguments rb_out : clear implicits.

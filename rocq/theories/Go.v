(** Go run-time conventions used by every model file. *)
From Coq Require Export String Ascii.
From Coq Require Export List ZArith Lia Bool Permutation.
Export ListNotations.
Open Scope list_scope.

(** The result of running Go code that may panic: index out of range,
    negative [make], nil dereference, explicit [panic]. *)
Inductive res (A : Type) : Type :=
| Ok (a : A)
| Panic.
Arguments Ok {A} a.
Arguments Panic {A}.

Definition bind {A B} (m : res A) (f : A -> res B) : res B :=
  match m with Ok a => f a | Panic => Panic end.

Notation "x <- m ;; k" := (bind m (fun x => k))
  (at level 100, m at next level, right associativity).
Notation "' p <- m ;; k" := (bind m (fun x => match x with p => k end))
  (at level 100, p pattern, m at next level, right associativity).

(** [s[i]] *)
Definition slice_get {A} (s : list A) (i : Z) : res A :=
  if (i <? 0)%Z then Panic
  else match nth_error s (Z.to_nat i) with
       | Some x => Ok x
       | None => Panic
       end.

(** [s[i] = v] *)
Definition slice_set {A} (s : list A) (i : Z) (v : A) : res (list A) :=
  if ((i <? 0) || (Z.of_nat (length s) <=? i))%Z then Panic
  else Ok (firstn (Z.to_nat i) s ++ v :: skipn (S (Z.to_nat i)) s).

(** [make([]T, n)], filled with the zero value of T *)
Definition go_make {A} (zero : A) (n : Z) : res (list A) :=
  if (n <? 0)%Z then Panic else Ok (repeat zero (Z.to_nat n)).

(** [len(s)] *)
Definition zlen {A} (s : list A) : Z := Z.of_nat (length s).

(** Go maps with string keys: association lists with at most one binding per
    key.  The order of the list is not observable: code that ranges over a map
    takes the iteration order as an input. *)
Section Map.
Context {V : Type}.

Fixpoint map_get (k : string) (m : list (string * V)) : option V :=
  match m with
  | [] => None
  | (k', v) :: m => if String.eqb k k' then Some v else map_get k m
  end.

(** [m[k] = v] *)
Fixpoint map_set (k : string) (v : V) (m : list (string * V)) : list (string * V) :=
  match m with
  | [] => [(k, v)]
  | (k', v') :: m => if String.eqb k k' then (k, v) :: m else (k', v') :: map_set k v m
  end.

Definition map_keys (m : list (string * V)) : list string := map fst m.

Lemma map_get_set k k' v m :
  map_get k (map_set k' v m) = if String.eqb k k' then Some v else map_get k m.
Proof.
  induction m as [|[k0 v0] m IH]; cbn [map_set map_get].
  - reflexivity.
  - destruct (String.eqb_spec k' k0) as [->|Hne]; cbn [map_get].
    + destruct (String.eqb_spec k k0); reflexivity.
    + rewrite IH. destruct (String.eqb_spec k k0) as [->|]; [|reflexivity].
      destruct (String.eqb_spec k0 k') as [->|]; [congruence|reflexivity].
Qed.

Lemma map_get_in k m : map_get k m <> None <-> In k (map_keys m).
Proof.
  induction m as [|[k0 v0] m IH]; cbn [map_get map_keys map fst In].
  - split; [congruence|tauto].
  - destruct (String.eqb_spec k k0) as [->|Hne].
    + split; [auto|congruence].
    + rewrite IH. unfold map_keys. split; [auto|]. intros [->|]; [congruence|assumption].
Qed.

Lemma map_keys_set k v m :
  map_keys (map_set k v m) =
  match map_get k m with Some _ => map_keys m | None => map_keys m ++ [k] end.
Proof.
  induction m as [|[k0 v0] m IH]; cbn [map_set map_get map_keys map fst app].
  - reflexivity.
  - destruct (String.eqb_spec k k0) as [->|Hne]; cbn [map fst].
    + reflexivity.
    + unfold map_keys in IH. rewrite IH. destruct (map_get k m); reflexivity.
Qed.

Lemma map_get_In k v m : map_get k m = Some v -> In (k, v) m.
Proof.
  induction m as [|[k0 v0] m IH]; cbn [map_get]; [discriminate|].
  destruct (String.eqb_spec k k0) as [->|]; [intros [= ->]; left; reflexivity|right; auto].
Qed.

Lemma map_In_get k v m : NoDup (map_keys m) -> In (k, v) m -> map_get k m = Some v.
Proof.
  induction m as [|[k0 v0] m IH]; cbn [map_keys map fst map_get]; [intros _ []|].
  intros Hnd. apply NoDup_cons_iff in Hnd as [Hni Hnd]. intros [[= -> ->]|Hin].
  - now rewrite String.eqb_refl.
  - destruct (String.eqb_spec k k0) as [->|]; [|apply IH; assumption].
    exfalso. apply Hni. apply (in_map fst) in Hin. exact Hin.
Qed.

Lemma map_keys_set_NoDup k v m : NoDup (map_keys m) -> NoDup (map_keys (map_set k v m)).
Proof.
  intros H. rewrite map_keys_set. destruct (map_get k m) eqn:E; [assumption|].
  apply NoDup_Add with (a := k) (l := map_keys m).
  - rewrite <- (app_nil_r (map_keys m)) at 1. apply Add_app.
  - split; [assumption|]. intros Hin. apply map_get_in in Hin. congruence.
Qed.
End Map.

(** An iteration order chosen by the run-time for [range] over a map. *)
Definition is_order (f : list string -> list string) : Prop :=
  forall ks, Permutation (f ks) ks.

(** List lemmas missing from the standard library. *)
From Verif Require Import Go.

Lemma nth_error_skipn_add {A} (l : list A) (n k : nat) : nth_error (skipn n l) k = nth_error l (n + k).
Proof.
  revert l; induction n as [|n IH]; intros l; [reflexivity|].
  destruct l as [|x l]; cbn [skipn Nat.add]; [destruct k; reflexivity|apply IH].
Qed.

Lemma nth_error_firstn_lt {A} (l : list A) (n k : nat) : (k < n)%nat -> nth_error (firstn n l) k = nth_error l k.
Proof.
  revert l k; induction n as [|n IH]; intros l k H; [lia|].
  destruct l as [|x l]; [reflexivity|]. destruct k; [reflexivity|]. cbn. apply IH. lia.
Qed.

Lemma Forall2_nth_error {A B} (P : A -> B -> Prop) la lb :
  length la = length lb ->
  (forall i a b, nth_error la i = Some a -> nth_error lb i = Some b -> P a b) -> Forall2 P la lb.
Proof.
  revert lb; induction la as [|a la IH]; intros [|b lb] Hl H; try discriminate; constructor.
  - apply (H 0%nat); reflexivity.
  - apply IH; [cbn in Hl; lia|]. intros i a' b' Ha Hb. apply (H (S i)); assumption.
Qed.

Lemma list_eq_nth_error {A} (l l' : list A) :
  (forall i, nth_error l i = nth_error l' i) -> l = l'.
Proof.
  revert l'; induction l as [|x l IH]; intros [|y l'] H.
  - reflexivity.
  - specialize (H 0%nat). discriminate.
  - specialize (H 0%nat). discriminate.
  - f_equal; [specialize (H 0%nat); cbn in H; congruence|]. apply IH. intros i. apply (H (S i)).
Qed.

(** Lemmas about byte strings. *)
From Verif Require Import Go L_List M_Strings.
Open Scope string_scope.

Lemma prefix_iff p s : String.prefix p s = true <-> exists r, s = (p ++ r)%string.
Proof.
  revert s; induction p as [|c p IH]; intros s.
  - split; [intros _; exists s; reflexivity|]. intros _. destruct s; reflexivity.
  - destruct s as [|c' s]; [split; [discriminate|intros (r & H); discriminate]|].
    cbn [String.prefix]. destruct (ascii_dec c c') as [Heq|Hne]; [subst c'|].
    + rewrite IH. cbn [String.append]. split; intros (r & H); exists r; congruence.
    + split; [discriminate|]. intros (r & H). cbn in H. congruence.
Qed.

Lemma str_length_app a b : String.length (a ++ b) = (String.length a + String.length b)%nat.
Proof. induction a; cbn; congruence. Qed.

Lemma str_app_nil_r a : (a ++ "")%string = a.
Proof. induction a; cbn; congruence. Qed.
Lemma substring_all s : substring 0 (String.length s) s = s.
Proof. induction s; cbn; congruence. Qed.
Lemma substring_prefix a b : substring 0 (String.length a) (a ++ b) = a.
Proof. induction a; cbn; [destruct b; reflexivity|congruence]. Qed.
Lemma str_skip_app a b : str_skip (String.length a) (a ++ b) = b.
Proof.
  unfold str_skip. rewrite str_length_app. replace (_ + _ - _)%nat with (String.length b) by lia.
  induction a as [|c a IH]; cbn; [apply substring_all|exact IH].
Qed.

Lemma substring_split s n : (n <= String.length s)%nat ->
  s = (substring 0 n s ++ substring n (String.length s - n) s)%string.
Proof.
  revert n; induction s as [|c s IH]; intros n H.
  - destruct n; [reflexivity|cbn in H; lia].
  - destruct n; cbn [String.length substring String.append].
    + rewrite Nat.sub_0_r. cbn. f_equal. symmetry. apply substring_all.
    + f_equal. replace (S (String.length s) - S n)%nat with (String.length s - n)%nat by lia.
      apply IH. cbn in H. lia.
Qed.

Lemma HasSuffix_iff s p : HasSuffix s p = true <-> exists q, s = (q ++ p)%string.
Proof.
  unfold HasSuffix. rewrite andb_true_iff, Nat.leb_le, String.eqb_eq. split.
  - intros [Hl He]. exists (substring 0 (String.length s - String.length p) s).
    rewrite <- He at 2. unfold str_skip. apply substring_split. lia.
  - intros (q & ->). rewrite str_length_app. split; [lia|].
    replace (_ + _ - _)%nat with (String.length q) by lia. apply str_skip_app.
Qed.


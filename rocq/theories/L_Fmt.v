(** Lemmas about Sprintf. *)
From Verif Require Import Go M_Strings M_Text M_Fmt L_Strings L_Text.
Open Scope string_scope.
Open Scope list_scope.

Section Fmt.
Context {arg world : Type}.
Variable printArg : world -> string -> ascii -> arg -> string.
Variable printExtra : world -> arg -> string.
Variable special : world -> string -> string -> list arg -> string.
Notation doPrintf := (doPrintf printArg printExtra special).
Notation Sprintf := (Sprintf printArg printExtra special).

(** A format that takes n arguments, followed by another one. *)
Lemma doPrintf_app w p ph n : takes_from p ph = Some n -> forall d pa f a, length pa = n ->
  doPrintf w (p ++ f) ph d (pa ++ a) = (doPrintf w p ph d pa ++ doPrintf w f PLit "" a)%string.
Proof.
  revert ph n. induction p as [|c p IH]; intros ph n HT d pa f a HL.
  - cbn in HT. destruct ph; try discriminate. injection HT as <-. destruct pa; [|discriminate]. cbn [append app M_Fmt.doPrintf extras]. destruct f; reflexivity.
  - assert (D : forall ph n, (match ph with PLit => False | _ => True end) ->
        match classify ph c with More ph => takes_from p ph | Special => None | Percent => takes_from p PLit | Verb => option_map S (takes_from p PLit) end = Some n ->
        length pa = n ->
        match classify ph c with
          | More ph => doPrintf w (p ++ f) ph (snoc d c) (pa ++ a)
          | Special => special w d (String c (p ++ f)) (pa ++ a)
          | Percent => String "%" (doPrintf w (p ++ f) PLit "" (pa ++ a))
          | Verb => match pa ++ a with
              | [] => ("%!" ++ String c "(MISSING)" ++ doPrintf w (p ++ f) PLit "" [])%string
              | x :: a => (printArg w d c x ++ doPrintf w (p ++ f) PLit "" a)%string
              end
        end =
        (match classify ph c with
          | More ph => doPrintf w p ph (snoc d c) pa
          | Special => special w d (String c p) pa
          | Percent => String "%" (doPrintf w p PLit "" pa)
          | Verb => match pa with
              | [] => ("%!" ++ String c "(MISSING)" ++ doPrintf w p PLit "" [])%string
              | x :: a => (printArg w d c x ++ doPrintf w p PLit "" a)%string
              end
        end ++ doPrintf w f PLit "" a)%string).
    { clear ph n HT HL. intros ph n _ HT HL. destruct (classify ph c) as [ph'| | |].
      - apply (IH ph' n); assumption.
      - discriminate.
      - cbn [append]. f_equal. apply (IH PLit n); assumption.
      - destruct (takes_from p PLit) as [m|] eqn:E; [|discriminate]. cbn in HT. injection HT as <-.
        destruct pa as [|x pa]; [discriminate|]. cbn [app]. rewrite (IH PLit m E "" pa f a ltac:(cbn in HL; congruence)).
        rewrite str_app_assoc. reflexivity. }
    cbn [append M_Fmt.doPrintf takes_from] in *. destruct ph; [|apply (D PFlags n I HT HL)|apply (D PWidth n I HT HL)|apply (D PPrec n I HT HL)].
    destruct (Ascii.eqb c "%").
    + apply (IH PFlags n); assumption.
    + cbn [append]. f_equal. apply (IH PLit n); assumption.
Qed.

Lemma Sprintf_app w p pa f a : takes p = Some (length pa) -> Sprintf w (p ++ f) (pa ++ a) = (Sprintf w p pa ++ Sprintf w f a)%string.
Proof. intros H. unfold M_Fmt.Sprintf. eapply doPrintf_app; [exact H|reflexivity]. Qed.

Lemma literal_cons c s : literal (String c s) -> Ascii.eqb c "%" = false /\ literal s.
Proof.
  intros H. split.
  - destruct (Ascii.eqb_spec c "%") as [->|]; [|reflexivity]. exfalso. apply (H "%"%char eq_refl). left. reflexivity.
  - intros x Hx Hi. apply (H x Hx). right. exact Hi.
Qed.
Lemma literal_takes s : literal s -> takes s = Some 0%nat.
Proof. induction s as [|c s IH]; [reflexivity|]. intros H. apply literal_cons in H as [A B]. unfold takes. cbn. rewrite A. apply IH. exact B. Qed.
Lemma literal_app a b : literal a -> literal b -> literal (a ++ b).
Proof.
  intros A B. induction a as [|c a IH]; [exact B|]. apply literal_cons in A as [A1 A2]. cbn. intros x -> [->|H]; [discriminate|].
  exact (IH A2 _ eq_refl H).
Qed.
Lemma Sprintf_literal w s : literal s -> Sprintf w s [] = s.
Proof.
  unfold M_Fmt.Sprintf. induction s as [|c s IH]; [reflexivity|]. intros H. apply literal_cons in H as [A B]. cbn [M_Fmt.doPrintf]. rewrite A, IH by exact B. reflexivity.
Qed.
Lemma Sprintf_literal_app w s f a : literal s -> Sprintf w (s ++ f) a = (s ++ Sprintf w f a)%string.
Proof. intros H. pose proof (Sprintf_app w s [] f a (literal_takes s H)) as E. cbn [app] in E. rewrite E, Sprintf_literal by exact H. reflexivity. Qed.

Lemma takes_app a b n m : takes a = Some n -> takes b = Some m -> takes (a ++ b) = Some (n + m)%nat.
Proof.
  unfold takes. intros HA HB.
  assert (G : forall a n ph, takes_from a ph = Some n -> takes_from (a ++ b) ph = Some (n + m)%nat); [|apply G; exact HA].
  clear a n HA. induction a as [|c a IH]; intros n ph HA.
  - cbn in HA. destruct ph; try discriminate. injection HA as <-. exact HB.
  - cbn [append takes_from] in *. destruct ph.
    + destruct (Ascii.eqb c "%"); apply IH; exact HA.
    + destruct (classify PFlags c); try discriminate; try (apply IH; exact HA). destruct (takes_from a PLit) eqn:E; [|discriminate]. injection HA as <-. rewrite (IH _ _ E). reflexivity.
    + destruct (classify PWidth c); try discriminate; try (apply IH; exact HA). destruct (takes_from a PLit) eqn:E; [|discriminate]. injection HA as <-. rewrite (IH _ _ E). reflexivity.
    + destruct (classify PPrec c); try discriminate; try (apply IH; exact HA). destruct (takes_from a PLit) eqn:E; [|discriminate]. injection HA as <-. rewrite (IH _ _ E). reflexivity.
Qed.
End Fmt.

(** Lemmas about the text of JSON numbers and strings: reading is what the grammar says. *)
From Verif Require Import Go L_List M_Strings L_Strings M_Json S_Json M_JsonText S_JsonText.
Open Scope list_scope.
Open Scope string_scope.

Lemma sapp_assoc a b c : (a ++ b) ++ c = a ++ b ++ c.
Proof. induction a as [|x a IH]; cbn [append]; congruence. Qed.
Lemma sapp_inv a b c : a ++ b = a ++ c -> b = c.
Proof. induction a as [|x a IH]; cbn [append]; intros H; [exact H|]. injection H as H. auto. Qed.
Lemma code_byte a : code a = Z.of_nat (byte a).
Proof. reflexivity. Qed.
Lemma byte_lt a : (byte a < 256)%nat.
Proof. apply nat_ascii_bounded. Qed.
Lemma byte_chr n : (n < 256)%nat -> byte (chr n) = n.
Proof. apply nat_ascii_embedding. Qed.
Lemma byte_inj a b : byte a = byte b -> a = b.
Proof. intros H. rewrite <- (ascii_nat_embedding a), <- (ascii_nat_embedding b). unfold byte in H. congruence. Qed.
Lemma all_bytes_app P a b : all_bytes_in P (a ++ b) <-> all_bytes_in P a /\ all_bytes_in P b.
Proof. induction a as [|x a IH]; cbn [append all_bytes_in]; [tauto|rewrite IH; tauto]. Qed.
Lemma all_bytes_impl (P Q : Z -> Prop) s : (forall n, P n -> Q n) -> all_bytes_in P s -> all_bytes_in Q s.
Proof. intros H. induction s as [|x s IH]; cbn [all_bytes_in]; [auto|intros [? ?]; auto]. Qed.

(** *** White space *)
Definition nonspace (s : string) : Prop := match s with "" => True | String a _ => is_space a = false end.
Lemma is_space_iff a : is_space a = true <-> (code a = 32 \/ code a = 9 \/ code a = 10 \/ code a = 13)%Z.
Proof. unfold is_space. rewrite !Bool.orb_true_iff, !Nat.eqb_eq, code_byte. lia. Qed.
Lemma skip_nonspace s : nonspace s -> skip s = s.
Proof. destruct s as [|a s]; [reflexivity|]. cbn. intros ->. reflexivity. Qed.
Lemma skip_white w s : white w -> skip (w ++ s) = skip s.
Proof.
  induction w as [|a w IH]; [reflexivity|]. intros [H1 H2]. cbn [append skip].
  replace (is_space a) with true by (symmetry; apply is_space_iff; exact H1). apply IH. exact H2.
Qed.
Lemma skip_split s : exists w, white w /\ s = w ++ skip s /\ nonspace (skip s).
Proof.
  induction s as [|a s IH]; [exists ""; repeat split|]. cbn [skip]. destruct (is_space a) eqn:E.
  - destruct IH as (w & H1 & H2 & H3). exists (String a w). split; [|split; [|exact H3]].
    + split; [apply is_space_iff; exact E|exact H1].
    + cbn [append]. congruence.
  - exists "". repeat split. cbn. exact E.
Qed.
Lemma white_nil : white "".
Proof. exact Logic.I. Qed.
Lemma expect_some c s r : expect c s = Some r <-> s = String c r.
Proof.
  unfold expect. destruct s as [|a s]; [split; discriminate|]. destruct (Ascii.eqb_spec a c) as [->|N].
  - split; intros H; injection H as H; congruence.
  - split; [discriminate|]. intros H. injection H as H _. congruence.
Qed.
Lemma expect_cons c r : expect c (String c r) = Some r.
Proof. apply expect_some. reflexivity. Qed.
Lemma expects_some p s r : expects p s = Some r <-> s = p ++ r.
Proof.
  revert s; induction p as [|c p IH]; intros s; cbn [expects append]; [split; congruence|].
  destruct (expect c s) as [s'|] eqn:E.
  - apply expect_some in E. subst s. rewrite IH. split; intros H; [congruence|injection H as H; exact H].
  - split; [discriminate|]. intros ->. rewrite expect_cons in E. discriminate.
Qed.

(** *** Numbers *)
Lemma json_digit_iff a : json_digit a = true <-> is_digit_code (code a).
Proof. unfold json_digit, between, is_digit_code. rewrite Bool.andb_true_iff, !Nat.leb_le, code_byte. lia. Qed.
Definition no_digit_first (s : string) : Prop := match s with "" => True | String a _ => ~ is_digit_code (code a) end.
Lemma span_spec s d r : span_digits s = (d, r) <-> s = d ++ r /\ all_bytes_in is_digit_code d /\ no_digit_first r.
Proof.
  revert d r; induction s as [|a s IH]; intros d r; cbn [span_digits].
  - split; [intros H; injection H as <- <-; repeat split|]. intros (H & _). destruct d; [|discriminate]. cbn in H. subst r. reflexivity.
  - destruct (json_digit a) eqn:E.
    + pose proof E as E'. apply json_digit_iff in E'. destruct (span_digits s) as [d' r']. split.
      * intros H. injection H as <- <-. destruct (proj1 (IH d' r') eq_refl) as (-> & H1 & H2). split; [reflexivity|]. split; [split; [exact E'|exact H1]|exact H2].
      * intros (H & H1 & H2). destruct d as [|a' d]; cbn [append] in H.
        -- subst r. cbn in H2. contradiction.
        -- injection H as <- H. destruct H1 as [_ H1]. assert (Q : (d', r') = (d, r)) by (apply IH; auto). congruence.
    + assert (E' : ~ is_digit_code (code a)) by (intros C; apply json_digit_iff in C; congruence). split.
      * intros H. injection H as <- <-. repeat split. exact E'.
      * intros (H & H1 & H2). destruct d as [|a' d]; cbn [append] in H; [subst r; reflexivity|]. injection H as <- H. destruct H1 as [H1 _]. contradiction.
Qed.
Lemma is_empty_iff s : is_empty s = true <-> s = "".
Proof. destruct s; cbn; split; congruence. Qed.
Lemma some_digits_spec s d r : some_digits s = Some (d, r) <-> s = d ++ r /\ digits d /\ no_digit_first r.
Proof.
  unfold some_digits, digits. destruct (span_digits s) as [d' r'] eqn:E. destruct (is_empty d') eqn:E'.
  - apply is_empty_iff in E'. subst d'. split; [discriminate|]. intros (H1 & (H2 & H3) & H4).
    assert (Q : span_digits s = (d, r)) by (apply span_spec; auto). rewrite E in Q. injection Q as <- <-. congruence.
  - assert (N : d' <> "") by (intros ->; discriminate). split.
    + intros H. injection H as <- <-. apply span_spec in E. tauto.
    + intros (H1 & (H2 & H3) & H4). assert (Q : span_digits s = (d, r)) by (apply span_spec; auto). congruence.
Qed.
Lemma digits_snoc d a : digits_value (d ++ String a "") = (10 * digits_value d + (code a - 48))%Z.
Proof.
  unfold digits_value. assert (L : list_of_string (d ++ String a "") = (list_of_string d ++ [a])%list) by (induction d as [|x d IH]; cbn; congruence).
  rewrite L, fold_left_app. cbn [fold_left]. rewrite code_byte. lia.
Qed.
Lemma string_snoc s : s = "" \/ exists s' a, s = s' ++ String a "".
Proof.
  induction s as [|a s IH]; [left; reflexivity|right]. destruct IH as [->|(s' & b & ->)]; [exists "", a; reflexivity|exists (String a s'), b; reflexivity].
Qed.
Lemma decimal_iff d n : decimal_value d n <-> all_bytes_in is_digit_code d /\ n = digits_value d.
Proof.
  split.
  - induction 1 as [|s n a _ [IH1 IH2] H]; [split; [exact Logic.I|reflexivity]|]. rewrite digits_snoc, all_bytes_app. split; [|lia].
    split; [exact IH1|]. split; [exact H|exact Logic.I].
  - intros [H ->]. remember (String.length d) as k eqn:K. revert d K H; induction k as [|k IH]; intros d K H.
    + destruct d; [constructor|discriminate].
    + destruct (string_snoc d) as [->|(d' & a & ->)]; [discriminate|]. rewrite str_length_app in K. cbn in K.
      apply all_bytes_app in H. destruct H as [H1 [H2 _]]. rewrite digits_snoc. constructor; [apply IH; [lia|exact H1]|exact H2].
Qed.
Lemma sign_spec s sg r : scan_sign s = (sg, r) <-> s = sg ++ r /\ sign_part sg /\ (sg = "" -> forall r', s <> String "-" r').
Proof.
  unfold scan_sign, sign_part. destruct (expect "-" s) as [r0|] eqn:E.
  - apply expect_some in E. subst s. split.
    + intros H. injection H as <- <-. repeat split; auto. discriminate.
    + intros (H1 & [->| ->] & H3); [exfalso; eapply H3; reflexivity|]. cbn in H1. congruence.
  - split.
    + intros H. injection H as <- <-. repeat split; auto. intros _ r' ->. rewrite expect_cons in E. discriminate.
    + intros (H1 & [->| ->] & H3); [cbn in H1; subst r; reflexivity|]. cbn in H1. subst s. rewrite expect_cons in E. discriminate.
Qed.
Lemma integer_zero : integer_part "0".
Proof. split; [|left; reflexivity]. split; [discriminate|]. split; [|exact Logic.I]. cbv. split; discriminate. Qed.
Lemma int_spec s ip r : scan_int s = Some (ip, r) <-> s = ip ++ r /\ integer_part ip /\ (ip = "0" \/ no_digit_first r).
Proof.
  unfold scan_int. destruct (expect "0" s) as [r0|] eqn:E.
  - apply expect_some in E. subst s. split.
    + intros H. injection H as <- <-. split; [reflexivity|]. split; [exact integer_zero|left; reflexivity].
    + intros (H1 & (H2 & [->|H3]) & H4).
      * cbn in H1. congruence.
      * destruct ip as [|a ip]; [destruct H2 as [H2 _]; congruence|]. cbn [append] in H1. injection H1 as <- H1. exfalso. eapply H3. reflexivity.
  - rewrite some_digits_spec. split.
    + intros (H1 & H2 & H3). split; [exact H1|]. split; [|right; exact H3]. split; [exact H2|]. right. intros r' ->. cbn in H1. subst s. rewrite expect_cons in E. discriminate.
    + intros (H1 & (H2 & H3) & H4). split; [exact H1|]. split; [exact H2|]. destruct H4 as [->|H4]; [|exact H4]. cbn in H1. subst s. rewrite expect_cons in E. discriminate.
Qed.
Definition no_dot_first (s : string) : Prop := match s with "" => True | String a _ => a <> "."%char end.
Definition no_e_first (s : string) : Prop := match s with "" => True | String a _ => a <> "e"%char /\ a <> "E"%char end.
Lemma frac_spec s fp r : scan_frac s = Some (fp, r) <-> s = fp ++ r /\ ((fp = "" /\ no_dot_first r) \/ (fraction fp /\ no_digit_first r)).
Proof.
  unfold scan_frac, fraction. destruct (expect "." s) as [r0|] eqn:E.
  - apply expect_some in E. subst s. destruct (some_digits r0) as [[d r']|] eqn:F.
    + apply some_digits_spec in F. destruct F as (-> & F2 & F3). split.
      * intros H. injection H as <- <-. split; [reflexivity|]. right. split; [eexists; split; [reflexivity|exact F2]|exact F3].
      * intros (H1 & [(-> & H2)|((d' & -> & H2) & H3)]); [cbn in H1; subst r; cbn in H2; congruence|]. cbn [append] in H1. injection H1 as H1.
        assert (Q : some_digits (d ++ r') = Some (d', r)) by (apply some_digits_spec; auto).
        assert (Q' : some_digits (d ++ r') = Some (d, r')) by (apply some_digits_spec; auto). congruence.
    + split; [discriminate|]. intros (H1 & [(-> & H2)|((d' & -> & H2) & H3)]); [cbn in H1; subst r; cbn in H2; congruence|]. cbn [append] in H1. injection H1 as H1.
      assert (Q : some_digits r0 = Some (d', r)) by (apply some_digits_spec; auto). congruence.
  - split.
    + intros H. injection H as <- <-. split; [reflexivity|]. left. split; [reflexivity|]. destruct s as [|a s]; [exact Logic.I|]. cbn. intros ->. rewrite expect_cons in E. discriminate.
    + intros (H1 & [(-> & H2)|((d' & -> & H2) & H3)]); [cbn in H1; subst r; reflexivity|]. cbn in H1. subst s. rewrite expect_cons in E. discriminate.
Qed.
Lemma is_e_iff a : is_e a = true <-> a = "e"%char \/ a = "E"%char.
Proof. unfold is_e. rewrite Bool.orb_true_iff, !Ascii.eqb_eq. reflexivity. Qed.
Lemma is_sign_iff a : is_sign a = true <-> a = "+"%char \/ a = "-"%char.
Proof. unfold is_sign. rewrite Bool.orb_true_iff, !Ascii.eqb_eq. reflexivity. Qed.
Definition scan_esign (r : string) : string * string := match r with String b r' => if is_sign b then (String b "", r') else ("", r) | "" => ("", r) end.
Lemma esign_spec d r : digits d -> forall sg, (sg = "" \/ sg = "+" \/ sg = "-") -> scan_esign (sg ++ d ++ r) = (sg, d ++ r).
Proof.
  intros [H1 H2] sg [->|[->| ->]]; try reflexivity. destruct d as [|a d]; [congruence|]. cbn [append scan_esign]. destruct (is_sign a) eqn:E; [|reflexivity].
  exfalso. destruct H2 as [H2 _]. apply is_sign_iff in E. destruct E as [->| ->]; cbv in H2; destruct H2; congruence.
Qed.
Lemma exp_spec s ep r : scan_exp s = Some (ep, r) <-> s = ep ++ r /\ ((ep = "" /\ no_e_first r) \/ (exponent ep /\ no_digit_first r)).
Proof.
  unfold exponent. split.
  - unfold scan_exp. destruct s as [|a s]; [intros H; injection H as <- <-; split; [reflexivity|left; split; [reflexivity|exact Logic.I]]|].
    destruct (is_e a) eqn:E.
    + change (match s with String b r' => if is_sign b then (String b "", r') else ("", s) | "" => ("", s) end) with (scan_esign s).
      destruct (scan_esign s) as [sg r0] eqn:G. destruct (some_digits r0) as [[d r']|] eqn:F; [|discriminate]. intros H. injection H as <- <-.
      apply some_digits_spec in F. destruct F as (-> & F2 & F3).
      assert (Q : s = sg ++ d ++ r' /\ (sg = "" \/ sg = "+" \/ sg = "-")).
      { unfold scan_esign in G. destruct s as [|b s]; [injection G as <- G; rewrite <- G; auto|]. destruct (is_sign b) eqn:B.
        - injection G as <- <-. apply is_sign_iff in B. split; [reflexivity|]. right. destruct B as [->| ->]; auto.
        - injection G as <- G. rewrite <- G. auto. }
      destruct Q as (-> & Q2). split; [cbn [append]; rewrite sapp_assoc; reflexivity|]. right. split; [|exact F3].
      exists (String a ""), sg, d. split; [reflexivity|]. split; [|split; [exact Q2|exact F2]]. apply is_e_iff in E. destruct E as [->| ->]; auto.
    + intros H. injection H as <- <-. split; [reflexivity|]. left. split; [reflexivity|]. cbn. split; intros ->; discriminate.
  - intros (-> & [(-> & H)|((e & sg & d & -> & He & Hs & Hd) & H)]).
    + cbn [append]. unfold scan_exp. destruct r as [|a r]; [reflexivity|]. destruct (is_e a) eqn:E; [|reflexivity]. apply is_e_iff in E. cbn in H. tauto.
    + assert (Q : exists a, e = String a "" /\ is_e a = true) by (destruct He as [->| ->]; eexists; split; reflexivity). destruct Q as (a & -> & Ea).
      cbn [append]. unfold scan_exp. rewrite Ea, sapp_assoc.
      change (match sg ++ d ++ r with String b r' => if is_sign b then (String b "", r') else ("", sg ++ d ++ r) | "" => ("", sg ++ d ++ r) end) with (scan_esign (sg ++ d ++ r)).
      rewrite esign_spec by auto. assert (Q : some_digits (d ++ r) = Some (d, r)) by (apply some_digits_spec; auto). rewrite Q. reflexivity.
Qed.

Lemma ends_frac p r : ends_number r -> (p = "" \/ fraction p) -> scan_frac (p ++ r) = Some (p, r).
Proof.
  intros H [->|F]; apply frac_spec; (split; [reflexivity|]); [left|right]; (split; [auto|]); destruct r as [|a r]; try exact Logic.I; cbn in *; tauto.
Qed.
Lemma ends_exp p r : ends_number r -> (p = "" \/ exponent p) -> scan_exp (p ++ r) = Some (p, r).
Proof.
  intros H [->|F]; apply exp_spec; (split; [reflexivity|]); [left|right]; (split; [auto|]); destruct r as [|a r]; try exact Logic.I; cbn in *; tauto.
Qed.
Lemma digit_not a : is_digit_code (code a) -> a <> "-"%char /\ a <> "."%char /\ a <> "e"%char /\ a <> "E"%char.
Proof. intros H. repeat split; intros ->; cbv in H; destruct H; congruence. Qed.
Lemma integer_part_first ip : integer_part ip -> exists a r, ip = String a r /\ is_digit_code (code a).
Proof. intros [[H1 H2] _]. destruct ip as [|a ip]; [congruence|]. exists a, ip. split; [reflexivity|apply H2]. Qed.
Lemma sign_ok sg ip r : sign_part sg -> integer_part ip -> scan_sign (sg ++ ip ++ r) = (sg, ip ++ r).
Proof.
  intros H1 H2. apply sign_spec. split; [reflexivity|]. split; [exact H1|]. intros -> r'. destruct (integer_part_first ip H2) as (a & ip' & -> & H3).
  cbn [append]. intros Q. injection Q as -> _. apply digit_not in H3. tauto.
Qed.
(** what follows the integer part does not start with a digit *)
Lemma frac_exp_first fp ep r : (fp = "" \/ fraction fp) -> (ep = "" \/ exponent ep) -> ends_number r -> no_digit_first (fp ++ ep ++ r).
Proof.
  intros [->|(d & -> & _)] He Hr; [|cbn; unfold is_digit_code; cbv; intros [? ?]; congruence]. cbn [append].
  destruct He as [->|(e & sg & d & -> & He & _)]; [destruct r as [|a r]; [exact Logic.I|]; cbn in *; tauto|].
  destruct He as [->| ->]; cbn; unfold is_digit_code; cbv; intros [? ?]; congruence.
Qed.
Lemma scan_complete sg ip fp ep r : sign_part sg -> integer_part ip -> (fp = "" \/ fraction fp) -> (ep = "" \/ exponent ep) -> ends_number r ->
  scan_number (sg ++ ip ++ fp ++ ep ++ r) =
    Some (if is_empty (fp ++ ep) then JNum (if is_empty sg then digits_value ip else - digits_value ip) else JFloat (sg ++ ip ++ fp ++ ep), r).
Proof.
  intros Hs Hi Hf He Hr. unfold scan_number. rewrite sign_ok by auto.
  assert (Q : scan_int (ip ++ fp ++ ep ++ r) = Some (ip, fp ++ ep ++ r)).
  { apply int_spec. split; [reflexivity|]. split; [exact Hi|]. right. apply frac_exp_first; auto. }
  rewrite Q. clear Q.
  assert (Q : scan_frac (fp ++ ep ++ r) = Some (fp, ep ++ r)).
  { destruct Hf as [->|Hf].
    - apply frac_spec. split; [reflexivity|]. left. split; [reflexivity|]. destruct He as [->|(e & sg' & d & -> & [->| ->] & _)]; cbn [append no_dot_first]; try (intros; congruence).
      destruct r as [|a r]; [exact Logic.I|]. cbn in *. tauto.
    - apply frac_spec. split; [reflexivity|]. right. split; [exact Hf|]. apply (frac_exp_first "" ep r); auto. }
  rewrite Q, ends_exp by auto. reflexivity.
Qed.
Lemma scan_sound s v r : scan_number s = Some (v, r) ->
  exists p, s = p ++ r /\ ((exists n, v = JNum n /\ integer p n) \/ (v = JFloat p /\ float p)).
Proof.
  unfold scan_number. destruct (scan_sign s) as [sg s1] eqn:E1. destruct (scan_int s1) as [[ip s2]|] eqn:E2; [|discriminate].
  destruct (scan_frac s2) as [[fp s3]|] eqn:E3; [|discriminate]. destruct (scan_exp s3) as [[ep s4]|] eqn:E4; [|discriminate].
  apply sign_spec in E1. apply int_spec in E2. apply frac_spec in E3. apply exp_spec in E4.
  destruct E1 as (-> & S1 & _), E2 as (-> & S2 & _), E3 as (-> & S3), E4 as (-> & S4). intros H. injection H as <- <-.
  exists (sg ++ ip ++ fp ++ ep). split; [rewrite !sapp_assoc; reflexivity|].
  assert (S3' : fp = "" \/ fraction fp) by tauto. assert (S4' : ep = "" \/ exponent ep) by tauto.
  destruct (is_empty (fp ++ ep)) eqn:E; [left|right].
  - apply is_empty_iff in E. rewrite E, str_app_nil_r. eexists. split; [reflexivity|]. exists sg, ip, (digits_value ip).
    split; [reflexivity|]. split; [exact S2|]. split; [apply decimal_iff; split; [apply S2|reflexivity]|]. destruct S1 as [->| ->]; cbn [is_empty]; auto.
  - split; [reflexivity|]. exists sg, ip, fp, ep. split; [reflexivity|]. split; [exact S1|]. split; [exact S2|]. split; [exact S3'|]. split; [exact S4'|]. intros C. rewrite C in E. discriminate.
Qed.
Lemma integer_complete p n r : integer p n -> ends_number r -> scan_number (p ++ r) = Some (JNum n, r).
Proof.
  intros (sg & ip & m & -> & Hi & Hd & Hn) Hr. apply decimal_iff in Hd. destruct Hd as [_ ->].
  pose proof (scan_complete sg ip "" "" r) as Q. cbn [append is_empty] in Q. rewrite sapp_assoc, Q; auto.
  - destruct Hn as [[-> ->]|[-> ->]]; reflexivity.
  - destruct Hn as [[-> _]|[-> _]]; [left|right]; reflexivity.
Qed.
Lemma float_complete p r : float p -> ends_number r -> scan_number (p ++ r) = Some (JFloat p, r).
Proof.
  intros (sg & ip & fp & ep & -> & Hs & Hi & Hf & He & Hn) Hr. rewrite !sapp_assoc, scan_complete by auto.
  destruct (is_empty (fp ++ ep)) eqn:E; [apply is_empty_iff in E; congruence|reflexivity].
Qed.
Lemma is_float_iff s : is_float s = true <-> float s.
Proof.
  unfold is_float. split.
  - destruct (scan_number s) as [[v r]|] eqn:E; [|discriminate]. destruct v; try discriminate. destruct r; [|discriminate]. intros _.
    apply scan_sound in E. destruct E as (p & -> & [(n & F & _)|(F & H)]); [discriminate|]. rewrite str_app_nil_r. exact H.
  - intros H. rewrite <- (str_app_nil_r s), (float_complete s "" H) by exact Logic.I. reflexivity.
Qed.
(** a number starts with a digit or a sign *)
Definition number_first (s : string) : Prop := match s with "" => False | String a _ => is_digit_code (code a) \/ a = "-"%char end.
Lemma parts_first sg ip r : sign_part sg -> integer_part ip -> number_first (sg ++ ip ++ r).
Proof. intros [->| ->] Hi; [|right; reflexivity]. destruct (integer_part_first ip Hi) as (a & ip' & -> & H). left. exact H. Qed.
Lemma integer_first p n : integer p n -> number_first p.
Proof.
  intros (sg & ip & m & -> & Hi & _ & Hn). rewrite <- (str_app_nil_r ip). apply parts_first; [|exact Hi]. destruct Hn as [[-> _]|[-> _]]; [left|right]; reflexivity.
Qed.
Lemma float_first p : float p -> number_first p.
Proof. intros (sg & ip & fp & ep & -> & Hs & Hi & _). apply parts_first; auto. Qed.

(** *** Strings *)
Fixpoint hex_fold (acc : option Z) (s : string) : option Z :=
  match s with
  | "" => acc
  | String a s => hex_fold (match acc, hex_value a with Some n, Some d => Some (16 * n + d)%Z | _, _ => None end) s
  end.
Lemma hex_fold_snoc acc s a : hex_fold acc (s ++ String a "") = match hex_fold acc s, hex_value a with Some n, Some d => Some (16 * n + d)%Z | _, _ => None end.
Proof. revert acc; induction s as [|x s IH]; intros acc; cbn [append hex_fold]; [reflexivity|apply IH]. Qed.
Lemma hex_value_spec a d : hex_value a = Some d <->
  (48 <= code a <= 57 /\ d = code a - 48 \/ 97 <= code a <= 102 /\ d = code a - 97 + 10 \/ 65 <= code a <= 70 /\ d = code a - 65 + 10)%Z.
Proof.
  unfold hex_value, between. rewrite code_byte. set (n := byte a).
  destruct (Nat.leb_spec 48 n), (Nat.leb_spec n 57), (Nat.leb_spec 97 n), (Nat.leb_spec n 102), (Nat.leb_spec 65 n), (Nat.leb_spec n 70); cbn [andb];
    (split; [first [discriminate|intros H'; injection H' as <-; lia]|intros H'; first [exfalso; lia|f_equal; lia]]).
Qed.
Lemma hexadecimal_iff s n : hexadecimal s n <-> hex_fold (Some 0%Z) s = Some n.
Proof.
  split.
  - induction 1 as [|s n a d _ IH H]; [reflexivity|]. rewrite hex_fold_snoc, IH. apply hex_value_spec in H. rewrite H. reflexivity.
  - remember (String.length s) as k eqn:K. revert s n K; induction k as [|k IH]; intros s n K H.
    + destruct s; [|discriminate]. cbn in H. injection H as <-. constructor.
    + destruct (string_snoc s) as [->|(s' & a & ->)]; [discriminate|]. rewrite str_length_app in K. cbn in K. rewrite hex_fold_snoc in H.
      destruct (hex_fold (Some 0%Z) s') as [m|] eqn:E; [|discriminate]. destruct (hex_value a) as [d|] eqn:F; [|discriminate]. injection H as <-.
      constructor; [apply IH; [lia|exact E]|apply hex_value_spec; exact F].
Qed.
Lemma hex4_spec a b c d n : hex4 a b c d = Some n <-> hexadecimal (String a (String b (String c (String d "")))) n.
Proof.
  rewrite hexadecimal_iff. unfold hex4. cbn [hex_fold].
  destruct (hex_value a) as [x|]; [|split; discriminate]. destruct (hex_value b) as [y|]; [|split; discriminate].
  destruct (hex_value c) as [z|]; [|split; discriminate]. destruct (hex_value d) as [w|]; [|split; discriminate].
  split; intros H; rewrite <- H; apply f_equal; ring.
Qed.
Lemma hex_value_range a d : hex_value a = Some d -> (0 <= d < 16)%Z.
Proof. intros H. apply hex_value_spec in H. lia. Qed.
Lemma hex4_range a b c d n : hex4 a b c d = Some n -> (0 <= n < 65536)%Z.
Proof.
  unfold hex4. destruct (hex_value a) as [x|] eqn:E1; [|discriminate]. destruct (hex_value b) as [y|] eqn:E2; [|discriminate].
  destruct (hex_value c) as [z|] eqn:E3; [|discriminate]. destruct (hex_value d) as [w|] eqn:E4; [|discriminate]. intros H. injection H as <-.
  apply hex_value_range in E1, E2, E3, E4. lia.
Qed.
Lemma bs_backslash : bs = backslash.
Proof. reflexivity. Qed.
Lemma unit_escape_iff e n : unit_escape e n <-> exists a b c d, e = String bs (String "u" (String a (String b (String c (String d ""))))) /\ hex4 a b c d = Some n.
Proof.
  split.
  - intros (h & -> & L & H). destruct h as [|a [|b [|c [|d [|? ?]]]]]; try discriminate. exists a, b, c, d. split; [reflexivity|]. apply hex4_spec. exact H.
  - intros (a & b & c & d & -> & H). eexists. split; [reflexivity|]. split; [reflexivity|]. apply hex4_spec. exact H.
Qed.
Lemma unit_escape_range e n : unit_escape e n -> (0 <= n < 65536)%Z.
Proof. intros H. apply unit_escape_iff in H. destruct H as (a & b & c & d & _ & H). apply hex4_range in H. exact H. Qed.

Lemma byte_zchr z : (0 <= z < 256)%Z -> byte (zchr z) = Z.to_nat z.
Proof. intros H. unfold zchr. apply byte_chr. lia. Qed.
Lemma zchr_code a z : z = code a -> zchr z = a.
Proof. intros ->. apply byte_inj. rewrite byte_zchr by (rewrite code_byte; pose proof (byte_lt a); lia). rewrite code_byte. lia. Qed.
Ltac ranges := repeat match goal with a : ascii |- _ => lazymatch goal with H : (byte a < 256)%nat |- _ => fail | _ => pose proof (byte_lt a) end end.
Lemma div_is n k q r : (n = q * k + r -> 0 <= r < k -> n / k = q)%Z.
Proof. intros E R. symmetry. apply (Z.div_unique n k q r); [left; exact R|lia]. Qed.
Lemma mod_is n k q r : (n = q * k + r -> 0 <= r < k -> n mod k = r)%Z.
Proof. intros E R. symmetry. apply (Z.mod_unique n k q r); [left; exact R|lia]. Qed.
Lemma cp_rune n u : code_point n u -> rune n = u.
Proof.
  destruct 1 as [a H|a b H|a b c H|a b c d H]; unfold rune; unfold well_formed2, well_formed3, well_formed4, in_range in *; rewrite ?code_byte in *; fold (byte a) in *; try fold (byte b) in *; try fold (byte c) in *; try fold (byte d) in *.
  - destruct (Z.ltb_spec (Z.of_nat (byte a)) 128); [|lia]. rewrite (zchr_code a) by reflexivity. reflexivity.
  - set (x := Z.of_nat (byte a)) in *. set (y := Z.of_nat (byte b)) in *. set (n := ((x - 192) * 64 + (y - 128))%Z).
    assert (Hx : (194 <= x <= 223)%Z) by lia. assert (Hy : (128 <= y <= 191)%Z) by lia.
    destruct (Z.ltb_spec n 128); [lia|]. destruct (Z.ltb_spec n 2048); [|lia].
    rewrite (div_is n 64 (x - 192) (y - 128)), (mod_is n 64 (x - 192) (y - 128)) by lia.
    rewrite (zchr_code a), (zchr_code b) by (rewrite code_byte; lia). reflexivity.
  - set (x := Z.of_nat (byte a)) in *. set (y := Z.of_nat (byte b)) in *. set (z := Z.of_nat (byte c)) in *.
    set (n := (((x - 224) * 64 + (y - 128)) * 64 + (z - 128))%Z).
    assert (Hx : (224 <= x <= 239 /\ (x = 224 -> 160 <= y))%Z) by lia. assert (Hy : (128 <= y <= 191)%Z) by lia. assert (Hz : (128 <= z <= 191)%Z) by lia. clear H.
    destruct (Z.ltb_spec n 128); [lia|]. destruct (Z.ltb_spec n 2048); [lia|]. destruct (Z.ltb_spec n 65536); [|lia].
    rewrite (div_is n 4096 (x - 224) ((y - 128) * 64 + (z - 128))) by lia. rewrite (div_is n 64 ((x - 224) * 64 + (y - 128)) (z - 128)) by lia.
    rewrite (mod_is n 64 ((x - 224) * 64 + (y - 128)) (z - 128)) by lia. rewrite (mod_is _ 64 (x - 224) (y - 128)) by lia.
    rewrite (zchr_code a), (zchr_code b), (zchr_code c) by (rewrite code_byte; lia). reflexivity.
  - set (x := Z.of_nat (byte a)) in *. set (y := Z.of_nat (byte b)) in *. set (z := Z.of_nat (byte c)) in *. set (w := Z.of_nat (byte d)) in *.
    set (n := ((((x - 240) * 64 + (y - 128)) * 64 + (z - 128)) * 64 + (w - 128))%Z).
    assert (Hx : (240 <= x <= 244 /\ (x = 240 -> 144 <= y))%Z) by lia. assert (Hy : (128 <= y <= 191)%Z) by lia. assert (Hz : (128 <= z <= 191)%Z) by lia. assert (Hw : (128 <= w <= 191)%Z) by lia. clear H.
    destruct (Z.ltb_spec n 128); [lia|]. destruct (Z.ltb_spec n 2048); [lia|]. destruct (Z.ltb_spec n 65536); [lia|].
    rewrite (div_is n 262144 (x - 240) (((y - 128) * 64 + (z - 128)) * 64 + (w - 128))) by lia.
    rewrite (div_is n 4096 ((x - 240) * 64 + (y - 128)) ((z - 128) * 64 + (w - 128))) by lia.
    rewrite (div_is n 64 (((x - 240) * 64 + (y - 128)) * 64 + (z - 128)) (w - 128)) by lia.
    rewrite (mod_is n 64 (((x - 240) * 64 + (y - 128)) * 64 + (z - 128)) (w - 128)) by lia.
    rewrite (mod_is _ 64 (x - 240) (y - 128)) by lia. rewrite (mod_is _ 64 ((x - 240) * 64 + (y - 128)) (z - 128)) by lia.
    rewrite (zchr_code a), (zchr_code b), (zchr_code c), (zchr_code d) by (rewrite code_byte; lia). reflexivity.
Qed.
Lemma code_zchr z : (0 <= z < 256)%Z -> code (zchr z) = z.
Proof. intros H. rewrite code_byte, byte_zchr by exact H. lia. Qed.
Lemma rune_cp n : (0 <= n < 1114112)%Z -> ~ is_high n -> ~ is_low n -> code_point n (rune n).
Proof.
  intros Hn Hh Hl. unfold is_high, is_low in *. unfold rune.
  destruct (Z.ltb_spec n 128) as [C1|C1].
  { pose proof (cp1 (zchr n)) as Q. rewrite code_zchr in Q by lia. apply Q. lia. }
  destruct (Z.ltb_spec n 2048) as [C2|C2].
  { pose proof (Z.div_mod n 64 ltac:(lia)) as D. pose proof (Z.mod_pos_bound n 64 ltac:(lia)) as B. set (x := (n / 64)%Z) in *. set (y := (n mod 64)%Z) in *.
    pose proof (cp2 (zchr (192 + x)) (zchr (128 + y))) as Q. rewrite !code_zchr in Q by lia.
    replace ((192 + x - 192) * 64 + (128 + y - 128))%Z with n in Q by lia. apply Q.
    unfold well_formed2, in_range. change nat_of_ascii with byte. rewrite !byte_zchr by lia. lia. }
  destruct (Z.ltb_spec n 65536) as [C3|C3].
  { replace (n / 4096)%Z with (n / 64 / 64)%Z by (rewrite Z.div_div by lia; reflexivity).
    pose proof (Z.div_mod n 64 ltac:(lia)) as D. pose proof (Z.mod_pos_bound n 64 ltac:(lia)) as B. set (m := (n / 64)%Z) in *. set (z := (n mod 64)%Z) in *.
    pose proof (Z.div_mod m 64 ltac:(lia)) as D'. pose proof (Z.mod_pos_bound m 64 ltac:(lia)) as B'. set (x := (m / 64)%Z) in *. set (y := (m mod 64)%Z) in *.
    pose proof (cp3 (zchr (224 + x)) (zchr (128 + y)) (zchr (128 + z))) as Q. rewrite !code_zchr in Q by lia.
    replace (((224 + x - 224) * 64 + (128 + y - 128)) * 64 + (128 + z - 128))%Z with n in Q by lia. apply Q.
    unfold well_formed3, in_range. change nat_of_ascii with byte. rewrite !byte_zchr by lia. lia. }
  replace (n / 262144)%Z with (n / 64 / 64 / 64)%Z by (rewrite !Z.div_div by lia; reflexivity).
  replace (n / 4096)%Z with (n / 64 / 64)%Z by (rewrite Z.div_div by lia; reflexivity).
  pose proof (Z.div_mod n 64 ltac:(lia)) as D. pose proof (Z.mod_pos_bound n 64 ltac:(lia)) as B. set (m := (n / 64)%Z) in *. set (w := (n mod 64)%Z) in *.
  pose proof (Z.div_mod m 64 ltac:(lia)) as D'. pose proof (Z.mod_pos_bound m 64 ltac:(lia)) as B'. set (k := (m / 64)%Z) in *. set (z := (m mod 64)%Z) in *.
  pose proof (Z.div_mod k 64 ltac:(lia)) as D''. pose proof (Z.mod_pos_bound k 64 ltac:(lia)) as B''. set (x := (k / 64)%Z) in *. set (y := (k mod 64)%Z) in *.
  pose proof (cp4 (zchr (240 + x)) (zchr (128 + y)) (zchr (128 + z)) (zchr (128 + w))) as Q. rewrite !code_zchr in Q by lia.
  replace ((((240 + x - 240) * 64 + (128 + y - 128)) * 64 + (128 + z - 128)) * 64 + (128 + w - 128))%Z with n in Q by lia. apply Q.
  unfold well_formed4, in_range. change nat_of_ascii with byte. rewrite !byte_zchr by lia. lia.
Qed.
Lemma replacement_rune : rune 65533 = replacement.
Proof. reflexivity. Qed.
Lemma replacement_cp : code_point 65533 replacement.
Proof. rewrite <- replacement_rune. apply rune_cp; unfold is_high, is_low; lia. Qed.
Lemma high_iff n : high n = true <-> is_high n.
Proof. unfold high, is_high. rewrite Bool.andb_true_iff, Z.leb_le, Z.ltb_lt. lia. Qed.
Lemma low_iff n : low n = true <-> is_low n.
Proof. unfold low, is_low. rewrite Bool.andb_true_iff, Z.leb_le, Z.ltb_lt. lia. Qed.
Lemma pair_rune_eq n m : pair_rune n m = (65536 + (n - 55296) * 1024 + (m - 56320))%Z.
Proof. unfold pair_rune. lia. Qed.

Lemma units_escape e n s : unit_escape e n -> units (e ++ s) = ocons (Code n) (units s).
Proof. intros H. apply unit_escape_iff in H. destruct H as (a & b & c & d & -> & H). cbn [append units]. change (Ascii.eqb bs quotation) with false. change (Ascii.eqb bs backslash) with true. cbv iota. change (Ascii.eqb "u" "u") with true. cbv iota. rewrite H. reflexivity. Qed.
Lemma short_escape_spec a b : short_escape a = Some b <-> In (code a, code b) short_escapes.
Proof.
  unfold short_escape, short_escapes. cbn [In]. rewrite !code_byte. split.
  - intros H.
    destruct (Nat.eqb_spec (byte a) 34) as [E|_]; [injection H as <-; rewrite E; auto|]. destruct (Nat.eqb_spec (byte a) 92) as [E|_]; [injection H as <-; rewrite E; auto|].
    destruct (Nat.eqb_spec (byte a) 47) as [E|_]; [injection H as <-; rewrite E; auto|]. cbn [orb] in H.
    destruct (Nat.eqb_spec (byte a) 98) as [E|_]; [injection H as <-; rewrite E, byte_chr by lia; auto 10|].
    destruct (Nat.eqb_spec (byte a) 102) as [E|_]; [injection H as <-; rewrite E, byte_chr by lia; auto 10|].
    destruct (Nat.eqb_spec (byte a) 110) as [E|_]; [injection H as <-; rewrite E, byte_chr by lia; auto 10|].
    destruct (Nat.eqb_spec (byte a) 114) as [E|_]; [injection H as <-; rewrite E, byte_chr by lia; auto 10|].
    destruct (Nat.eqb_spec (byte a) 116) as [E|_]; [injection H as <-; rewrite E, byte_chr by lia; auto 10|]. discriminate.
  - assert (B : forall k, (k < 256)%nat -> forall x, Z.of_nat k = Z.of_nat (byte x) -> x = chr k).
    { intros k Hk x Hx. apply byte_inj. rewrite byte_chr by exact Hk. lia. }
    intros H. repeat destruct H as [H|H]; try contradiction; injection H as H1 H2.
    + rewrite (B 34%nat ltac:(lia) a) by (rewrite <- H1; reflexivity). rewrite (B 34%nat ltac:(lia) b) by (rewrite <- H2; reflexivity). reflexivity.
    + rewrite (B 92%nat ltac:(lia) a) by (rewrite <- H1; reflexivity). rewrite (B 92%nat ltac:(lia) b) by (rewrite <- H2; reflexivity). reflexivity.
    + rewrite (B 47%nat ltac:(lia) a) by (rewrite <- H1; reflexivity). rewrite (B 47%nat ltac:(lia) b) by (rewrite <- H2; reflexivity). reflexivity.
    + rewrite (B 98%nat ltac:(lia) a) by (rewrite <- H1; reflexivity). rewrite (B 8%nat ltac:(lia) b) by (rewrite <- H2; reflexivity). reflexivity.
    + rewrite (B 102%nat ltac:(lia) a) by (rewrite <- H1; reflexivity). rewrite (B 12%nat ltac:(lia) b) by (rewrite <- H2; reflexivity). reflexivity.
    + rewrite (B 110%nat ltac:(lia) a) by (rewrite <- H1; reflexivity). rewrite (B 10%nat ltac:(lia) b) by (rewrite <- H2; reflexivity). reflexivity.
    + rewrite (B 114%nat ltac:(lia) a) by (rewrite <- H1; reflexivity). rewrite (B 13%nat ltac:(lia) b) by (rewrite <- H2; reflexivity). reflexivity.
    + rewrite (B 116%nat ltac:(lia) a) by (rewrite <- H1; reflexivity). rewrite (B 9%nat ltac:(lia) b) by (rewrite <- H2; reflexivity). reflexivity.
Qed.
Lemma short_not_u a b : In (code a, code b) short_escapes -> Ascii.eqb a "u" = false.
Proof. intros H. destruct (Ascii.eqb_spec a "u") as [->|_]; [|reflexivity]. cbn in H. exfalso. repeat destruct H as [H|H]; try contradiction; discriminate H. Qed.
Lemma raw_tests a : (32 <= code a /\ code a <> 34 /\ code a <> 92)%Z <-> Ascii.eqb a quotation = false /\ Ascii.eqb a backslash = false /\ Nat.ltb (byte a) 32 = false.
Proof.
  rewrite !code_byte, Nat.ltb_ge. split.
  - intros (H1 & H2 & H3). split; [|split; [|lia]].
    + destruct (Ascii.eqb_spec a quotation) as [->|_]; [exfalso; apply H2; reflexivity|reflexivity].
    + destruct (Ascii.eqb_spec a backslash) as [->|_]; [exfalso; apply H3; reflexivity|reflexivity].
  - intros (H1 & H2 & H3). split; [lia|]. split; intros E.
    + assert (a = quotation) as -> by (apply byte_inj; change (byte quotation) with 34%nat; lia). discriminate.
    + assert (a = backslash) as -> by (apply byte_inj; change (byte backslash) with 92%nat; lia). discriminate.
Qed.
Lemma units_raw a s : (32 <= code a /\ code a <> 34 /\ code a <> 92)%Z -> units (String a s) = ocons (Raw a) (units s).
Proof. intros H. apply raw_tests in H. destruct H as (H1 & H2 & H3). cbn [units]. rewrite H1, H2, H3. reflexivity. Qed.
Lemma units_short a b s : In (code a, code b) short_escapes -> units (String bs (String a s)) = ocons (Raw b) (units s).
Proof.
  intros H. pose proof (short_not_u a b H) as U. apply short_escape_spec in H. cbn [units]. change (Ascii.eqb bs quotation) with false. change (Ascii.eqb bs backslash) with true. cbv iota. rewrite U, H. reflexivity.
Qed.

Lemma characters_complete c b : characters c b -> forall r, exists l, units (c ++ String quotation r) = Some (l, r) /\ join l = b /\
  match l with Code m :: _ => exists e s', c = e ++ s' /\ unit_escape e m | _ => True end.
Proof.
  induction 1 as [|a s v H _ IH|a b s v H _ IH|e n u s v He Hh Hl Hc _ IH|e1 e2 n1 n2 u s v H1 H2 Hh Hl Hc _ IH|e n u s v He Hs Hno Hc _ IH]; intros r.
  - exists []. repeat split.
  - destruct (IH r) as (l & E & J & _). exists (Raw a :: l). cbn [append]. rewrite units_raw, E by exact H. cbn [join ocons]. rewrite J. auto.
  - destruct (IH r) as (l & E & J & _). exists (Raw b :: l). cbn [append]. rewrite (units_short a b), E by exact H. cbn [join ocons]. rewrite J. auto.
  - destruct (IH r) as (l & E & J & _). exists (Code n :: l). rewrite sapp_assoc, (units_escape e n), E by exact He. split; [reflexivity|]. split; [|exists e, s; auto].
    cbn [join]. destruct (high n) eqn:Q; [apply high_iff in Q; contradiction|]. destruct (low n) eqn:Q'; [apply low_iff in Q'; contradiction|]. rewrite (cp_rune _ _ Hc), J. reflexivity.
  - destruct (IH r) as (l & E & J & _). exists (Code n1 :: Code n2 :: l). rewrite !sapp_assoc, (units_escape e1 n1), (units_escape e2 n2), E by assumption. split; [reflexivity|].
    split; [|exists e1, (e2 ++ s); auto]. cbn [join]. apply high_iff in Hh. apply low_iff in Hl. rewrite Hh, Hl, pair_rune_eq, (cp_rune _ _ Hc), J. reflexivity.
  - destruct (IH r) as (l & E & J & F). exists (Code n :: l). rewrite sapp_assoc, (units_escape e n), E by exact He. split; [reflexivity|]. split; [|exists e, s; auto].
    apply cp_rune in Hc. rewrite replacement_rune in Hc. subst u. rewrite <- J.
    cbn [join]. destruct (high n) eqn:Q.
    + destruct l as [|[a|m] l]; try reflexivity. destruct (low m) eqn:Q'; [|reflexivity]. exfalso. apply Hno. apply high_iff in Q. split; [exact Q|].
      destruct F as (e2 & s' & -> & F). exists e2, m, s'. split; [reflexivity|]. split; [exact F|]. apply low_iff. exact Q'.
    + destruct Hs as [Hs|Hs]; [apply high_iff in Hs; congruence|]. apply low_iff in Hs. rewrite Hs. reflexivity.
Qed.

Lemma units_inv s x l r : units s = Some (x :: l, r) ->
  exists s', units s' = Some (l, r) /\ (String.length s' < String.length s)%nat /\
    match x with
    | Code n => exists e, unit_escape e n /\ s = e ++ s'
    | Raw b => (s = String b s' /\ (32 <= code b /\ code b <> 34 /\ code b <> 92)%Z) \/ exists a, s = String bs (String a s') /\ In (code a, code b) short_escapes
    end.
Proof.
  destruct s as [|a s]; [discriminate|]. cbn [units].
  destruct (Ascii.eqb_spec a quotation) as [->|E1]; [intros H; discriminate|].
  destruct (Ascii.eqb_spec a backslash) as [->|E2].
  - destruct s as [|c s]; [discriminate|]. destruct (Ascii.eqb_spec c "u") as [->|E3].
    + destruct s as [|h1 [|h2 [|h3 [|h4 s]]]]; try discriminate. destruct (hex4 h1 h2 h3 h4) as [n|] eqn:F; [|discriminate].
      destruct (units s) as [[l' r']|] eqn:U; [|discriminate]. cbn [ocons]. intros H. injection H as <- <- <-. exists s. split; [exact U|]. split; [cbn; lia|].
      exists (String bs (String "u" (String h1 (String h2 (String h3 (String h4 "")))))). split; [apply unit_escape_iff; exists h1, h2, h3, h4; auto|reflexivity].
    + destruct (short_escape c) as [b|] eqn:F; [|discriminate]. destruct (units s) as [[l' r']|] eqn:U; [|discriminate]. cbn [ocons]. intros H. injection H as <- <- <-.
      exists s. split; [exact U|]. split; [cbn; lia|]. right. exists c. split; [reflexivity|]. apply short_escape_spec. exact F.
  - destruct (Nat.ltb (byte a) 32) eqn:E3; [discriminate|]. destruct (units s) as [[l' r']|] eqn:U; [|discriminate]. cbn [ocons]. intros H. injection H as <- <- <-.
    exists s. split; [exact U|]. split; [cbn; lia|]. left. split; [reflexivity|]. apply raw_tests. rewrite E3. split; [|split; [|reflexivity]]; apply Ascii.eqb_neq; assumption.
Qed.
Lemma units_nil s r : units s = Some ([], r) -> s = String quotation r.
Proof.
  destruct s as [|a s]; [discriminate|]. cbn [units]. destruct (Ascii.eqb_spec a quotation) as [->|E1]; [intros H; injection H as <-; reflexivity|].
  destruct (Ascii.eqb a backslash).
  - destruct s as [|c s]; [discriminate|]. destruct (Ascii.eqb c "u").
    + destruct s as [|h1 [|h2 [|h3 [|h4 s]]]]; try discriminate. destruct (hex4 h1 h2 h3 h4); [|discriminate]. destruct (units s) as [[? ?]|]; discriminate.
    + destruct (short_escape c); [|discriminate]. destruct (units s) as [[? ?]|]; discriminate.
  - destruct (Nat.ltb (byte a) 32); [discriminate|]. destruct (units s) as [[? ?]|]; discriminate.
Qed.
Lemma characters_sound : forall k s l r, (String.length s <= k)%nat -> units s = Some (l, r) -> exists c, s = c ++ String quotation r /\ characters c (join l).
Proof.
  induction k as [|k IH]; intros s l r L H; [destruct s; [discriminate|cbn in L; lia]|].
  destruct l as [|[b|n] l].
  - apply units_nil in H. subst s. exists "". split; [reflexivity|constructor].
  - apply units_inv in H. destruct H as (s' & U & L' & [(-> & Hb)|(a & -> & Ha)]); destruct (IH s' l r) as (c & -> & Hc); try lia; try exact U.
    + exists (String b c). split; [reflexivity|]. constructor; auto.
    + exists (String bs (String a c)). split; [reflexivity|]. constructor; auto.
  - apply units_inv in H. destruct H as (s' & U & L' & (e & He & ->)). destruct (IH s' l r) as (c & -> & Hc); [lia|exact U|].
    pose proof (unit_escape_range e n He) as Rn.
    assert (Lone : forall l', l = l' -> (is_high n \/ is_low n) -> (is_high n -> forall m l', l = Code m :: l' -> ~ is_low m) -> characters (e ++ c) (replacement ++ join l)).
    { intros _ _ Hs Hno. apply (ch_lone e n); auto; [|apply replacement_cp]. intros (Hh & e2 & n2 & c' & -> & H2 & Hl).
      rewrite sapp_assoc, (units_escape e2 n2) in U by exact H2. destruct (units (c' ++ String quotation r)) as [[l2 r2]|]; [|discriminate]. cbn in U. injection U as U _.
      eapply Hno; [exact Hh|symmetry; exact U|exact Hl]. }
    cbn [join]. destruct (high n) eqn:Q.
    + apply high_iff in Q.
      destruct l as [|[b|m] l]; [exists (e ++ c); split; [rewrite sapp_assoc; reflexivity|]; eapply Lone; [reflexivity|left; exact Q|intros; discriminate]..|].
      destruct (low m) eqn:Q'.
      * apply low_iff in Q'. apply units_inv in U. destruct U as (s2 & U2 & L2 & (e2 & He2 & E2)). destruct (IH s2 l r) as (c2 & -> & Hc2); [lia|exact U2|].
        exists (e ++ e2 ++ c2). split; [rewrite E2, !sapp_assoc; reflexivity|].
        apply (ch_pair e e2 n m); auto. rewrite pair_rune_eq. unfold is_high, is_low in *. apply rune_cp; unfold is_high, is_low; lia.
      * exists (e ++ c). split; [rewrite sapp_assoc; reflexivity|]. eapply Lone; [reflexivity|left; exact Q|].
        intros _ m' l' E. injection E as <- _. intros C. apply low_iff in C. congruence.
    + assert (Qn : ~ is_high n) by (intros C; apply high_iff in C; congruence). exists (e ++ c). split; [rewrite sapp_assoc; reflexivity|].
      destruct (low n) eqn:Q'.
      * eapply Lone; [reflexivity|right; apply low_iff; exact Q'|]. intros C. contradiction.
      * assert (Qn' : ~ is_low n) by (intros C; apply low_iff in C; congruence). apply (ch_code e n); auto. apply rune_cp; auto. lia.
Qed.
Lemma unquote_complete s v r : string_text s v -> exists c, s = String quotation c /\ unquote (c ++ r) = Some (v, r).
Proof.
  intros (c & b & -> & H & ->). exists (c ++ dquote). split; [reflexivity|]. rewrite sapp_assoc. destruct (characters_complete c b H r) as (l & E & J & _).
  unfold unquote. change (dquote ++ r) with (String quotation r). rewrite E, J. reflexivity.
Qed.
Lemma unquote_sound s v r : unquote s = Some (v, r) -> exists c, s = c ++ r /\ string_text (String quotation c) v.
Proof.
  unfold unquote. destruct (units s) as [[l r']|] eqn:E; [|discriminate]. intros H. injection H as <- <-.
  destruct (characters_sound (String.length s) s l r' (le_n _) E) as (c & -> & Hc). exists (c ++ dquote). split; [rewrite sapp_assoc; reflexivity|].
  exists c, (join l). auto.
Qed.

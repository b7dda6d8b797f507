(** Lemmas about the text of JSON values: reading is what the grammar says. *)
From Verif Require Import Go L_List M_Strings L_Strings M_Json S_Json M_JsonText S_JsonText L_JsonText.
Open Scope list_scope.
Open Scope string_scope.

(** *** Values *)
Scheme value_text_min := Minimality for value_text Sort Prop
  with elements_text_min := Minimality for elements_text Sort Prop
  with members_text_min := Minimality for members_text Sort Prop.
Combined Scheme texts_ind from value_text_min, elements_text_min, members_text_min.

(** a value starts with a byte that is neither white space nor a closing bracket *)
Definition first_ok (s : string) : Prop := match s with "" => False | String a _ => is_space a = false /\ a <> "]"%char /\ a <> "}"%char end.
Lemma number_first_ok s : number_first s -> first_ok s.
Proof.
  destruct s as [|a s]; [auto|]. cbn. intros [H| ->]; [|repeat split; discriminate]. split; [|split; intros ->; cbv in H; destruct H; congruence].
  destruct (is_space a) eqn:E; [|reflexivity]. apply is_space_iff in E. unfold is_digit_code in H. lia.
Qed.
Lemma value_first s v : value_text s v -> first_ok s.
Proof.
  destruct 1 as [| | |s n H|s H|s v (c & b & -> & _)|w H|s l H|w H|s l H]; try (repeat split; discriminate); apply number_first_ok; [eapply integer_first|apply float_first]; exact H.
Qed.
Lemma first_nonspace s r : first_ok s -> nonspace (s ++ r).
Proof. destruct s as [|a s]; [intros []|]. cbn. tauto. Qed.
Lemma expect_first c s r : first_ok s -> c = "]"%char \/ c = "}"%char -> expect c (s ++ r) = None.
Proof.
  destruct s as [|a s]; [intros []|]. cbn [first_ok append expect]. intros (_ & H1 & H2) Hc. destruct (Ascii.eqb_spec a c) as [->|_]; [|reflexivity]. destruct Hc; congruence.
Qed.
Lemma value_number n w p r : white w -> number_first p -> value (S n) (w ++ p ++ r) = scan_number (p ++ r).
Proof.
  intros Hw Hp. cbn [value]. rewrite skip_white by exact Hw. rewrite skip_nonspace by (apply first_nonspace, number_first_ok, Hp).
  destruct p as [|a p]; [destruct Hp|]. cbn [append].
  assert (N : forall c, (forall x, is_digit_code (code c) -> x) -> c <> "-"%char -> Ascii.eqb a c = false).
  { intros c H1 H2. destruct (Ascii.eqb_spec a c) as [->|_]; [|reflexivity]. destruct Hp as [Hp|Hp]; [exact (H1 _ Hp)|contradiction]. }
  rewrite !N; try reflexivity; try discriminate; (intros x Q; exfalso; cbv in Q; destruct Q; congruence).
Qed.
Lemma skip_first w p r : white w -> first_ok p -> skip (w ++ p ++ r) = p ++ r.
Proof. intros Hw Hp. rewrite skip_white by exact Hw. apply skip_nonspace, first_nonspace, Hp. Qed.
Lemma dquote_app s : dquote ++ s = String quotation s.
Proof. reflexivity. Qed.
Lemma string_text_first k key : string_text k key -> first_ok k.
Proof. intros (c & b & -> & _). repeat split; discriminate. Qed.
Ltac lens := repeat rewrite ?str_length_app in *; cbn [String.length] in *.

Lemma skip_char w c r : white w -> is_space c = false -> skip (w ++ String c r) = String c r.
Proof. intros Hw Hc. rewrite skip_white by exact Hw. apply skip_nonspace. exact Hc. Qed.
Lemma ends_white w c r : white w -> c = ","%char \/ c = "]"%char \/ c = "}"%char -> ends_number (w ++ String c r).
Proof.
  intros Hw Hc. destruct w as [|a w].
  - cbn. destruct Hc as [->|[->| ->]]; repeat split; try discriminate; cbv; intros [? ?]; congruence.
  - cbn. destruct Hw as [Hw _]. unfold is_digit_code. split; [lia|]. repeat split; intros ->; cbv in Hw; repeat destruct Hw as [Hw|Hw]; discriminate.
Qed.

Lemma texts_complete :
  (forall s v, value_text s v -> forall fuel w r, (2 * String.length s + 1 <= fuel)%nat -> white w -> (is_number v -> ends_number r) -> value fuel (w ++ s ++ r) = Some (v, r)) /\
  (forall s l, elements_text s l -> (forall fuel r, (2 * String.length s + 2 <= fuel)%nat -> elements fuel (s ++ String "]" r) = Some (l, r)) /\
                                    forall r, expect "]" (skip (s ++ r)) = None) /\
  (forall s l, members_text s l -> (forall fuel r, (2 * String.length s + 2 <= fuel)%nat -> members fuel (s ++ String "}" r) = Some (l, r)) /\
                                   forall r, expect "}" (skip (s ++ r)) = None).
Proof.
  apply texts_ind.
  - intros fuel w r L Hw _. destruct fuel as [|n]; [lia|]. cbn [value]. rewrite skip_first by (auto; repeat split; discriminate). reflexivity.
  - intros fuel w r L Hw _. destruct fuel as [|n]; [lia|]. cbn [value]. rewrite skip_first by (auto; repeat split; discriminate). reflexivity.
  - intros fuel w r L Hw _. destruct fuel as [|n]; [lia|]. cbn [value]. rewrite skip_first by (auto; repeat split; discriminate). reflexivity.
  - intros s n H fuel w r L Hw He. destruct fuel as [|k]; [lia|]. rewrite value_number by (auto; eapply integer_first; exact H). apply integer_complete; auto. apply He. exact Logic.I.
  - intros s H fuel w r L Hw He. destruct fuel as [|k]; [lia|]. rewrite value_number by (auto; apply float_first; exact H). apply float_complete; auto. apply He. exact Logic.I.
  - intros s v H fuel w r L Hw _. destruct fuel as [|k]; [lia|]. cbn [value]. rewrite skip_first by (auto; eapply string_text_first; exact H).
    destruct (unquote_complete s v r H) as (c & -> & E). cbn [append]. change (Ascii.eqb quotation quotation) with true. cbv iota. rewrite E. reflexivity.
  - intros w' Hw' fuel w r L Hw _. destruct fuel as [|k]; [lia|]. cbn [value]. rewrite skip_first by (auto; repeat split; discriminate). cbn [append].
    change (Ascii.eqb "[" quotation) with false. change (Ascii.eqb "[" "[") with true. cbv iota. rewrite sapp_assoc; cbn [append]; rewrite skip_char by auto; reflexivity.
  - intros s l _ [IH1 IH2] fuel w r L Hw _. destruct fuel as [|k]; [lia|]. cbn [value]. rewrite skip_first by (auto; repeat split; discriminate). cbn [append].
    change (Ascii.eqb "[" quotation) with false. change (Ascii.eqb "[" "[") with true. cbv iota. rewrite sapp_assoc, IH2. cbn [append]. lens. rewrite IH1 by lia. reflexivity.
  - intros w' Hw' fuel w r L Hw _. destruct fuel as [|k]; [lia|]. cbn [value]. rewrite skip_first by (auto; repeat split; discriminate). cbn [append].
    change (Ascii.eqb "{" quotation) with false. change (Ascii.eqb "{" "[") with false. change (Ascii.eqb "{" "{") with true. cbv iota. rewrite sapp_assoc; cbn [append]; rewrite skip_char by auto; reflexivity.
  - intros s l _ [IH1 IH2] fuel w r L Hw _. destruct fuel as [|k]; [lia|]. cbn [value]. rewrite skip_first by (auto; repeat split; discriminate). cbn [append].
    change (Ascii.eqb "{" quotation) with false. change (Ascii.eqb "{" "[") with false. change (Ascii.eqb "{" "{") with true. cbv iota. rewrite sapp_assoc, IH2. cbn [append]. lens. rewrite IH1 by lia. reflexivity.
  - intros w1 s w2 v H1 H2 Hv IH. split.
    + intros fuel r L. destruct fuel as [|k]; [lia|]. lens. cbn [elements]. rewrite !sapp_assoc, IH; [|lia|exact H1|intros _; apply ends_white; auto].
      rewrite skip_char by auto. reflexivity.
    + intros r. rewrite !sapp_assoc, skip_first by (auto; eapply value_first; exact Hv). apply expect_first; [eapply value_first; exact Hv|auto].
  - intros w1 s w2 v s' l H1 H2 Hv IH _ [IH1 _]. split.
    + intros fuel r L. destruct fuel as [|k]; [lia|]. lens. cbn [elements]. rewrite !sapp_assoc, IH; [|lia|exact H1|intros _; apply ends_white; auto].
      cbn [append]. rewrite skip_char by auto. rewrite expect_cons, IH1 by lia. reflexivity.
    + intros r. rewrite !sapp_assoc, skip_first by (auto; eapply value_first; exact Hv). apply expect_first; [eapply value_first; exact Hv|auto].
  - intros w1 k w2 w3 s w4 key v H1 H2 H3 H4 Hk Hv IH. split.
    + intros fuel r L. destruct fuel as [|n]; [lia|]. lens. cbn [members]. rewrite !sapp_assoc, skip_first by (auto; eapply string_text_first; exact Hk).
      match goal with |- context [k ++ ?x] => destruct (unquote_complete k key x Hk) as (c & E & U) end. rewrite E at 1. cbn [append] in U |- *. rewrite expect_cons, U.
      rewrite skip_char by auto. rewrite expect_cons, IH; [|lia|exact H3|intros _; apply ends_white; auto]. rewrite skip_char by auto. reflexivity.
    + intros r. rewrite !sapp_assoc, skip_first by (auto; eapply string_text_first; exact Hk). apply expect_first; [eapply string_text_first; exact Hk|auto].
  - intros w1 k w2 w3 s w4 key v s' l H1 H2 H3 H4 Hk Hv IH _ [IH1 _]. split.
    + intros fuel r L. destruct fuel as [|n]; [lia|]. lens. cbn [members]. rewrite !sapp_assoc, skip_first by (auto; eapply string_text_first; exact Hk).
      match goal with |- context [k ++ ?x] => destruct (unquote_complete k key x Hk) as (c & E & U) end. rewrite E at 1. cbn [append] in U |- *. rewrite expect_cons, U.
      rewrite skip_char by auto. rewrite expect_cons, IH; [|lia|exact H3|intros _; apply ends_white; auto]. rewrite skip_char by auto. rewrite expect_cons, IH1 by lia. reflexivity.
    + intros r. rewrite !sapp_assoc, skip_first by (auto; eapply string_text_first; exact Hk). apply expect_first; [eapply string_text_first; exact Hk|auto].
Qed.

Lemma result_inv (v : json) (o : option string) x : result v o = Some x -> exists r, o = Some r /\ x = (v, r).
Proof. unfold result. destruct o as [r|]; [|discriminate]. intros H. injection H as <-. eauto. Qed.
Lemma texts_sound fuel :
  (forall s v r, value fuel s = Some (v, r) -> exists w p, white w /\ s = w ++ p ++ r /\ value_text p v) /\
  (forall s l r, elements fuel s = Some (l, r) -> exists p, s = p ++ String "]" r /\ elements_text p l) /\
  (forall s l r, members fuel s = Some (l, r) -> exists p, s = p ++ String "}" r /\ members_text p l).
Proof.
  induction fuel as [|n (IHv & IHe & IHm)]; [repeat split; discriminate|]. split; [|split].
  - intros s v r H. cbn [value] in H. destruct (skip_split s) as (w & Hw & Es & _). exists w. revert Es H. generalize (skip s). intros t -> H. destruct t as [|a s']; [discriminate|].
    cut (exists p, String a s' = p ++ r /\ value_text p v); [intros (p & -> & Hp); exists p; auto|].
    destruct (Ascii.eqb_spec a quotation) as [->|_].
    { destruct (unquote s') as [[x r']|] eqn:U; [|discriminate]. injection H as <- <-. destruct (unquote_sound _ _ _ U) as (c & -> & Hc). exists (String quotation c). split; [reflexivity|]. constructor. exact Hc. }
    destruct (Ascii.eqb_spec a "[") as [->|_].
    { destruct (expect "]" (skip s')) as [r'|] eqn:E.
      - injection H as <- <-. apply expect_some in E. destruct (skip_split s') as (w' & Hw' & Es & _). rewrite E in Es. exists ("[" ++ w' ++ "]"). split; [rewrite Es; cbn [append]; rewrite sapp_assoc; reflexivity|]. constructor. exact Hw'.
      - destruct (elements n s') as [[l r']|] eqn:F; [|discriminate]. injection H as <- <-. destruct (IHe _ _ _ F) as (p & -> & Hp). exists ("[" ++ p ++ "]"). split; [cbn [append]; rewrite sapp_assoc; reflexivity|]. constructor. exact Hp. }
    destruct (Ascii.eqb_spec a "{") as [->|_].
    { destruct (expect "}" (skip s')) as [r'|] eqn:E.
      - injection H as <- <-. apply expect_some in E. destruct (skip_split s') as (w' & Hw' & Es & _). rewrite E in Es. exists ("{" ++ w' ++ "}"). split; [rewrite Es; cbn [append]; rewrite sapp_assoc; reflexivity|]. constructor. exact Hw'.
      - destruct (members n s') as [[l r']|] eqn:F; [|discriminate]. injection H as <- <-. destruct (IHm _ _ _ F) as (p & -> & Hp). exists ("{" ++ p ++ "}"). split; [cbn [append]; rewrite sapp_assoc; reflexivity|]. constructor. exact Hp. }
    destruct (Ascii.eqb_spec a "n") as [->|_]; [apply result_inv in H; destruct H as (r' & H & E); injection E as -> ->; apply expects_some in H; subst s'; exists "null"; split; [reflexivity|constructor]|].
    destruct (Ascii.eqb_spec a "t") as [->|_]; [apply result_inv in H; destruct H as (r' & H & E); injection E as -> ->; apply expects_some in H; subst s'; exists "true"; split; [reflexivity|constructor]|].
    destruct (Ascii.eqb_spec a "f") as [->|_]; [apply result_inv in H; destruct H as (r' & H & E); injection E as -> ->; apply expects_some in H; subst s'; exists "false"; split; [reflexivity|constructor]|].
    destruct (scan_sound _ _ _ H) as (p & E & [(m & -> & Hm)|(-> & Hf)]); exists p; (split; [exact E|]); constructor; assumption.
  - intros s l r H. cbn [elements] in H. destruct (value n s) as [[v r1]|] eqn:V; [|discriminate]. destruct (IHv _ _ _ V) as (w & p & Hw & -> & Hp).
    destruct (skip_split r1) as (w' & Hw' & Es & _). destruct (expect "," (skip r1)) as [r2|] eqn:E.
    + apply expect_some in E. rewrite E in Es. destruct (elements n r2) as [[l' r3]|] eqn:F; [|discriminate]. injection H as <- <-. destruct (IHe _ _ _ F) as (p' & -> & Hp').
      exists (w ++ p ++ w' ++ "," ++ p'). split; [rewrite Es, !sapp_assoc; reflexivity|]. constructor; auto.
    + destruct (expect "]" (skip r1)) as [r2|] eqn:E'; [|discriminate]. injection H as <- <-. apply expect_some in E'. rewrite E' in Es.
      exists (w ++ p ++ w'). split; [rewrite Es, !sapp_assoc; reflexivity|]. constructor; auto.
  - intros s l r H. cbn [members] in H. destruct (skip_split s) as (w1 & Hw1 & Es1 & _). destruct (expect quotation (skip s)) as [r0|] eqn:Q; [|discriminate]. apply expect_some in Q. rewrite Q in Es1.
    destruct (unquote r0) as [[k r1]|] eqn:U; [|discriminate]. destruct (unquote_sound _ _ _ U) as (c & -> & Hk).
    destruct (skip_split r1) as (w2 & Hw2 & Es2 & _). destruct (expect ":" (skip r1)) as [r2|] eqn:C; [|discriminate]. apply expect_some in C. rewrite C in Es2.
    destruct (value n r2) as [[v r3]|] eqn:V; [|discriminate]. destruct (IHv _ _ _ V) as (w3 & p & Hw3 & -> & Hp).
    destruct (skip_split r3) as (w4 & Hw4 & Es4 & _). destruct (expect "," (skip r3)) as [r4|] eqn:E.
    + apply expect_some in E. rewrite E in Es4. destruct (members n r4) as [[l' r5]|] eqn:F; [|discriminate]. injection H as <- <-. destruct (IHm _ _ _ F) as (p' & -> & Hp').
      exists (w1 ++ String quotation c ++ w2 ++ ":" ++ w3 ++ p ++ w4 ++ "," ++ p'). split; [|constructor; auto].
      rewrite Es1, Es2, Es4. repeat (cbn [append]; rewrite ?sapp_assoc). reflexivity.
    + destruct (expect "}" (skip r3)) as [r4|] eqn:E'; [|discriminate]. injection H as <- <-. apply expect_some in E'. rewrite E' in Es4.
      exists (w1 ++ String quotation c ++ w2 ++ ":" ++ w3 ++ p ++ w4). split; [|constructor; auto].
      rewrite Es1, Es2, Es4. repeat (cbn [append]; rewrite ?sapp_assoc). reflexivity.
Qed.

Lemma decode_complete w p r v : white w -> value_text p v -> (is_number v -> ends_number r) -> decode (w ++ p ++ r) = Some (v, r).
Proof. intros Hw Hp Hr. unfold decode. apply (proj1 texts_complete); auto. lens. lia. Qed.
Lemma decode_sound s v r : decode s = Some (v, r) -> exists w p, white w /\ s = w ++ p ++ r /\ value_text p v.
Proof. apply (proj1 (texts_sound _)). Qed.
Lemma value_text_fun s v v' : value_text s v -> value_text s v' -> v = v'.
Proof.
  intros H H'. pose proof (decode_complete "" s "" v white_nil H (fun _ => Logic.I)) as E. rewrite (decode_complete "" s "" v' white_nil H' (fun _ => Logic.I)) in E. congruence.
Qed.
(** A text that is cut off is not read. *)
Lemma truncated p x v : value_text (p ++ x) v -> ~ is_number v -> x <> "" -> decode p = None.
Proof.
  intros H Hv Hx. destruct (decode p) as [[v' r]|] eqn:D; [|reflexivity]. exfalso. destruct (decode_sound _ _ _ D) as (w & q & Hw & -> & Hq).
  assert (E0 : decode ((w ++ q ++ r) ++ x) = Some (v, "")).
  { rewrite <- (str_app_nil_r ((w ++ q ++ r) ++ x)). apply (decode_complete "" _ "" v); [exact white_nil|exact H|intros _; exact Logic.I]. }
  assert (N : ~ is_number v').
  { intros N. assert (F : number_first q) by (inversion Hq; subst; cbn in N; try contradiction; [eapply integer_first; eassumption|apply float_first; assumption]).
    pose proof (value_first _ _ H) as F2. destruct w as [|b w]; [|cbn in F2; destruct Hw as [Hw _]; apply is_space_iff in Hw; destruct F2; congruence].
    destruct q as [|a q]; [destruct F|]. cbn [append] in H. inversion H; subst; try (cbn in F; destruct F as [F|F]; [cbv in F; destruct F; congruence|discriminate]); try (apply Hv; exact Logic.I).
    match goal with Hs : string_text _ _ |- _ => destruct Hs as (c & b & E & _) end. injection E as -> _. cbn in F. destruct F as [F|F]; [cbv in F; destruct F; congruence|discriminate]. }
  assert (E1 : decode ((w ++ q ++ r) ++ x) = Some (v', r ++ x)) by (rewrite !sapp_assoc; apply decode_complete; auto; contradiction).
  rewrite E0 in E1. injection E1 as _ E1. destruct r; [cbn in E1; congruence|discriminate].
Qed.

(** Lemmas about writing JSON: what is written is in the grammar. *)
From Verif Require Import Go L_List M_Strings L_Strings M_Text L_Text M_Json S_Json M_JsonText S_JsonText L_JsonText L_JsonRead.
From Coq Require Import Decimal DecimalString DecimalPos DecimalFacts.
Open Scope list_scope.
Open Scope string_scope.

(** *** Strings *)
Lemma unit_escape_of a b c d n : hex4 a b c d = Some n -> unit_escape (String bs (String "u" (String a (String b (String c (String d "")))))) n.
Proof. intros H. apply unit_escape_iff. exists a, b, c, d. auto. Qed.
Lemma hex_digit_value n : (n < 16)%nat -> hex_value (hex_digit n) = Some (Z.of_nat n).
Proof. intros H. do 16 (destruct n as [|n]; [reflexivity|]). lia. Qed.
Lemma ch_esc short a s v : characters s v -> characters (esc short a ++ s) (String a v).
Proof.
  intros H. pose proof (byte_lt a) as B. unfold esc.
  assert (Q : forall k, (k < 256)%nat -> byte a = k -> a = chr k) by (intros k Hk E; apply byte_inj; rewrite byte_chr; auto).
  destruct (Nat.eqb_spec (byte a) 34) as [E|N1]; [cbn [orb append]; rewrite (Q 34%nat ltac:(lia) E); apply ch_short; [cbn; auto|exact H]|].
  destruct (Nat.eqb_spec (byte a) 92) as [E|N2]; [cbn [orb append]; rewrite (Q 92%nat ltac:(lia) E); apply ch_short; [cbn; auto|exact H]|]. cbn [orb].
  destruct (Nat.eqb (byte a) 8 && short) eqn:E8.
  { apply Bool.andb_true_iff in E8. destruct E8 as [E _]. apply Nat.eqb_eq in E. rewrite (Q 8%nat ltac:(lia) E). cbn [append]. apply ch_short; [cbn; auto 10|exact H]. }
  destruct (Nat.eqb (byte a) 12 && short) eqn:E12.
  { apply Bool.andb_true_iff in E12. destruct E12 as [E _]. apply Nat.eqb_eq in E. rewrite (Q 12%nat ltac:(lia) E). cbn [append]. apply ch_short; [cbn; auto 10|exact H]. }
  destruct (Nat.eqb_spec (byte a) 10) as [E|N3]; [rewrite (Q 10%nat ltac:(lia) E); cbn [append]; apply ch_short; [cbn; auto 10|exact H]|].
  destruct (Nat.eqb_spec (byte a) 13) as [E|N4]; [rewrite (Q 13%nat ltac:(lia) E); cbn [append]; apply ch_short; [cbn; auto 10|exact H]|].
  destruct (Nat.eqb_spec (byte a) 9) as [E|N5]; [rewrite (Q 9%nat ltac:(lia) E); cbn [append]; apply ch_short; [cbn; auto 10|exact H]|].
  destruct (Nat.ltb (byte a) 32 || Nat.eqb (byte a) 60 || Nat.eqb (byte a) 62 || Nat.eqb (byte a) 38) eqn:T.
  - assert (R : (byte a < 128)%nat).
    { rewrite !Bool.orb_true_iff, Nat.ltb_lt, !Nat.eqb_eq in T. lia. }
    pose proof (Nat.div_mod (byte a) 16 ltac:(lia)) as D. pose proof (Nat.mod_upper_bound (byte a) 16 ltac:(lia)) as M.
    assert (X : hex4 "0" "0" (hex_digit (byte a / 16)) (hex_digit (byte a mod 16)) = Some (code a)).
    { unfold hex4. change (hex_value "0") with (Some 0%Z). rewrite !hex_digit_value by lia. f_equal. rewrite code_byte. lia. }
    apply (ch_code _ (code a) (String a "")); [apply unit_escape_of; exact X|unfold is_high; rewrite code_byte; lia|unfold is_low; rewrite code_byte; lia| |exact H].
    apply cp1. rewrite code_byte. lia.
  - cbn [append]. apply ch_raw; [|exact H]. rewrite !Bool.orb_false_iff, Nat.ltb_ge, !Nat.eqb_neq in T. rewrite code_byte. lia.
Qed.
Lemma escaped_characters short : forall k s, (String.length s <= k)%nat -> characters (escaped short s) s.
Proof.
  induction k as [|k IH]; intros s L; [destruct s; [constructor|cbn in L; lia]|].
  destruct s as [|a r]; [constructor|]. cbn [String.length] in L.
  assert (G : characters (esc short a ++ escaped short r) (String a r)) by (apply ch_esc, IH; lia).
  cbn [escaped]. destruct r as [|b [|c r]]; try exact G. destruct (separator a b c) as [e|] eqn:S; [|exact G]. clear G.
  unfold separator in S. destruct (Nat.eqb_spec (byte a) 226) as [Ea|]; [|discriminate]. destruct (Nat.eqb_spec (byte b) 128) as [Eb|]; [|discriminate]. cbn [andb] in S.
  assert (Q : forall k x, (k < 256)%nat -> byte x = k -> x = chr k) by (intros j x Hj E; apply byte_inj; rewrite byte_chr; auto).
  rewrite (Q 226%nat a ltac:(lia) Ea), (Q 128%nat b ltac:(lia) Eb). cbn [String.length] in L.
  destruct (Nat.eqb_spec (byte c) 168) as [Ec|].
  { injection S as <-. rewrite (Q 168%nat c ltac:(lia) Ec). apply (ch_code _ 8232 (String (chr 226) (String (chr 128) (String (chr 168) "")))).
    - apply unit_escape_of. reflexivity.
    - unfold is_high. lia.
    - unfold is_low. lia.
    - change (String (chr 226) (String (chr 128) (String (chr 168) ""))) with (rune 8232). apply rune_cp; unfold is_high, is_low; lia.
    - apply IH. lia. }
  destruct (Nat.eqb_spec (byte c) 169) as [Ec|]; [|discriminate].
  injection S as <-. rewrite (Q 169%nat c ltac:(lia) Ec). apply (ch_code _ 8233 (String (chr 226) (String (chr 128) (String (chr 169) "")))).
  - apply unit_escape_of. reflexivity.
  - unfold is_high. lia.
  - unfold is_low. lia.
  - change (String (chr 226) (String (chr 128) (String (chr 169) ""))) with (rune 8233). apply rune_cp; unfold is_high, is_low; lia.
  - apply IH. lia.
Qed.
Lemma quote_text short s : string_text (quote short s) (to_utf8 s).
Proof. exists (escaped short s), s. split; [reflexivity|]. split; [apply (escaped_characters short (String.length s)); lia|reflexivity]. Qed.

(** *** Numbers *)
Lemma uint_digits u : all_bytes_in is_digit_code (NilEmpty.string_of_uint u).
Proof. induction u; [exact Logic.I|..]; cbn [NilEmpty.string_of_uint all_bytes_in]; (split; [cbv; split; discriminate|assumption]). Qed.
Lemma fold_horner u x : fold_left (fun n a => n * 10 + (Z.of_nat (byte a) - 48))%Z (list_of_string (NilEmpty.string_of_uint u)) x = horner u x.
Proof. revert x; induction u; intros x; [reflexivity|..]; cbn [NilEmpty.string_of_uint list_of_string fold_left horner]; rewrite IHu; f_equal. Qed.
Lemma pos_norm p u : Pos.to_uint p <> D0 u.
Proof.
  intros E. pose proof (DecimalPos.Unsigned.to_of (Pos.to_uint p)) as T. rewrite DecimalPos.Unsigned.of_to in T. cbn [N.to_uint] in T.
  pose proof (DecimalPos.Unsigned.to_uint_nonzero p) as Z. rewrite E in *. unfold unorm in T. destruct (nzhead (D0 u)) eqn:F; try discriminate.
  - apply Z. exact T.
  - exact (nzhead_nonzero (D0 u) u0 F).
Qed.
Lemma itoa_integer_part n : (0 <= n)%Z -> integer_part (itoa n) /\ decimal_value (itoa n) n.
Proof.
  intros H. destruct (itoa_nonneg n H) as (E & V & N). split.
  - split.
    + rewrite E. split; [|apply uint_digits]. destruct (uint_of n); [contradiction|..]; discriminate.
    + destruct n as [|p|p]; [left; reflexivity| |lia]. right. intros r Q. rewrite E in Q. unfold uint_of, Z.to_int in Q.
      destruct (Pos.to_uint p) eqn:D; try discriminate. exact (pos_norm p _ D).
  - apply decimal_iff. rewrite E. split; [apply uint_digits|]. unfold digits_value. rewrite fold_horner. symmetry. exact V.
Qed.
Lemma itoa_integer n : integer (itoa n) n.
Proof.
  destruct (Z.le_gt_cases 0 n) as [H|H].
  - destruct (itoa_integer_part n H) as [H1 H2]. exists "", (itoa n), n. split; [reflexivity|]. split; [exact H1|]. split; [exact H2|]. left. auto.
  - destruct n as [|p|p]; try lia. destruct (itoa_integer_part (Zpos p) ltac:(lia)) as [H1 H2]. exists "-", (itoa (Zpos p)), (Zpos p).
    split; [apply itoa_neg|]. split; [exact H1|]. split; [exact H2|]. right. auto.
Qed.

(** *** Values *)
Section Ind.
Variable P : json -> Prop.
Hypothesis Hnull : P JNull.
Hypothesis Hbool : forall b, P (JBool b).
Hypothesis Hnum : forall n, P (JNum n).
Hypothesis Hfloat : forall s, P (JFloat s).
Hypothesis Hstr : forall s, P (JStr s).
Hypothesis Harr : forall l, Forall P l -> P (JArr l).
Hypothesis Hobj : forall l, Forall (fun kv => P (snd kv)) l -> P (JObj l).
Fixpoint json_induction (v : json) : P v :=
  match v with
  | JNull => Hnull
  | JBool b => Hbool b
  | JNum n => Hnum n
  | JFloat s => Hfloat s
  | JStr s => Hstr s
  | JArr l => Harr l ((fix go l := match l return Forall P l with [] => Forall_nil _ | v :: l => Forall_cons v (json_induction v) (go l) end) l)
  | JObj l => Hobj l ((fix go l := match l return Forall (fun kv => P (snd kv)) l with [] => Forall_nil _ | (k, v) :: l => Forall_cons (k, v) (json_induction v) (go l) end) l)
  end.
End Ind.

Lemma spaces_white n : white (spaces n).
Proof. induction n as [|n IH]; [exact Logic.I|]. split; [left; reflexivity|exact IH]. Qed.
Lemma line_white ind : white (line ind).
Proof. destruct ind as [d|]; [|exact Logic.I]. split; [right; right; left; reflexivity|apply spaces_white]. Qed.
Lemma items_elements sep w ts vs : white sep -> white w -> Forall2 value_text ts vs -> vs <> [] -> elements_text (sep ++ items sep ts ++ w) vs.
Proof.
  intros Hs Hw F. induction F as [|t v ts vs Ht F IH]; [congruence|]. intros _. destruct F as [|t' v' ts vs Ht' F].
  - cbn [items]. apply et_one; auto.
  - specialize (IH ltac:(discriminate)). change (items sep (t :: t' :: ts)) with (t ++ "," ++ sep ++ items sep (t' :: ts)).
    replace (sep ++ (t ++ "," ++ sep ++ items sep (t' :: ts)) ++ w) with (sep ++ t ++ "" ++ "," ++ (sep ++ items sep (t' :: ts) ++ w)) by (rewrite !sapp_assoc; reflexivity).
    apply et_more; auto. exact white_nil.
Qed.
Definition member_text (t : string) (kv : string * json) : Prop := exists k w s, t = k ++ ":" ++ w ++ s /\ white w /\ string_text k (fst kv) /\ value_text s (snd kv).
Lemma items_members sep w ts l : white sep -> white w -> Forall2 member_text ts l -> l <> [] -> members_text (sep ++ items sep ts ++ w) l.
Proof.
  intros Hs Hw F. induction F as [|t [key v] ts l (k & w' & s & -> & Hw' & Hk & Hv) F IH]; [congruence|]. intros _. cbn [fst snd] in *. destruct F as [|t' kv' ts l Ht' F].
  - cbn [items]. replace (sep ++ (k ++ ":" ++ w' ++ s) ++ w) with (sep ++ k ++ "" ++ ":" ++ w' ++ s ++ w) by (rewrite !sapp_assoc; reflexivity).
    apply mt_one; auto. exact white_nil.
  - specialize (IH ltac:(discriminate)). set (t := k ++ ":" ++ w' ++ s). change (items sep (t :: t' :: ts)) with (t ++ "," ++ sep ++ items sep (t' :: ts)). subst t.
    replace (sep ++ ((k ++ ":" ++ w' ++ s) ++ "," ++ sep ++ items sep (t' :: ts)) ++ w) with (sep ++ k ++ "" ++ ":" ++ w' ++ s ++ "" ++ "," ++ (sep ++ items sep (t' :: ts) ++ w)) by (rewrite !sapp_assoc; reflexivity).
    apply mt_more; auto; exact white_nil.
Qed.
Lemma Forall2_map_l {A B} (R : B -> A -> Prop) (f : A -> B) l : Forall (fun x => R (f x) x) l -> Forall2 R (map f l) l.
Proof. induction 1; cbn [map]; constructor; auto. Qed.
Lemma text_value short : (forall s, utf8 s -> to_utf8 s = s) -> forall v, writable_json v -> forall ind, value_text (text short ind v) v.
Proof.
  intros Hu. induction v as [|b|n|s|s|l IH|l IH] using json_induction; intros W ind; inversion W; subst; cbn [text].
  - constructor.
  - destruct b; constructor.
  - constructor. apply itoa_integer.
  - constructor. assumption.
  - constructor. rewrite <- (Hu s) at 2 by assumption. apply quote_text.
  - destruct l as [|v l]; [cbn [map wrap]; apply (vt_array0 ""); exact white_nil|]. remember (v :: l) as vs eqn:E.
    assert (G : map (text short (option_map S ind)) vs <> []) by (subst vs; discriminate). unfold wrap. destruct (map (text short (option_map S ind)) vs) as [|t ts] eqn:M; [contradiction|].
    replace ("[" ++ line (option_map S ind) ++ items (line (option_map S ind)) (t :: ts) ++ line ind ++ "]") with
            ("[" ++ (line (option_map S ind) ++ items (line (option_map S ind)) (t :: ts) ++ line ind) ++ "]") by (rewrite !sapp_assoc; reflexivity).
    apply vt_array, items_elements; try apply line_white; [|subst vs; discriminate]. rewrite <- M. apply Forall2_map_l.
    match goal with F : Forall writable_json _ |- _ => apply Forall_forall; intros x I; apply (proj1 (Forall_forall _ _) IH x I); apply (proj1 (Forall_forall _ _) F x I) end.
  - destruct l as [|v l]; [cbn [map wrap]; apply (vt_object0 ""); exact white_nil|]. remember (v :: l) as vs eqn:E.
    match goal with |- context [map ?f vs] => set (g := f) end.
    assert (G : map g vs <> []) by (subst vs; discriminate). unfold wrap. destruct (map g vs) as [|t ts] eqn:M; [contradiction|].
    replace ("{" ++ line (option_map S ind) ++ items (line (option_map S ind)) (t :: ts) ++ line ind ++ "}") with
            ("{" ++ (line (option_map S ind) ++ items (line (option_map S ind)) (t :: ts) ++ line ind) ++ "}") by (rewrite !sapp_assoc; reflexivity).
    apply vt_object, items_members; try apply line_white; [|subst vs; discriminate]. rewrite <- M. apply Forall2_map_l.
    match goal with F : Forall (fun kv => utf8 (fst kv) /\ _) _ |- _ => apply Forall_forall; intros x I; pose proof (proj1 (Forall_forall _ _) F x I) as [U X] end.
    unfold g. exists (quote short (fst x)), (match ind with None => "" | Some _ => " " end), (text short (option_map S ind) (snd x)).
    split; [destruct ind; reflexivity|]. split; [destruct ind; [split; [left; reflexivity|exact Logic.I]|exact Logic.I]|].
    split; [rewrite <- (Hu (fst x)) at 2 by assumption; apply quote_text|]. apply (proj1 (Forall_forall _ _) IH x I). exact X.
Qed.

(** *** Without indentation, one line *)
Definition visible_byte (n : Z) : Prop := (32 <= n)%Z.
Lemma esc_visible short a : all_bytes_in visible_byte (esc short a).
Proof.
  unfold esc. destruct (Nat.eqb_spec (byte a) 34) as [E|_]; [cbn [orb]; split; [cbv; discriminate|]; split; [unfold visible_byte; rewrite code_byte, E; lia|exact Logic.I]|].
  destruct (Nat.eqb_spec (byte a) 92) as [E|_]; [cbn [orb]; split; [cbv; discriminate|]; split; [unfold visible_byte; rewrite code_byte, E; lia|exact Logic.I]|]. cbn [orb].
  assert (H : forall n, (n < 16)%nat -> (32 <= code (hex_digit n))%Z) by (intros n Hn; do 16 (destruct n as [|n]; [cbv; discriminate|]); lia).
  destruct (_ && _); [cbv; repeat split; discriminate|]. destruct (_ && _); [cbv; repeat split; discriminate|].
  destruct (Nat.eqb (byte a) 10); [cbv; repeat split; discriminate|]. destruct (Nat.eqb (byte a) 13); [cbv; repeat split; discriminate|].
  destruct (Nat.eqb (byte a) 9); [cbv; repeat split; discriminate|].
  destruct (Nat.ltb (byte a) 32 || Nat.eqb (byte a) 60 || Nat.eqb (byte a) 62 || Nat.eqb (byte a) 38) eqn:T.
  - assert (R : (byte a < 128)%nat) by (rewrite !Bool.orb_true_iff, Nat.ltb_lt, !Nat.eqb_eq in T; lia).
    pose proof (Nat.div_mod (byte a) 16 ltac:(lia)) as D. pose proof (Nat.mod_upper_bound (byte a) 16 ltac:(lia)) as M.
    cbn [all_bytes_in]. unfold visible_byte. repeat split; try (cbv; discriminate); apply H; lia.
  - rewrite !Bool.orb_false_iff, Nat.ltb_ge in T. split; [unfold visible_byte; rewrite code_byte; lia|exact Logic.I].
Qed.
Lemma escaped_visible short : forall k s, (String.length s <= k)%nat -> all_bytes_in visible_byte (escaped short s).
Proof.
  induction k as [|k IH]; intros s L; [destruct s; [exact Logic.I|cbn in L; lia]|].
  destruct s as [|a r]; [exact Logic.I|]. cbn [String.length] in L.
  assert (G : all_bytes_in visible_byte (esc short a ++ escaped short r)) by (apply all_bytes_app; split; [apply esc_visible|apply IH; lia]).
  cbn [escaped]. destruct r as [|b [|c r]]; try exact G. destruct (separator a b c) as [e|] eqn:S; [|exact G]. apply all_bytes_app. cbn [String.length] in L. split; [|apply IH; lia].
  unfold separator in S. destruct (_ && _); [|discriminate]. destruct (Nat.eqb (byte c) 168); [injection S as <-; cbv; repeat split; discriminate|].
  destruct (Nat.eqb (byte c) 169); [|discriminate]. injection S as <-. cbv. repeat split; discriminate.
Qed.
Lemma quote_visible short s : all_bytes_in visible_byte (quote short s).
Proof.
  unfold quote. cbn [all_bytes_in]. split; [cbv; discriminate|]. apply all_bytes_app. split; [apply (escaped_visible short (String.length s)); lia|]. split; [cbv; discriminate|exact Logic.I].
Qed.
Lemma digits_visible d : all_bytes_in is_digit_code d -> all_bytes_in visible_byte d.
Proof. apply all_bytes_impl. unfold is_digit_code, visible_byte. lia. Qed.
Lemma sign_visible sg : sign_part sg -> all_bytes_in visible_byte sg.
Proof. intros [->| ->]; [exact Logic.I|cbv; repeat split; discriminate]. Qed.
Lemma integer_visible s n : integer s n -> all_bytes_in visible_byte s.
Proof.
  intros (sg & ip & m & -> & Hi & _ & Hn). apply all_bytes_app. split; [apply sign_visible; destruct Hn as [[-> _]|[-> _]]; [left|right]; reflexivity|]. apply digits_visible, Hi.
Qed.
Lemma float_visible s : float s -> all_bytes_in visible_byte s.
Proof.
  intros (sg & ip & fp & ep & -> & Hs & Hi & Hf & He & _). rewrite !all_bytes_app. split; [apply sign_visible; exact Hs|]. split; [apply digits_visible, Hi|]. split.
  - destruct Hf as [->|(d & -> & Hd)]; [exact Logic.I|]. split; [cbv; discriminate|apply digits_visible, Hd].
  - destruct He as [->|(e & g & d & -> & H1 & H2 & Hd)]; [exact Logic.I|]. rewrite !all_bytes_app. split; [destruct H1 as [->| ->]; cbv; repeat split; discriminate|].
    split; [destruct H2 as [->|[->| ->]]; cbv; repeat split; discriminate|apply digits_visible, Hd].
Qed.
Lemma items_visible ts : Forall (all_bytes_in visible_byte) ts -> all_bytes_in visible_byte (items "" ts).
Proof.
  induction 1 as [|t ts H F IH]; [exact Logic.I|]. destruct ts as [|t' ts]; [exact H|].
  change (items "" (t :: t' :: ts)) with (t ++ "," ++ "" ++ items "" (t' :: ts)). rewrite !all_bytes_app. repeat split; try exact IH; try exact H; cbv; discriminate.
Qed.
Lemma wrap_visible o c ts : all_bytes_in visible_byte o -> all_bytes_in visible_byte c -> Forall (all_bytes_in visible_byte) ts -> all_bytes_in visible_byte (wrap None o c ts).
Proof. intros Ho Hc F. destruct ts as [|t ts]; cbn [wrap option_map line]; rewrite !all_bytes_app; [auto|]. cbn [all_bytes_in]. repeat split; auto. apply items_visible. exact F. Qed.
Lemma text_visible short : forall v, writable_json v -> all_bytes_in visible_byte (text short None v).
Proof.
  induction v as [|b|n|s|s|l IH|l IH] using json_induction; intros W; inversion W; subst; cbn [text option_map].
  - cbv. repeat split; discriminate.
  - destruct b; cbv; repeat split; discriminate.
  - eapply integer_visible, itoa_integer.
  - apply float_visible. assumption.
  - apply quote_visible.
  - apply wrap_visible; [cbv; repeat split; discriminate..|]. apply Forall_map.
    match goal with F : Forall writable_json _ |- _ => apply Forall_forall; intros x I; apply (proj1 (Forall_forall _ _) IH x I); apply (proj1 (Forall_forall _ _) F x I) end.
  - apply wrap_visible; [cbv; repeat split; discriminate..|]. apply Forall_map.
    match goal with F : Forall (fun kv => utf8 (fst kv) /\ _) _ |- _ => apply Forall_forall; intros x I; pose proof (proj1 (Forall_forall _ _) F x I) as [U X] end.
    rewrite !all_bytes_app. split; [apply quote_visible|]. split; [cbv; repeat split; discriminate|]. apply (proj1 (Forall_forall _ _) IH x I). exact X.
Qed.
Lemma lines_one s r : all_bytes_in visible_byte s -> lines (s ++ String newline r) = s :: lines r.
Proof.
  induction s as [|a s IH]; [reflexivity|]. intros [H1 H2]. cbn [append lines]. unfold visible_byte in H1. destruct (Z.eqb_spec (code a) 10); [lia|]. rewrite IH by exact H2. reflexivity.
Qed.

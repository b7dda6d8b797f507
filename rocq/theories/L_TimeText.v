(** Lemmas about the text of times. *)
From Verif Require Import Go M_Strings L_Strings M_Humanize M_Text L_Text M_Json S_Json S_JsonText M_Time S_Time L_Time.
Open Scope string_scope.
Open Scope Z_scope.

(** *** Digits *)
Lemma code_N a : code a = Z.of_N (N_of_ascii a).
Proof. unfold code, nat_of_ascii. lia. Qed.
Lemma digit_spec a v : digit a = Some v <-> is_digit_code (code a) /\ v = code a - 48.
Proof.
  unfold digit, is_digit_code. rewrite code_N. destruct ((48 <=? Z.of_N (N_of_ascii a)) && (Z.of_N (N_of_ascii a) <=? 57)) eqn:E.
  - rewrite andb_true_iff, !Z.leb_le in E. split; [intros H; injection H as <-; tauto|]. intros [_ ->]. reflexivity.
  - split; [discriminate|]. intros [H _]. rewrite andb_false_iff, !Z.leb_gt in E. lia.
Qed.
Lemma is_digit_spec a : is_digit a = true <-> is_digit_code (code a).
Proof.
  unfold is_digit. destruct (digit a) as [v|] eqn:E; [apply digit_spec in E; tauto|]. split; [discriminate|]. intros H.
  assert (F : digit a = Some (code a - 48)) by (apply digit_spec; auto). rewrite F in E. discriminate.
Qed.
Lemma read_app a b x : read_digits (a ++ b) x = match read_digits a x with Some y => read_digits b y | None => None end.
Proof. revert x. induction a as [|c a IH]; intros x; cbn [append read_digits]; [reflexivity|]. destruct (digit c); [apply IH|reflexivity]. Qed.
Lemma read_value s x : read_digits s 0 = Some x <-> decimal_value s x.
Proof.
  split.
  - assert (G : forall s p n, decimal_value p n -> forall m, read_digits s n = Some m -> decimal_value (p ++ s) m).
    { clear. induction s as [|c s IH]; intros p n D m; cbn [read_digits]; [intros H; injection H as <-; rewrite str_app_nil_r; exact D|].
      destruct (digit c) as [v|] eqn:E; [|discriminate]. apply digit_spec in E. destruct E as [E ->]. intros H.
      assert (A : p ++ String c s = (p ++ String c "") ++ s) by (rewrite <- str_app_assoc; reflexivity). rewrite A.
      eapply IH; [|exact H]. replace (n * 10 + (code c - 48)) with (10 * n + (code c - 48)) by lia. constructor; assumption. }
    intros H. exact (G s "" 0 decimal_value_nil x H).
  - intros H. induction H as [|s n a D IH C]; [reflexivity|]. rewrite read_app, IH. cbn [read_digits]. rewrite (proj2 (digit_spec a (code a - 48))) by auto. f_equal. lia.
Qed.
Lemma read_range s : forall n x, 0 <= n -> read_digits s n = Some x -> n * 10 ^ Z.of_nat (String.length s) <= x < (n + 1) * 10 ^ Z.of_nat (String.length s).
Proof.
  induction s as [|c s IH]; intros n x Hn; cbn [read_digits String.length]; [intros H; injection H as <-; lia|].
  destruct (digit c) as [v|] eqn:E; [|discriminate]. apply digit_spec in E. unfold is_digit_code in E. intros H. apply IH in H; [|lia].
  rewrite Nat2Z.inj_succ, Z.pow_succ_r by lia. nia.
Qed.
Lemma value_app a b x y : decimal_value a x -> decimal_value b y -> decimal_value (a ++ b) (x * 10 ^ Z.of_nat (String.length b) + y).
Proof.
  rewrite <- !read_value. intros A B. rewrite read_app, A.
  assert (G : forall b n m y, read_digits b n = Some y -> read_digits b m = Some (y + (m - n) * 10 ^ Z.of_nat (String.length b))).
  { clear. induction b as [|c b IH]; intros n m y; cbn [read_digits String.length]; [intros H; injection H as <-; f_equal; change (10 ^ Z.of_nat 0) with 1; lia|].
    destruct (digit c) as [v|]; [|discriminate]. intros H. rewrite (IH _ (m * 10 + v) _ H), Nat2Z.inj_succ, Z.pow_succ_r by lia. f_equal. lia. }
  rewrite (G b 0 x y B). f_equal. lia.
Qed.
Lemma value_range s x : decimal_value s x -> 0 <= x < 10 ^ Z.of_nat (String.length s).
Proof. rewrite <- read_value. intros H. apply read_range in H; lia. Qed.
Lemma value_fun s x y : decimal_value s x -> decimal_value s y -> x = y.
Proof. rewrite <- !read_value. congruence. Qed.
Lemma value_split a b n : decimal_value (a ++ b) n -> exists x y, decimal_value a x /\ decimal_value b y /\ n = x * 10 ^ Z.of_nat (String.length b) + y.
Proof.
  intros D. pose proof D as D0. rewrite <- read_value, read_app in D. destruct (read_digits a 0) as [x|] eqn:A; [|discriminate].
  assert (B : exists y, read_digits b 0 = Some y).
  { clear - D. revert D. generalize 0. revert x. induction b as [|c b IH]; intros x z; cbn [read_digits]; [intros _; eauto|]. destruct (digit c); [|discriminate]. apply IH. }
  destruct B as [y B]. apply read_value in A, B. exists x, y. split; [exact A|]. split; [exact B|]. eapply value_fun; [exact D0|]. apply value_app; assumption.
Qed.
Lemma parseUint_spec s min max x : parseUint s min max = Some x <-> decimal_value s x /\ min <= x <= max.
Proof.
  unfold parseUint. rewrite <- read_value. destruct (read_digits s 0) as [y|]; [|split; [discriminate|intros [H _]; discriminate]].
  destruct ((y <? min) || (max <? y)) eqn:E.
  - rewrite orb_true_iff, !Z.ltb_lt in E. split; [discriminate|]. intros [H1 H2]. injection H1 as ->. lia.
  - rewrite orb_false_iff, !Z.ltb_ge in E. split; [intros H; injection H as <-; split; [reflexivity|lia]|]. intros [H _]. exact H.
Qed.

(** *** Writing *)
Lemma digit_char_code v : 0 <= v <= 9 -> is_digit_code (code (digit_char v)) /\ code (digit_char v) - 48 = v.
Proof. intros H. destruct (digit_char_digit v H) as [D _]. apply digit_spec in D. destruct D as [D1 D2]. auto. Qed.
Lemma pad_spec k : forall x rest, 0 <= x < 10 ^ Z.of_nat k -> exists p, pad k x rest = p ++ rest /\ digits_of k p x.
Proof.
  induction k as [|k IH]; intros x rest H; cbn [pad].
  - change (10 ^ Z.of_nat 0) with 1 in H. exists "". split; [reflexivity|]. split; [reflexivity|]. replace x with 0 by lia. constructor.
  - rewrite Nat2Z.inj_succ, Z.pow_succ_r in H by lia. destruct (IH (x / 10) (String (digit_char (x mod 10)) rest)) as (p & -> & L & D); [Zdm|].
    destruct (digit_char_code (x mod 10)) as [C1 C2]; [Zdm|]. exists (p ++ String (digit_char (x mod 10)) ""). split; [rewrite <- str_app_assoc; reflexivity|].
    split; [rewrite str_length_app, L; cbn; lia|]. assert (X : x = 10 * (x / 10) + (code (digit_char (x mod 10)) - 48)) by (rewrite C2; Zdm). rewrite X at 2. constructor; assumption.
Qed.
Fixpoint zeros (n : nat) : string := match n with O => "" | S n => String "0" (zeros n) end.
Lemma zeros_value n : decimal_value (zeros n) 0.
Proof. rewrite <- read_value. induction n as [|n IH]; [reflexivity|]. cbn. exact IH. Qed.
Lemma zeros_length n : String.length (zeros n) = n. Proof. induction n; cbn; congruence. Qed.
Lemma trim_spec s : exists n, s = trim_zeros s ++ zeros n.
Proof.
  induction s as [|c s [n IH]]; [exists 0%nat; reflexivity|]. cbn [trim_zeros]. destruct (trim_zeros s) as [|a r] eqn:E.
  - destruct (Ascii.eqb_spec c "0") as [->|].
    + exists (S n). cbn. cbn in IH. congruence.
    + exists n. cbn. cbn in IH. congruence.
  - exists n. rewrite IH at 1. reflexivity.
Qed.
Lemma appendNano_spec ns : 0 <= ns < 10 ^ 9 -> fraction_is (appendNano ns) ns.
Proof.
  intros H. unfold appendNano. destruct (Z.eqb_spec ns 0) as [->|N]; [left; auto|]. right.
  destruct (pad_spec 9 ns "" H) as (p & E & L & D). rewrite E, str_app_nil_r. destruct (trim_spec p) as [n T]. set (q := trim_zeros p) in *. clearbody q.
  assert (DD : decimal_value (q ++ zeros n) ns) by (rewrite <- T; exact D). apply value_split in DD. destruct DD as (x & y & X & Y & EN). pose proof (value_fun _ _ _ Y (zeros_value n)) as Y0. subst y.
  rewrite zeros_length in EN. exists q, x. split; [reflexivity|]. split; [intros ->; inversion X; [lia|destruct s; discriminate]|]. split; [exact X|].
  assert (LL : (String.length q + n = 9)%nat) by (rewrite <- L, T, str_length_app, zeros_length; reflexivity).
  replace 9 with (Z.of_nat n + Z.of_nat (String.length q)) by lia. rewrite Z.pow_add_r by lia. rewrite Z.mul_assoc, Z.div_mul by (apply Z.pow_nonzero; lia). lia.
Qed.

(** *** Fractions and zones *)
Lemma leading_spec s d x : leading_digits s = (d, x) -> s = d ++ x /\ (exists n, decimal_value d n) /\ match x with "" => True | String c _ => is_digit c = false end.
Proof.
  revert d x. induction s as [|c s IH]; intros d x; cbn [leading_digits].
  - intros H. injection H as <- <-. split; [reflexivity|]. split; [exists 0; constructor|exact Logic.I].
  - destruct (is_digit c) eqn:E.
    + destruct (leading_digits s) as [d' x'] eqn:L. intros H. injection H as <- <-. destruct (IH _ _ eq_refl) as (-> & [n D] & X). split; [reflexivity|]. split; [|exact X].
      apply is_digit_spec in E. assert (D1 : decimal_value (String c "") (code c - 48)). { replace (code c - 48) with (10 * 0 + (code c - 48)) by lia. apply (decimal_value_snoc "" 0 c); [constructor|exact E]. }
      eexists. exact (value_app (String c "") d' _ _ D1 D).
    + intros H. injection H as <- <-. split; [reflexivity|]. split; [exists 0; constructor|exact E].
Qed.
Lemma leading_app d n x : decimal_value d n -> match x with "" => True | String c _ => is_digit c = false end -> leading_digits (d ++ x) = (d, x).
Proof.
  intros D X. apply read_value in D. revert D. generalize 0. intros z. revert z. induction d as [|c d IH]; intros z; cbn [append read_digits leading_digits].
  - intros _. destruct x as [|c x]; [reflexivity|]. cbn [leading_digits]. rewrite X. reflexivity.
  - unfold is_digit. destruct (digit c) as [v|]; [|discriminate]. intros H. rewrite (IH _ H). reflexivity.
Qed.
Lemma parseNano_spec d n : decimal_value d n -> parseNanoseconds d = Some (n * 10 ^ 9 / 10 ^ Z.of_nat (String.length d)).
Proof.
  intros D. unfold parseNanoseconds. destruct (Nat.le_gt_cases (String.length d) 9) as [L|L].
  - assert (E : substring 0 9 d = d).
    { clear D n. revert L. generalize 9%nat. induction d as [|c d IH]; intros [|k]; cbn; try reflexivity; try lia. intros H. rewrite IH by lia. reflexivity. }
    rewrite E. rewrite (proj2 (read_value d n) D). f_equal. replace 9 with (9 - Z.of_nat (String.length d) + Z.of_nat (String.length d)) at 2 by lia. rewrite Z.pow_add_r by lia.
    rewrite Z.mul_assoc, Z.div_mul by (apply Z.pow_nonzero; lia). reflexivity.
  - pose proof (substring_split d 9 ltac:(lia)) as E. set (a := substring 0 9 d) in *. set (b := substring 9 _ d) in *.
    assert (La : String.length a = 9%nat).
    { unfold a. clear - L. assert (G : forall k d, (k < String.length d)%nat -> String.length (substring 0 k d) = k). { induction k as [|k IH]; intros [|c s]; cbn; try lia. intros H. rewrite IH; lia. } apply G. exact L. }
    clearbody a b. subst d. apply value_split in D. destruct D as (x & y & X & Y & ->). rewrite (proj2 (read_value a x) X), La, str_length_app, La. f_equal.
    pose proof (value_range _ _ Y) as R. set (k := Z.of_nat (String.length b)) in *. replace (Z.of_nat (9 + String.length b)) with (9 + k) by lia. rewrite Z.pow_add_r by lia.
    rewrite (Z.mul_comm (10 ^ 9) (10 ^ k)). rewrite Z.div_mul_cancel_r by (try apply Z.pow_nonzero; lia).
    rewrite Z.div_add_l by lia. rewrite Z.div_small by lia. change (9 - Z.of_nat 9) with 0. lia.
Qed.
Lemma parseFraction_ok frac ns zone : fraction_is frac ns -> match zone with "" => True | String c _ => is_digit c = false /\ c <> "."%char end -> parseFraction (frac ++ zone) = Some (ns, zone).
Proof.
  intros [[-> ->]|(d & x & -> & N & D & ->)] Z.
  - cbn [append]. destruct zone as [|c z]; [reflexivity|]. cbn [parseFraction]. destruct (Ascii.eqb_spec c "."); [tauto|reflexivity].
  - cbn [append parseFraction]. change (Ascii.eqb "." ".") with true. cbv iota. rewrite (leading_app d x zone D) by (destruct zone; [exact Logic.I|apply Z]).
    rewrite (parseNano_spec d x D). destruct d; [congruence|reflexivity].
Qed.
Lemma parseFraction_inv s ns r o : parseFraction s = Some (ns, r) -> parseZone r = Some o -> exists frac, s = frac ++ r /\ fraction_is frac ns.
Proof.
  destruct s as [|c s]; cbn [parseFraction]; [intros H; injection H as <- <-; discriminate|].
  destruct (Ascii.eqb_spec c ".") as [->|].
  - destruct (leading_digits s) as [d x] eqn:L. apply leading_spec in L. destruct L as (-> & [n D] & X). destruct d as [|a d].
    + intros H. injection H as <- <-. unfold parseZone. cbn [append String.eqb Ascii.eqb Bool.eqb]. destruct (negb _); [discriminate|].
      destruct (parseUint (substring 1 2 _) 0 23); [|discriminate]. destruct (parseUint (substring 4 2 _) 0 59); [|discriminate]. destruct (byte_is _ 3 ":"); cbn; discriminate.
    + rewrite (parseNano_spec _ n D). intros H _. injection H as <- <-. exists (String "." (String a d)). split; [reflexivity|]. right. exists (String a d), n. split; [reflexivity|]. split; [discriminate|]. split; [exact D|reflexivity].
  - intros H _. injection H as <- <-. exists "". split; [reflexivity|left; auto].
Qed.
Lemma two_of s x : digits_of 2 s x -> exists a b, s = String a (String b "").
Proof. intros [L _]. destruct s as [|a [|b [|c s]]]; try discriminate. eauto. Qed.
Lemma four_of s x : digits_of 4 s x -> exists a b c d, s = String a (String b (String c (String d ""))).
Proof. intros [L _]. destruct s as [|a [|b [|c [|d [|e s]]]]]; try discriminate. eauto 6. Qed.
Lemma byte_is_spec s n c a : String.get n s = Some a -> byte_is s n c = true <-> a = c.
Proof. intros E. unfold byte_is. rewrite E. apply Ascii.eqb_eq. Qed.
Lemma parseZone_spec s o : parseZone s = Some o <-> zone_is s o.
Proof.
  split.
  - unfold parseZone. destruct (String.eqb_spec s "Z") as [->|]; [intros H; injection H as <-; left; auto|]. destruct (Nat.eqb_spec (String.length s) 6) as [L|]; [cbn [negb]|discriminate].
    destruct s as [|a [|b [|c [|d [|e [|f [|g s]]]]]]]; try discriminate. cbn [substring].
    destruct (parseUint (String b (String c "")) 0 23) as [h|] eqn:E1; [|discriminate]. destruct (parseUint (String e (String f "")) 0 59) as [m|] eqn:E2; [|discriminate].
    apply parseUint_spec in E1, E2. unfold byte_is. cbn [String.get]. destruct (Ascii.eqb_spec d ":") as [->|]; [|discriminate].
    intros H. right. exists a, (String b (String c "")), h, (String e (String f "")), m. split; [reflexivity|]. split; [split; [reflexivity|tauto]|]. split; [split; [reflexivity|tauto]|].
    split; [lia|]. split; [lia|]. destruct (Ascii.eqb_spec a "-") as [->|]; [injection H as <-; right; split; [reflexivity|lia]|]. destruct (Ascii.eqb_spec a "+") as [->|]; [injection H as <-; left; split; [reflexivity|lia]|discriminate].
  - intros [[-> ->]|(sg & hh & h & mm & m & -> & H & M & Hh & Hm & S)]; [reflexivity|].
    destruct (two_of _ _ H) as (b & c & ->). destruct (two_of _ _ M) as (e & f & ->). unfold parseZone. cbn [append].
    destruct (String.eqb_spec (String sg (String b (String c (String ":" (String e (String f "")))))) "Z") as [Q|_]; [destruct S as [[-> _]|[-> _]]; discriminate|].
    cbn [String.length Nat.eqb negb substring]. rewrite (proj2 (parseUint_spec (String b (String c "")) 0 23 h)) by (destruct H as [_ H]; pose proof (value_range _ _ H); split; [exact H|lia]).
    rewrite (proj2 (parseUint_spec (String e (String f "")) 0 59 m)) by (destruct M as [_ M]; pose proof (value_range _ _ M); split; [exact M|lia]).
    unfold byte_is. cbn [String.get]. change (Ascii.eqb ":" ":") with true. cbv iota. destruct S as [[-> ->]|[-> ->]]; cbn [Ascii.eqb Bool.eqb]; f_equal; lia.
Qed.
Lemma zone_first s o : zone_is s o -> match s with "" => True | String c _ => is_digit c = false /\ c <> "."%char end.
Proof. intros [[-> _]|(sg & hh & h & mm & m & -> & _ & _ & _ & _ & [[-> _]|[-> _]])]; split; (reflexivity || discriminate). Qed.

(** *** Times *)
Lemma substring_0 s : substring 0 0 s = "". Proof. destruct s; reflexivity. Qed.
Lemma skip_19 c0 c1 c2 c3 c4 c5 c6 c7 c8 c9 c10 c11 c12 c13 c14 c15 c16 c17 c18 r :
  str_skip 19 (String c0 (String c1 (String c2 (String c3 (String c4 (String c5 (String c6 (String c7 (String c8 (String c9 (String c10 (String c11 (String c12 (String c13 (String c14 (String c15 (String c16 (String c17 (String c18 r))))))))))))))))))) = r.
Proof. unfold str_skip. cbn [String.length Nat.sub substring]. rewrite Nat.sub_0_r. apply substring_all. Qed.
Lemma parse_spec s t : parseRFC3339 s = Some t <-> means s t.
Proof.
  split.
  - unfold parseRFC3339. destruct (Nat.ltb_spec (String.length s) 19) as [|L]; [discriminate|].
    do 19 (destruct s as [|? s]; [cbn in L; lia|]). clear L. rewrite skip_19. cbn [substring]. rewrite ?substring_0. unfold byte_is. cbn [String.get].
    destruct (parseUint _ 0 9999) as [year|] eqn:E1; [|discriminate]. destruct (parseUint _ 1 12) as [month|] eqn:E2; [|discriminate].
    destruct (parseUint _ 1 (daysIn month year)) as [day|] eqn:E3; [|discriminate]. destruct (parseUint _ 0 23) as [hour|] eqn:E4; [|discriminate].
    destruct (parseUint _ 0 59) as [mi|] eqn:E5 in |- *; [|discriminate]. destruct (parseUint _ 0 59) as [sec|] eqn:E6 in |- *; [|discriminate].
    match goal with |- context [if ?b then _ else _] => destruct b eqn:EB; [|discriminate] end. rewrite !andb_true_iff, !Ascii.eqb_eq in EB. destruct EB as [[[[-> ->] ->] ->] ->].
    destruct (parseFraction s) as [[ns r]|] eqn:EF; [|discriminate]. destruct (parseZone r) as [o|] eqn:EZ; [|discriminate].
    intros H. injection H as <-. destruct (parseFraction_inv _ _ _ _ EF EZ) as (frac & -> & Fr). apply parseZone_spec in EZ.
    apply parseUint_spec in E1, E2, E3, E4, E5, E6. destruct E1 as [E1 B1], E2 as [E2 B2], E3 as [E3 B3], E4 as [E4 B4], E5 as [E5 B5], E6 as [E6 B6].
    do 6 eexists. exists frac, r, year, month, day, hour, mi, sec, ns, o, (day_of year month day).
    split; [|split; [split; [|exact E1]|split; [split; [|exact E2]|split; [split; [|exact E3]|split; [split; [|exact E4]|split; [split; [|exact E5]|split; [split; [|exact E6]|]]]]]]]; [reflexivity..|].
    split; [lia|]. split; [lia|]. split; [lia|]. split; [exact Fr|]. split; [exact EZ|]. split; [|reflexivity].
    apply day_is_date. split; [|reflexivity]. apply is_date_spec. rewrite daysIn_mlen in B3. auto.
  - intros (Y & M & D & h & m & sc & frac & zone & year & month & day & hour & mi & sec & ns & o & n & -> & HY & HM & HD & Hh & Hm & Hs & Bh & Bm & Bs & Fr & Zn & Day & ->).
    apply day_is_date in Day. destruct Day as [Da <-]. apply is_date_spec in Da. cbn [day_of_date].
    destruct (four_of _ _ HY) as (y1 & y2 & y3 & y4 & ->). destruct (two_of _ _ HM) as (m1 & m2 & ->). destruct (two_of _ _ HD) as (d1 & d2 & ->).
    destruct (two_of _ _ Hh) as (h1 & h2 & ->). destruct (two_of _ _ Hm) as (i1 & i2 & ->). destruct (two_of _ _ Hs) as (s1 & s2 & ->).
    destruct HY as [_ HY], HM as [_ HM], HD as [_ HD], Hh as [_ Hh], Hm as [_ Hm], Hs as [_ Hs].
    unfold parseRFC3339. cbn [append]. rewrite skip_19. cbn [String.length Nat.ltb Nat.leb substring]. rewrite ?substring_0. unfold byte_is. cbn [String.get]. rewrite !Ascii.eqb_refl. cbn [andb].
    pose proof (value_range _ _ HY) as RY. pose proof (value_range _ _ Hh). pose proof (value_range _ _ Hm). pose proof (value_range _ _ Hs). cbn in RY.
    rewrite (proj2 (parseUint_spec _ 0 9999 year)) by (split; [exact HY|lia]). rewrite (proj2 (parseUint_spec _ 1 12 month)) by (split; [exact HM|lia]).
    rewrite (proj2 (parseUint_spec _ 1 (daysIn month year) day)) by (split; [exact HD|rewrite daysIn_mlen; tauto]).
    rewrite (proj2 (parseUint_spec _ 0 23 hour)) by (split; [exact Hh|lia]). rewrite (proj2 (parseUint_spec _ 0 59 mi)) by (split; [exact Hm|lia]). rewrite (proj2 (parseUint_spec _ 0 59 sec)) by (split; [exact Hs|lia]).
    rewrite (parseFraction_ok _ _ _ Fr (zone_first _ _ Zn)). rewrite (proj2 (parseZone_spec _ _) Zn). reflexivity.
Qed.
Lemma rfc3339_means t s : rfc3339 t = Some s -> means s t.
Proof.
  unfold rfc3339. change Second with (10 ^ 9). destruct (absDate (t / 10 ^ 9 / 86400)) as [[year month] day] eqn:E.
  destruct ((0 <=? year) && (year <=? 9999)) eqn:B; [|discriminate]. rewrite andb_true_iff, !Z.leb_le in B. intros H. match type of H with Some ?x = Some s => assert (Es : x = s) by congruence end. rewrite <- Es. clear H Es.
  pose proof E as Day. apply day_is_spec in Day. pose proof (proj1 (absDate_spec (t / 10 ^ 9 / 86400))) as V. rewrite E in V. apply is_date_spec in V.
  assert (D31 : mlen (isLeap year) month <= 31) by (destruct V as [V _]; apply in_months in V; unfold months in V; cbn [In] in V; repeat (destruct V as [<-|V]; [destruct (isLeap year); vm_compute; congruence|]); destruct V).
  set (clock := t / 10 ^ 9 mod 86400). assert (C : 0 <= clock < 86400) by (apply Z.mod_pos_bound; lia).
  assert (P2 : forall x rest, 0 <= x <= 99 -> exists p, pad 2 x rest = p ++ rest /\ digits_of 2 p x) by (intros x rest Hx; apply pad_spec; change (10 ^ Z.of_nat 2) with 100; lia).
  destruct (P2 (clock mod 60) (appendNano (t mod 10 ^ 9) ++ "Z")) as (p6 & -> & D6); [Zdm|]. destruct (P2 (clock mod 3600 / 60) (":" ++ p6 ++ appendNano (t mod 10 ^ 9) ++ "Z")) as (p5 & -> & D5); [Zdm|].
  destruct (P2 (clock / 3600) (":" ++ p5 ++ ":" ++ p6 ++ appendNano (t mod 10 ^ 9) ++ "Z")) as (p4 & -> & D4); [Zdm|].
  destruct (P2 day ("T" ++ p4 ++ ":" ++ p5 ++ ":" ++ p6 ++ appendNano (t mod 10 ^ 9) ++ "Z")) as (p3 & -> & D3); [lia|].
  destruct (P2 month ("-" ++ p3 ++ "T" ++ p4 ++ ":" ++ p5 ++ ":" ++ p6 ++ appendNano (t mod 10 ^ 9) ++ "Z")) as (p2 & -> & D2); [lia|].
  destruct (pad_spec 4 year ("-" ++ p2 ++ "-" ++ p3 ++ "T" ++ p4 ++ ":" ++ p5 ++ ":" ++ p6 ++ appendNano (t mod 10 ^ 9) ++ "Z")) as (p1 & -> & D1); [change (10 ^ Z.of_nat 4) with 10000; lia|].
  exists p1, p2, p3, p4, p5, p6.
  exists (appendNano (t mod 10 ^ 9)), "Z", year, month, day, (clock / 3600), (clock mod 3600 / 60), (clock mod 60), (t mod 10 ^ 9), 0, (t / 10 ^ 9 / 86400).
  split; [reflexivity|]. do 6 (split; [assumption|]). split; [Zdm|]. split; [Zdm|]. split; [Zdm|]. split; [apply appendNano_spec; apply Z.mod_pos_bound; lia|]. split; [left; auto|]. split; [exact Day|].
  pose proof (Z.div_mod t (10 ^ 9) ltac:(lia)) as T. pose proof (Z.div_mod (t / 10 ^ 9) 86400 ltac:(lia)) as T2. fold clock in T2.
  assert (T3 : clock = clock / 3600 * 3600 + clock mod 3600 / 60 * 60 + clock mod 60) by Zdm. 
  replace (t / 10 ^ 9 / 86400 * 86400 + clock / 3600 * 3600 + clock mod 3600 / 60 * 60 + clock mod 60 - 0) with (t / 10 ^ 9) by lia. lia.
Qed.

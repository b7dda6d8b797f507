(** Lemmas on the times and ages of the search page. *)
From Coq Require Import ZArith QArith Qround Lqa Lia.
From Verif Require Import Go L_List M_Strings M_Humanize M_Text L_Text S_JsonText L_JsonText L_JsonRead L_JsonWrite M_Time S_Time L_Time L_TimeText M_Float L_Float M_Ages S_Ages.
Open Scope string_scope.
Open Scope Z_scope.

(** *** The quotient of float64 numbers, rounded down *)
Lemma floor_div_exact n d : 0 <= n < 2 ^ 53 -> 0 < d < 2 ^ 53 -> floor_div n d = n / d.
Proof.
  intros Hn Hd. unfold floor_div. assert (D : (0 < inject_Z d)%Q) by (apply inject_pos; lia).
  destruct (Z.eq_dec n 0) as [->|N0].
  { assert (E : (inject_Z 0 / inject_Z d == 0)%Q) by (unfold Qdiv; change (inject_Z 0) with 0%Q; ring). rewrite (round_zero _ E). rewrite Z.div_0_l by lia. reflexivity. }
  set (k := n / d). assert (Hk : k * d <= n < (k + 1) * d) by (unfold k; Zdm).
  assert (K0 : 0 <= k <= 2 ^ 53) by (split; [apply Z.div_pos; lia|]; apply Z.div_le_upper_bound; nia).
  apply floor_unique. split.
  - rewrite <- (round_int k) by lia. apply round_mono. apply Qle_shift_div_l; [exact D|]. rewrite <- inject_Z_mult, <- Zle_Qle. lia.
  - set (x := (inject_Z n / inject_Z d)%Q). assert (X : (x * inject_Z d == inject_Z n)%Q) by (unfold x; field; intros E; rewrite E in D; revert D; apply Qlt_irrefl).
    assert (L : (two (-1022) <= x)%Q).
    { apply Qle_trans with (two (-53)); [apply two_le; lia|]. unfold x. apply Qle_shift_div_l; [exact D|].
      apply Qle_trans with (two (-53) * inject_Z (2 ^ 53))%Q; [apply Qmult_le_l; [apply two_pos|]; rewrite <- Zle_Qle; lia|].
      apply Qle_trans with 1%Q; [vm_compute; discriminate|]. change 1%Q with (inject_Z 1). rewrite <- Zle_Qle. lia. }
    destruct (round_error x L) as [_ U]. apply Qle_lt_trans with (1 := U).
    (* multiply by d *)
    apply (Qmult_lt_r _ _ (inject_Z d) D).
    assert (E1 : (x * (1 + two (-53)) * inject_Z d == inject_Z n + inject_Z n * two (-53))%Q).
    { transitivity ((x * inject_Z d) * (1 + two (-53)))%Q; [ring|]. rewrite X. ring. }
    rewrite E1.
    assert (E3 : (inject_Z n + 1 <= (inject_Z k + 1) * inject_Z d)%Q).
    { change 1%Q with (inject_Z 1). rewrite <- !inject_Z_plus, <- inject_Z_mult, <- Zle_Qle. lia. }
    assert (E4 : (inject_Z n * two (-53) < 1)%Q).
    { apply Qlt_le_trans with (inject_Z (2 ^ 53) * two (-53))%Q; [apply Qmult_lt_r; [apply two_pos|]; rewrite <- Zlt_Qlt; lia|]. vm_compute. discriminate. }
    lra.
Qed.

Lemma floor_div_neg n d : n <= 0 -> 0 < d -> floor_div n d <= 0.
Proof.
  intros Hn Hd. unfold floor_div. assert (D : (0 < inject_Z d)%Q) by (apply inject_pos; lia).
  assert (H : (inject_Z n / inject_Z d <= 0)%Q) by (apply Qle_shift_div_r; [exact D|]; rewrite Qmult_0_l; change 0%Q with (inject_Z 0); rewrite <- Zle_Qle; exact Hn).
  apply round_mono in H. change (round 0) with 0%Q in H. pose proof (floor_spec (round (inject_Z n / inject_Z d))) as [F _].
  rewrite Zle_Qle. change (inject_Z 0) with 0%Q. eapply Qle_trans; eassumption.
Qed.
Lemma take_exact unit ms : 0 <= ms < 2 ^ 53 -> 0 < unit < 2 ^ 53 -> take unit ms = (ms / unit, ms mod unit).
Proof.
  intros H U. unfold take. rewrite (floor_div_exact ms unit H U). f_equal. destruct (Z.ltb_spec 0 (ms / unit)) as [L|L]; [Zdm|].
  assert (E : ms / unit = 0) by (pose proof (Z.div_pos ms unit ltac:(lia) ltac:(lia)); lia). rewrite Z.mod_eq by lia. rewrite E. lia.
Qed.
Lemma take_neg unit ms : ms <= 0 -> 0 < unit -> exists n, take unit ms = (n, ms) /\ n <= 0.
Proof.
  intros H U. unfold take. pose proof (floor_div_neg ms unit H U) as F. exists (floor_div ms unit). destruct (Z.ltb_spec 0 (floor_div ms unit)); [lia|]. auto.
Qed.

(** *** The age *)
Lemma since_neg ms : ms <= 0 -> since ms = "fresh".
Proof.
  intros H. unfold since.
  destruct (take_neg (86400 * 1000) ms H ltac:(lia)) as (n1 & -> & N1). destruct (take_neg (3600 * 1000) ms H ltac:(lia)) as (n2 & -> & N2).
  destruct (take_neg (60 * 1000) ms H ltac:(lia)) as (n3 & -> & N3). destruct (take_neg (1 * 1000) ms H ltac:(lia)) as (n4 & -> & N4).
  repeat match goal with |- context [0 <? ?x] => destruct (Z.ltb_spec 0 x); [lia|] end. reflexivity.
Qed.
Lemma since_says ms : 0 <= ms < 2 ^ 53 -> exists v u, says (since ms) v u /\ v <= ms < v + u.
Proof.
  intros H. unfold since. assert (P53 : 86400000 < 2 ^ 53) by reflexivity.
  rewrite take_exact by lia. set (d := ms / (86400 * 1000)). set (m1 := ms mod (86400 * 1000)). assert (A1 : 0 <= d /\ 0 <= m1 < 86400000 /\ ms = d * 86400000 + m1) by (unfold d, m1; clear P53; Zdm). clearbody d m1.
  rewrite take_exact by lia. set (h := m1 / (3600 * 1000)). set (m2 := m1 mod (3600 * 1000)). assert (A2 : 0 <= h < 24 /\ 0 <= m2 < 3600000 /\ m1 = h * 3600000 + m2) by (unfold h, m2; clear P53; Zdm). clearbody h m2.
  rewrite take_exact by lia. set (m := m2 / (60 * 1000)). set (m3 := m2 mod (60 * 1000)). assert (A3 : 0 <= m < 60 /\ 0 <= m3 < 60000 /\ m2 = m * 60000 + m3) by (unfold m, m3; clear P53; Zdm). clearbody m m3.
  rewrite take_exact by lia. set (s := m3 / (1 * 1000)). set (m4 := m3 mod (1 * 1000)). assert (A4 : 0 <= s < 60 /\ 0 <= m4 < 1000 /\ m3 = s * 1000 + m4) by (unfold s, m4; clear P53; Zdm). clearbody s m4.
  clear P53. unfold a_day, an_hour, a_minute, a_second in *.
  destruct (Z.ltb_spec 0 d); [eexists _, _; split; [apply says_days; lia|unfold a_day, an_hour, a_minute, a_second; lia]|].
  destruct (Z.ltb_spec 0 h); [eexists _, _; split; [apply says_hours; lia|unfold a_day, an_hour, a_minute, a_second; lia]|].
  destruct (Z.ltb_spec 0 m); [eexists _, _; split; [apply says_minutes; lia|unfold a_day, an_hour, a_minute, a_second; lia]|].
  destruct (Z.ltb_spec 0 s); [eexists _, _; split; [apply says_seconds; lia|unfold a_day, an_hour, a_minute, a_second; lia]|].
  destruct (Z.ltb_spec 0 m4); [eexists _, _; split; [apply says_milliseconds; lia|lia]|]. eexists _, _; split; [apply says_fresh|lia].
Qed.

(** *** What a text says *)
(** the text is read from the left *)
Definition no_digit_first (s : string) : Prop := match s with "" => True | String c _ => is_digit c = false end.
Lemma itoa_leading n rest : 0 <= n -> no_digit_first rest -> exists p, leading_digits (itoa n ++ rest) = (p, rest) /\ decimal_value p n /\ p <> "".
Proof.
  intros H R. exists (itoa n). destruct (itoa_integer_part n H) as [I V]. split; [apply (leading_app (itoa n) n); assumption|]. split; [exact V|].
  pose proof (itoa_length n H) as L. intros E. rewrite E in L. cbn in L. lia.
Qed.
Lemma number_inj n m r r' : 0 <= n -> 0 <= m -> no_digit_first r -> no_digit_first r' -> itoa n ++ r = itoa m ++ r' -> n = m /\ r = r'.
Proof.
  intros N M R R' E. destruct (itoa_leading n r N R) as (p & L & V & _). destruct (itoa_leading m r' M R') as (p' & L' & V' & _).
  rewrite E, L' in L. injection L as -> ->. split; [eapply value_fun; eassumption|reflexivity].
Qed.
Lemma number_letter n r c s : 0 <= n -> itoa n ++ r = String c s -> is_digit c = true.
Proof. intros H E. pose proof (itoa_head n r H) as K. rewrite E in K. exact K. Qed.
Lemma says_fun s v u v' u' : says s v u -> says s v' u' -> v = v' /\ u = u'.
Proof.
  intros H H'. destruct H as [d h D1 D2|h m D1 D2|m sc D1 D2|sc D1|ms D1|]; inversion H' as [d' h' D1' D2' E E1 E2|h' m' D1' D2' E E1 E2|m' s' D1' D2' E E1 E2|s' D1' E E1 E2|ms' D1' E E1 E2|E E1 E2]; subst; auto;
    try (apply number_letter in E; [discriminate E|lia]); try (symmetry in E; apply number_letter in E; [discriminate E|lia]);
    (apply number_inj in E; [|lia|lia|reflexivity|reflexivity]; destruct E as [E E']; subst; try discriminate E'; auto).
  all: cbn [append] in E'; injection E' as E'; try discriminate E'.
  all: try (apply number_inj in E'; [|lia|lia|reflexivity|reflexivity]; destruct E' as [E' _]; subst; auto).
  all: try (symmetry in E'; apply number_letter in E'; [discriminate E'|lia]).
  all: try (apply number_letter in E'; [discriminate E'|lia]).
Qed.
(** the value is determined by the age *)
Definition shown (a : Z) : Z :=
  if a <? a_second then a else if a <? an_hour then a / a_second * a_second else if a <? a_day then a / a_minute * a_minute else a / an_hour * an_hour.
Lemma says_shown s v u a : says s v u -> v <= a < v + u -> v = shown a.
Proof.
  intros H A. unfold shown. destruct H as [d h D1 D2|h m D1 D2|m sc D1 D2|sc D1|ms D1|]; unfold a_day, an_hour, a_minute, a_second in *;
    repeat match goal with |- context [a <? ?x] => destruct (Z.ltb_spec a x); [try lia; try Zdm|try lia] end; try Zdm.
Qed.
Lemma shown_mono a b : a <= b -> shown a <= shown b.
Proof.
  intros H. unfold shown, a_day, an_hour, a_minute, a_second. repeat match goal with |- context [?y <? ?x] => destruct (Z.ltb_spec y x); try lia end; Zdm.
Qed.
Lemma says_nonneg s v u : says s v u -> 0 <= v.
Proof. unfold a_day, an_hour, a_minute, a_second. intros H. destruct H; unfold a_day, an_hour, a_minute, a_second; lia. Qed.

(** *** The time of day *)
Lemma pad_compare k : forall x y r r', 0 <= x < 10 ^ Z.of_nat k -> 0 <= y < 10 ^ Z.of_nat k ->
  String.compare (pad k x r) (pad k y r') = match x ?= y with Eq => String.compare r r' | c => c end.
Proof.
  induction k as [|k IH]; intros x y r r' X Y.
  - change (10 ^ Z.of_nat 0) with 1 in *. replace y with x by lia. rewrite Z.compare_refl. reflexivity.
  - cbn [pad]. rewrite Nat2Z.inj_succ, Z.pow_succ_r in X, Y by lia.
    rewrite IH by (split; [apply Z.div_pos; lia|apply Z.div_lt_upper_bound; lia]).
    assert (DX : 0 <= x mod 10 <= 9) by Zdm. assert (DY : 0 <= y mod 10 <= 9) by Zdm.
    assert (C : forall c : comparison, String.compare (String (digit_char (x mod 10)) r) (String (digit_char (y mod 10)) r') = match x mod 10 ?= y mod 10 with Eq => String.compare r r' | c => c end).
    { intros _. destruct (digit_char_code _ DX) as [_ CX]. destruct (digit_char_code _ DY) as [_ CY]. rewrite code_N in CX, CY. cbn [String.compare]. unfold Ascii.compare.
      destruct (Z.compare_spec (x mod 10) (y mod 10)) as [E|E|E].
      - assert (E2 : (N_of_ascii (digit_char (x mod 10)) ?= N_of_ascii (digit_char (y mod 10)))%N = Eq) by (apply N.compare_eq_iff; lia). rewrite E2. reflexivity.
      - assert (E2 : (N_of_ascii (digit_char (x mod 10)) ?= N_of_ascii (digit_char (y mod 10)))%N = Lt) by (apply N.compare_lt_iff; lia). rewrite E2. reflexivity.
      - assert (E2 : (N_of_ascii (digit_char (x mod 10)) ?= N_of_ascii (digit_char (y mod 10)))%N = Gt) by (apply N.compare_gt_iff; lia). rewrite E2. reflexivity. }
    rewrite (C Eq). clear C. destruct (Z.compare_spec (x / 10) (y / 10)) as [E|E|E].
    + destruct (Z.compare_spec (x mod 10) (y mod 10)) as [F|F|F]; destruct (Z.compare_spec x y) as [G|G|G]; try reflexivity; exfalso; revert E F G; clear; Zdm.
    + destruct (Z.compare_spec x y) as [G|G|G]; try reflexivity; exfalso; revert E G; clear; Zdm.
    + destruct (Z.compare_spec x y) as [G|G|G]; try reflexivity; exfalso; revert E G; clear; Zdm.
Qed.
(** a common byte does not count *)
Lemma compare_cons c r r' : String.compare (String c r) (String c r') = String.compare r r'.
Proof. cbn [String.compare]. unfold Ascii.compare. rewrite N.compare_refl. reflexivity. Qed.
Lemma clock_compare t t' : String.compare (TimeTrunc t) (TimeTrunc t') = (t mod (86400 * 10 ^ 9) / 1000 ?= t' mod (86400 * 10 ^ 9) / 1000).
Proof.
  unfold TimeTrunc. change Second with (10 ^ 9).
  set (c := t / 10 ^ 9 mod 86400). set (c' := t' / 10 ^ 9 mod 86400). set (f := t mod 10 ^ 9). set (f' := t' mod 10 ^ 9).
  assert (C : 0 <= c < 86400) by (apply Z.mod_pos_bound; lia). assert (C' : 0 <= c' < 86400) by (apply Z.mod_pos_bound; lia).
  assert (F : 0 <= f < 10 ^ 9) by (apply Z.mod_pos_bound; lia). assert (F' : 0 <= f' < 10 ^ 9) by (apply Z.mod_pos_bound; lia).
  assert (E : t mod (86400 * 10 ^ 9) = c * 10 ^ 9 + f) by (unfold c, f; clear; Zdm).
  assert (E' : t' mod (86400 * 10 ^ 9) = c' * 10 ^ 9 + f') by (unfold c', f'; clear; Zdm).
  rewrite E, E'. clearbody c c' f f'. clear E E' t t'.
  rewrite pad_compare by (change (10 ^ Z.of_nat 2) with 100; Zdm). cbn [append]. rewrite compare_cons.
  rewrite pad_compare by (change (10 ^ Z.of_nat 2) with 100; Zdm). rewrite compare_cons.
  rewrite pad_compare by (change (10 ^ Z.of_nat 2) with 100; Zdm). rewrite compare_cons.
  rewrite pad_compare by (change (10 ^ Z.of_nat 6) with 1000000; Zdm). cbn [String.compare].
  replace ((c * 10 ^ 9 + f) / 1000) with (c * 1000000 + f / 1000) by (clear; Zdm). replace ((c' * 10 ^ 9 + f') / 1000) with (c' * 1000000 + f' / 1000) by (clear; Zdm).
  assert (G : 0 <= f / 1000 < 1000000) by (revert F; clear; Zdm). assert (G' : 0 <= f' / 1000 < 1000000) by (revert F'; clear; Zdm).
  set (u := f / 1000) in *. set (u' := f' / 1000) in *. clearbody u u'. clear F F' f f'.
  destruct (Z.compare_spec (c / 3600) (c' / 3600)) as [X|X|X].
  - destruct (Z.compare_spec (c mod 3600 / 60) (c' mod 3600 / 60)) as [Y|Y|Y].
    + destruct (Z.compare_spec (c mod 60) (c' mod 60)) as [W|W|W].
      * assert (c = c') as -> by (revert X Y W; clear; Zdm). destruct (Z.compare_spec u u'); destruct (Z.compare_spec (c' * 1000000 + u) (c' * 1000000 + u')); try reflexivity; lia.
      * assert (c < c') by (revert X Y W; clear; Zdm). symmetry. apply Z.compare_lt_iff. lia.
      * assert (c' < c) by (revert X Y W; clear; Zdm). symmetry. apply Z.compare_gt_iff. lia.
    + assert (c < c') by (revert X Y; clear; Zdm). symmetry. apply Z.compare_lt_iff. lia.
    + assert (c' < c) by (revert X Y; clear; Zdm). symmetry. apply Z.compare_gt_iff. lia.
  - assert (c < c') by (revert X; clear; Zdm). symmetry. apply Z.compare_lt_iff. lia.
  - assert (c' < c) by (revert X; clear; Zdm). symmetry. apply Z.compare_gt_iff. lia.
Qed.

(** C79: numbers for people. *)
From Coq Require Import QArith Lqa Decimal DecimalString.
From Verif Require Import Go M_Strings M_Text L_Text M_HumanNum S_HumanNum.
Open Scope string_scope.
Open Scope Z_scope.

(** ** Rounding *)
Lemma rhe_near a b : 0 < b -> 2 * Z.abs (b * round_half_even a b - a) <= b.
Proof.
  intros Hb. unfold round_half_even. pose proof (Z.div_mod a b ltac:(lia)) as E. pose proof (Z.mod_pos_bound a b Hb) as B.
  destruct (Z.ltb_spec (2 * (a mod b)) b); [nia|]. destruct (Z.ltb_spec b (2 * (a mod b))); [nia|]. destruct (Z.even (a / b)); nia.
Qed.
Lemma rhe_exact k b : 0 < b -> round_half_even (k * b) b = k.
Proof. intros Hb. unfold round_half_even. rewrite Z.mod_mul, Z.div_mul by lia. destruct (Z.ltb_spec (2 * 0) b); lia. Qed.
Lemma rhe_tie a b y : 0 < b -> 2 * a = b * (2 * y + 1) -> round_half_even a b = if Z.even y then y else y + 1.
Proof.
  intros Hb E. assert (Q : a / b = y) by (symmetry; apply (Z.div_unique a b y (a - b * y)); nia).
  assert (R : 2 * (a mod b) = b) by (pose proof (Z.div_mod a b ltac:(lia)); rewrite Q in *; nia).
  unfold round_half_even. rewrite Q, R, Z.ltb_irrefl. reflexivity.
Qed.
Lemma rhe_mono a b c d : 0 < b -> 0 < d -> a * d <= c * b -> round_half_even a b <= round_half_even c d.
Proof.
  intros Hb Hd H. destruct (Z.leb_spec (round_half_even a b) (round_half_even c d)) as [L|L]; [exact L|exfalso].
  pose proof (rhe_near a b Hb) as N1. pose proof (rhe_near c d Hd) as N2. set (x := round_half_even a b) in *. set (y := round_half_even c d) in *.
  assert (N3 : 2 * b * x <= 2 * a + b) by lia. assert (N4 : 2 * c - d <= 2 * d * y) by lia.
  (* x <= a/b + 1/2 and c/d - 1/2 <= y *)
  assert (X : x = y + 1) by (assert (2 * b * d * x <= 2 * b * d * (y + 1)) by nia; nia).
  assert (E1 : 2 * a = b * (2 * y + 1)) by (subst x; nia).
  assert (E2 : 2 * c = d * (2 * y + 1)) by nia.
  pose proof (rhe_tie a b y Hb E1) as T1. pose proof (rhe_tie c d y Hd E2) as T2. fold x in T1. fold y in T2. destruct (Z.even y); lia.
Qed.
Lemma rhe_nonneg a b : 0 < b -> 0 <= a -> 0 <= round_half_even a b.
Proof. intros Hb Ha. rewrite <- (rhe_exact 0 b Hb). apply rhe_mono; lia. Qed.
Lemma rhe_Qeq p q : (p == q)%Q -> forall k, 0 < k -> round_half_even (Qnum p * k) (Zpos (Qden p)) = round_half_even (Qnum q * k) (Zpos (Qden q)).
Proof. unfold Qeq. intros E k Hk. apply Z.le_antisymm; apply rhe_mono; nia. Qed.

(** ** Reading *)
Lemma scan_digits u x rest : no_digit rest -> scan (NilEmpty.string_of_uint u ++ rest) x = (horner u x, rest).
Proof.
  intros Hr. revert x; induction u; intros x; cbn [NilEmpty.string_of_uint append horner].
  1: { destruct rest as [|c r]; [reflexivity|]. cbn [scan]. assert (E : digit_of c = None); [|rewrite E; reflexivity].
       cbn in Hr. unfold is_digit in Hr. destruct c as [[] [] [] [] [] [] [] []]; try reflexivity; discriminate Hr. }
  all: cbn [scan]; match goal with |- context[digit_of ?c] => let v := eval vm_compute in (digit_of c) in change (digit_of c) with v end; rewrite <- IHu; f_equal; lia.
Qed.
Lemma scan_itoa n rest : 0 <= n -> no_digit rest -> scan (itoa n ++ rest) 0 = (n, rest).
Proof. intros Hn Hr. destruct (itoa_nonneg n Hn) as (E & V & _). rewrite E, scan_digits by exact Hr. rewrite V. reflexivity. Qed.
Lemma one_digit d : 0 <= d <= 9 -> exists c, itoa d = String c "" /\ digit_of c = Some d.
Proof.
  intros H. assert (C : d = 0 \/ d = 1 \/ d = 2 \/ d = 3 \/ d = 4 \/ d = 5 \/ d = 6 \/ d = 7 \/ d = 8 \/ d = 9) by lia.
  repeat (destruct C as [->|C]; [eexists; split; reflexivity|]). subst. eexists; split; reflexivity.
Qed.
Definition a_unit (u : string) (k : Z) : Prop :=
  unit_of u = Some k /\ no_digit u /\ match u with String "." _ => False | _ => True end.
Lemma read_f0 n u k : 0 <= n -> a_unit u k -> read_unsigned (itoa n ++ u) = Some (10 * n * k).
Proof.
  intros Hn (Hu & Hd & Hp). unfold read_unsigned, scan_tenths. rewrite scan_itoa by assumption.
  assert (E : match u with String "." (String c r') => match digit_of c with Some d => (10 * n + d, r') | None => (10 * n, u) end | _ => (10 * n, u) end = (10 * n, u)).
  { destruct u as [|c r]; [reflexivity|]. destruct c as [[] [] [] [] [] [] [] []]; try reflexivity. destruct Hp. }
  rewrite E, Hu. reflexivity.
Qed.
Lemma append_assoc (a b c : string) : ((a ++ b) ++ c = a ++ (b ++ c))%string.
Proof. induction a as [|x a IH]; [reflexivity|]. cbn. f_equal. exact IH. Qed.
Lemma read_f1 t u k : 0 <= t -> a_unit u k -> read_unsigned ((itoa (t / 10) ++ "." ++ itoa (t mod 10)) ++ u) = Some (t * k).
Proof.
  intros Ht (Hu & Hd & Hp). pose proof (Z.mod_pos_bound t 10 ltac:(lia)) as B. destruct (one_digit (t mod 10) ltac:(lia)) as (c & Ec & Ed).
  rewrite append_assoc. unfold read_unsigned, scan_tenths. rewrite scan_itoa by (try apply Z.div_pos; try reflexivity; lia). rewrite Ec. cbn [append]. rewrite Ed.
  rewrite Hu. cbn [option_map]. f_equal. pose proof (Z.div_mod t 10 ltac:(lia)). lia.
Qed.
Lemma says_unsigned n s : 0 <= n -> says (itoa n ++ s) = read_unsigned (itoa n ++ s).
Proof.
  intros Hn. destruct (itoa_first n Hn) as (c & r & E & _ & A & _). rewrite E. cbn [append]. unfold says.
  destruct c as [[] [] [] [] [] [] [] []]; try reflexivity. discriminate A.
Qed.
Lemma says_f0 q u k : 0 <= Qnum q -> a_unit u k -> says (f0 q ++ u) = Some (10 * round_half_even (Qnum q) (Zpos (Qden q)) * k).
Proof.
  intros Hq Hu. unfold f0, signed, unsigned_f0. destruct (Z.ltb_spec (Qnum q) 0); [lia|]. pose proof (rhe_nonneg (Qnum q) (Zpos (Qden q)) ltac:(lia) Hq).
  rewrite says_unsigned by assumption. apply read_f0; assumption.
Qed.
Lemma says_f1 q u k : 0 <= Qnum q -> a_unit u k -> says (f1 q ++ u) = Some (round_half_even (Qnum q * 10) (Zpos (Qden q)) * k).
Proof.
  intros Hq Hu. unfold f1, signed, unsigned_f1. destruct (Z.ltb_spec (Qnum q) 0); [lia|]. pose proof (rhe_nonneg (Qnum q * 10) (Zpos (Qden q)) ltac:(lia) ltac:(lia)) as Hr.
  rewrite <- (read_f1 _ u k Hr Hu). rewrite !append_assoc. apply says_unsigned. apply Z.div_pos; lia.
Qed.
Ltac unit := split; [reflexivity|]; split; [exact eq_refl || exact Logic.I|exact Logic.I].

(** ** Bytes *)
Definition bytes_said (n : Z) : Z :=
  if n <? 1 * kib then 10 * n
  else if n <? 100 * kib then round_half_even (n * 10) 1024 * 1024
  else if n <? 1 * mib then 10 * round_half_even n 1024 * 1024
  else if n <? 100 * mib then round_half_even (n * 10) 1048576 * 1048576
  else 10 * round_half_even n 1048576 * 1048576.
Lemma bytes_says n : says (HumanizeBytes n) = Some (bytes_said n).
Proof.
  unfold HumanizeBytes, bytes_said, mib, kib. destruct (Z.ltb_spec n (1 * 1024)) as [L|L].
  { destruct (Z.ltb_spec n 0) as [N|N].
    - unfold f1, signed. cbn [inject_Z Qnum]. destruct (Z.ltb_spec n 0); [|lia]. cbn [append says]. unfold unsigned_f1. cbn [Qopp inject_Z Qnum Qden].
      replace (round_half_even (- n * 10) 1) with (- n * 10) by (symmetry; rewrite <- (Z.mul_1_r (- n * 10)) at 1; apply rhe_exact; lia).
      rewrite (read_f1 (- n * 10) "B" 1) by (try unit; lia). cbn [option_map]. f_equal. lia.
    - rewrite (says_f1 (inject_Z n) "B" 1) by (try unit; exact N). cbn [inject_Z Qnum Qden]. rewrite <- (Z.mul_1_r (n * 10)), (rhe_exact (n * 10) 1) by lia. f_equal. lia. }
  destruct (Z.ltb_spec n (100 * 1024)); [rewrite (says_f1 (n # 1024) "KB" 1024) by (try unit; cbn; lia); reflexivity|].
  destruct (Z.ltb_spec n (1 * (1024 * 1024))); [rewrite (says_f0 (n # 1024) "KB" 1024) by (try unit; cbn; lia); reflexivity|].
  destruct (Z.ltb_spec n (100 * (1024 * 1024))); [rewrite (says_f1 (n # 1048576) "MB" 1048576) by (try unit; cbn; lia); reflexivity|].
  rewrite (says_f0 (n # 1048576) "MB" 1048576) by (try unit; cbn; lia). reflexivity.
Qed.

(** The text of every number of bytes can be read, and what it says is off by no more than
    five percent: half of the last digit shown.  Below one KB it is exact. *)
Theorem C79_bytes : forall n, exists t, says (HumanizeBytes n) = Some t /\ 2 * Z.abs (t - 10 * n) <= Z.abs n /\
  (n < 1024 -> t = 10 * n) /\
  (100 * 1024 <= n < 1024 * 1024 \/ 100 * 1024 * 1024 <= n -> 20 * Z.abs (t - 10 * n) <= n).
Proof.
  intros n. exists (bytes_said n). split; [apply bytes_says|]. unfold bytes_said, mib, kib.
  destruct (Z.ltb_spec n (1 * 1024)) as [L|L]; [lia|].
  destruct (Z.ltb_spec n (100 * 1024)); [pose proof (rhe_near (n * 10) 1024 ltac:(lia)); lia|].
  destruct (Z.ltb_spec n (1 * (1024 * 1024))); [pose proof (rhe_near n 1024 ltac:(lia)); lia|].
  destruct (Z.ltb_spec n (100 * (1024 * 1024))); [pose proof (rhe_near (n * 10) 1048576 ltac:(lia)); lia|].
  pose proof (rhe_near n 1048576 ltac:(lia)); lia.
Qed.
(** More bytes never look like fewer. *)
Theorem C79_bytes_monotone : forall n n' t t', n <= n' -> says (HumanizeBytes n) = Some t -> says (HumanizeBytes n') = Some t' -> t <= t'.
Proof.
  intros n n' t t' Hn Ht Ht'. rewrite bytes_says in Ht, Ht'. injection Ht as <-. injection Ht' as <-. unfold bytes_said, mib, kib.
  assert (A : forall x y, 0 < y -> forall m, x <= m * y -> round_half_even x y <= m) by (intros x y Hy m Hm; rewrite <- (rhe_exact m y Hy); apply rhe_mono; nia).
  assert (B : forall x y, 0 < y -> forall m, m * y <= x -> m <= round_half_even x y) by (intros x y Hy m Hm; rewrite <- (rhe_exact m y Hy) at 1; apply rhe_mono; nia).
  assert (M : forall x x' y, 0 < y -> x <= x' -> round_half_even x y <= round_half_even x' y) by (intros x x' y Hy Hx; apply rhe_mono; nia).
  pose proof (M (n * 10) (n' * 10) 1024 ltac:(lia) ltac:(lia)). pose proof (M n n' 1024 ltac:(lia) ltac:(lia)).
  pose proof (M (n * 10) (n' * 10) 1048576 ltac:(lia) ltac:(lia)). pose proof (M n n' 1048576 ltac:(lia) ltac:(lia)).
  destruct (Z.ltb_spec n (1 * 1024)) as [L1|L1];
  [|destruct (Z.ltb_spec n (100 * 1024)) as [L2|L2];
  [pose proof (A (n * 10) 1024 ltac:(lia) 1000 ltac:(lia))|destruct (Z.ltb_spec n (1 * (1024 * 1024))) as [L3|L3];
  [pose proof (A n 1024 ltac:(lia) 1024 ltac:(lia))|destruct (Z.ltb_spec n (100 * (1024 * 1024))) as [L4|L4];
  [pose proof (A (n * 10) 1048576 ltac:(lia) 1000 ltac:(lia))|]]]];
  (destruct (Z.ltb_spec n' (1 * 1024)) as [M1|M1];
  [|destruct (Z.ltb_spec n' (100 * 1024)) as [M2|M2];
  [pose proof (B (n' * 10) 1024 ltac:(lia) 10 ltac:(lia))|destruct (Z.ltb_spec n' (1 * (1024 * 1024))) as [M3|M3];
  [pose proof (B n' 1024 ltac:(lia) 100 ltac:(lia))|destruct (Z.ltb_spec n' (100 * (1024 * 1024))) as [M4|M4];
  [pose proof (B (n' * 10) 1048576 ltac:(lia) 10 ltac:(lia))|pose proof (B n' 1048576 ltac:(lia) 100 ltac:(lia))]]]]); lia.
Qed.

(** ** Rates *)
Section Rates.
Variable fl : Q -> Q.
Hypothesis Hfl : rounding fl.
Notation big := (inject_Z 1000000).
Definition rnd0 (q : Q) : Z := round_half_even (Qnum q) (Zpos (Qden q)).
Definition rnd1 (q : Q) : Z := round_half_even (Qnum q * 10) (Zpos (Qden q)).
Definition rate_said (f : Q) : Z :=
  if Qltb big f then 10 * 1000000
  else if Qltb (inject_Z 10000) f then 10 * rnd0 (fl (f / inject_Z 1000)%Q) * 1000
  else if Qltb (inject_Z 1000) f then rnd1 (fl (f / inject_Z 1000)%Q) * 1000
  else if Qle_bool (inject_Z 1) f then 10 * rnd0 f
  else rnd1 f.
Lemma Qltb_spec x y : reflect (x < y)%Q (Qltb x y).
Proof.
  unfold Qltb. destruct (Qle_bool y x) eqn:E; constructor.
  - apply Qle_bool_iff in E. apply Qle_not_lt. exact E.
  - apply Qnot_le_lt. intros H. apply Qle_bool_iff in H. congruence.
Qed.
Lemma Qleb_spec x y : reflect (x <= y)%Q (Qle_bool x y).
Proof. destruct (Qle_bool x y) eqn:E; constructor; [apply Qle_bool_iff; exact E|]. intros H. apply Qle_bool_iff in H. congruence. Qed.
Lemma Qnum_nonneg q : (0 <= q)%Q -> 0 <= Qnum q.
Proof. unfold Qle. cbn. lia. Qed.
Lemma thousandth f n : (inject_Z (1000 * n) <= f <-> inject_Z n <= f / inject_Z 1000)%Q.
Proof. unfold Qle, Qdiv, Qmult, Qinv, inject_Z. cbn -[Z.mul]. rewrite Pos2Z.inj_mul. lia. Qed.
Lemma thousandth_le f n : (f <= inject_Z (1000 * n) <-> f / inject_Z 1000 <= inject_Z n)%Q.
Proof. unfold Qle, Qdiv, Qmult, Qinv, inject_Z. cbn -[Z.mul]. rewrite Pos2Z.inj_mul. lia. Qed.
Lemma fl_above f n : 0 <= n <= 1000 -> (inject_Z (1000 * n) <= f -> inject_Z n <= fl (f / inject_Z 1000))%Q.
Proof.
  intros Hn H. destruct Hfl as (F1 & F2 & _). rewrite <- (F2 n) by lia. apply F1. apply thousandth. exact H.
Qed.
Lemma fl_below f n : 0 <= n <= 1000 -> (f <= inject_Z (1000 * n) -> fl (f / inject_Z 1000) <= inject_Z n)%Q.
Proof.
  intros Hn H. destruct Hfl as (F1 & F2 & _). rewrite <- (F2 n) by lia. apply F1. apply thousandth_le. exact H.
Qed.
Lemma fl_nonneg f : (0 <= f)%Q -> (0 <= fl (f / inject_Z 1000))%Q.
Proof. intros H. apply (fl_above f 0); [lia|exact H]. Qed.
Lemma rate_says f : (0 <= f)%Q -> says (HumanizeFloat fl f) = Some (rate_said f).
Proof.
  intros Hf. pose proof (fl_nonneg f Hf) as Hq. apply Qnum_nonneg in Hq. pose proof (Qnum_nonneg f Hf) as Hn. unfold HumanizeFloat, rate_said.
  assert (Z0 : forall s, says (if String.eqb s "0.0" then "0" else s) = says s) by (intros s; destruct (String.eqb_spec s "0.0") as [->|]; reflexivity).
  cbv zeta. rewrite Z0. destruct (Qltb big f); [reflexivity|]. destruct (Qltb (inject_Z 10000) f); [apply (says_f0 _ "K" 1000); [exact Hq|unit]|].
  destruct (Qltb (inject_Z 1000) f); [apply (says_f1 _ "K" 1000); [exact Hq|unit]|].
  assert (N0 : forall s, (s ++ "")%string = s) by (induction s as [|c s IH]; [reflexivity|]; cbn; f_equal; exact IH).
  destruct (Qle_bool (inject_Z 1) f).
  { rewrite <- (N0 (f0 f)), (says_f0 f "" 1) by (exact Hn || unit). unfold rnd0. f_equal. lia. }
  destruct (Qeq_bool f 0) eqn:E0.
  { apply Qeq_bool_eq in E0. unfold Qeq in E0. cbn in E0. unfold rnd1. replace (Qnum f * 10) with (0 * Zpos (Qden f)) by lia. rewrite rhe_exact by lia. reflexivity. }
  rewrite <- (N0 (f1 f)), (says_f1 f "" 1) by (exact Hn || unit). unfold rnd1. f_equal. lia.
Qed.
Lemma rnd0_le q n : (q <= inject_Z n)%Q -> rnd0 q <= n.
Proof. unfold Qle, rnd0. cbn -[Z.mul]. intros H. rewrite <- (rhe_exact n (Zpos (Qden q))) by lia. apply rhe_mono; nia. Qed.
Lemma rnd0_ge q n : (inject_Z n <= q)%Q -> n <= rnd0 q.
Proof. unfold Qle, rnd0. cbn -[Z.mul]. intros H. rewrite <- (rhe_exact n (Zpos (Qden q))) at 1 by lia. apply rhe_mono; nia. Qed.
Lemma rnd1_le q n : (q <= inject_Z n)%Q -> rnd1 q <= 10 * n.
Proof. unfold Qle, rnd1. cbn -[Z.mul]. intros H. rewrite <- (rhe_exact (10 * n) (Zpos (Qden q))) by lia. apply rhe_mono; nia. Qed.
Lemma rnd1_ge q n : (inject_Z n <= q)%Q -> 10 * n <= rnd1 q.
Proof. unfold Qle, rnd1. cbn -[Z.mul]. intros H. rewrite <- (rhe_exact (10 * n) (Zpos (Qden q))) at 1 by lia. apply rhe_mono; nia. Qed.
Lemma rnd0_mono p q : (p <= q)%Q -> rnd0 p <= rnd0 q.
Proof. unfold Qle, rnd0. intros H. apply rhe_mono; lia. Qed.
Lemma rnd1_mono p q : (p <= q)%Q -> rnd1 p <= rnd1 q.
Proof. unfold Qle, rnd1. intros H. apply rhe_mono; nia. Qed.
Lemma rate_mono f g : (0 <= f -> f <= g)%Q -> (0 <= f)%Q -> rate_said f <= rate_said g.
Proof.
  intros Hfg H0. specialize (Hfg H0). unfold rate_said.
  assert (Hq : (fl (f / inject_Z 1000) <= fl (g / inject_Z 1000))%Q).
  { apply (proj1 Hfl). unfold Qdiv. apply Qmult_le_compat_r; [exact Hfg|discriminate]. }
  pose proof (rnd0_mono _ _ Hq) as M0. pose proof (rnd1_mono _ _ Hq) as M1. pose proof (rnd0_mono _ _ Hfg) as M2. pose proof (rnd1_mono _ _ Hfg) as M3.
  destruct (Qltb_spec big g) as [G1|G1].
  { destruct (Qltb_spec big f) as [F1|F1]; [lia|]. apply Qnot_lt_le in F1. pose proof (rnd0_le _ _ (fl_below f 1000 ltac:(lia) F1)).
    destruct (Qltb_spec (inject_Z 10000) f) as [F2|F2]; [lia|]. apply Qnot_lt_le in F2. pose proof (rnd1_le _ _ (fl_below f 10 ltac:(lia) F2)).
    destruct (Qltb_spec (inject_Z 1000) f) as [F3|F3]; [lia|]. apply Qnot_lt_le in F3. pose proof (rnd0_le _ _ F3).
    destruct (Qleb_spec (inject_Z 1) f) as [F4|F4]; [lia|]. apply Qnot_le_lt, Qlt_le_weak in F4. pose proof (rnd1_le _ _ F4). lia. }
  destruct (Qltb_spec big f) as [F1|F1]; [exfalso; apply G1; eapply Qlt_le_trans; eassumption|].
  destruct (Qltb_spec (inject_Z 10000) g) as [G2|G2].
  { pose proof (rnd0_ge _ _ (fl_above g 10 ltac:(lia) (Qlt_le_weak _ _ G2))).
    destruct (Qltb_spec (inject_Z 10000) f) as [F2|F2]; [lia|]. apply Qnot_lt_le in F2. pose proof (rnd1_le _ _ (fl_below f 10 ltac:(lia) F2)).
    destruct (Qltb_spec (inject_Z 1000) f) as [F3|F3]; [lia|]. apply Qnot_lt_le in F3. pose proof (rnd0_le _ _ F3).
    destruct (Qleb_spec (inject_Z 1) f) as [F4|F4]; [lia|]. apply Qnot_le_lt, Qlt_le_weak in F4. pose proof (rnd1_le _ _ F4). lia. }
  destruct (Qltb_spec (inject_Z 10000) f) as [F2|F2]; [exfalso; apply G2; eapply Qlt_le_trans; eassumption|].
  destruct (Qltb_spec (inject_Z 1000) g) as [G3|G3].
  { pose proof (rnd1_ge _ _ (fl_above g 1 ltac:(lia) (Qlt_le_weak _ _ G3))).
    destruct (Qltb_spec (inject_Z 1000) f) as [F3|F3]; [lia|]. apply Qnot_lt_le in F3. pose proof (rnd0_le _ _ F3).
    destruct (Qleb_spec (inject_Z 1) f) as [F4|F4]; [lia|]. apply Qnot_le_lt, Qlt_le_weak in F4. pose proof (rnd1_le _ _ F4). lia. }
  destruct (Qltb_spec (inject_Z 1000) f) as [F3|F3]; [exfalso; apply G3; eapply Qlt_le_trans; eassumption|].
  destruct (Qleb_spec (inject_Z 1) g) as [G4|G4].
  { pose proof (rnd0_ge _ _ G4). destruct (Qleb_spec (inject_Z 1) f) as [F4|F4]; [lia|]. apply Qnot_le_lt, Qlt_le_weak in F4. pose proof (rnd1_le _ _ F4). lia. }
  destruct (Qleb_spec (inject_Z 1) f) as [F4|F4]; [exfalso; apply G4; eapply Qle_trans; eassumption|exact M3].
Qed.
Lemma rnd0_near q : (inject_Z (rnd0 q) - q <= 1 # 2 /\ q - inject_Z (rnd0 q) <= 1 # 2)%Q.
Proof. unfold rnd0. pose proof (rhe_near (Qnum q) (Zpos (Qden q)) ltac:(lia)) as H. unfold Qle, Qminus, Qplus, Qopp, inject_Z. cbn. lia. Qed.
Lemma rnd1_near q : (inject_Z (rnd1 q) - inject_Z 10 * q <= 1 # 2 /\ inject_Z 10 * q - inject_Z (rnd1 q) <= 1 # 2)%Q.
Proof. unfold rnd1. pose proof (rhe_near (Qnum q * 10) (Zpos (Qden q)) ltac:(lia)) as H. unfold Qle, Qminus, Qplus, Qopp, Qmult, inject_Z. cbn -[Z.mul Z.add round_half_even]. rewrite ?Pos2Z.inj_mul. destruct q as [a b]. cbn [Qnum Qden] in *. set (k := round_half_even (a * 10) (Z.pos b)) in *. clearbody k. nia. Qed.
End Rates.

(** Every rate from 0 to 1 million is shown as a number that is off by at most half of its last
    digit.  (t is in tenths; 1 of the 501 and the 5001 is for the rounding of the division.) *)
Theorem C79_rates : forall fl f, rounding fl -> (0 <= f <= inject_Z 1000000)%Q ->
  exists t, says (HumanizeFloat fl f) = Some t /\
  let off e := (inject_Z t - inject_Z 10 * f <= e /\ inject_Z 10 * f - inject_Z t <= e)%Q in
  ((f < 1)%Q -> off (1 # 2)%Q) /\ ((1 <= f <= inject_Z 1000)%Q -> off (inject_Z 5)) /\
  ((inject_Z 1000 < f <= inject_Z 10000)%Q -> off (inject_Z 501)) /\ ((inject_Z 10000 < f)%Q -> off (inject_Z 5001)).
Proof.
  intros fl f Hfl (H0 & H1). exists (rate_said fl f). split; [apply rate_says; assumption|]. cbn zeta. unfold rate_said.
  pose proof (rnd0_near f) as N0. pose proof (rnd1_near f) as N1. pose proof (rnd0_near (fl (f / inject_Z 1000)%Q)) as K0. pose proof (rnd1_near (fl (f / inject_Z 1000)%Q)) as K1.
  assert (E : (f / inject_Z 1000 == f * (1 # 1000))%Q) by (unfold Qeq, Qdiv, Qmult, Qinv, inject_Z; cbn -[Z.mul]; lia).
  assert (T : (inject_Z 1000 < f -> 1 <= f / inject_Z 1000)%Q) by (intros H; apply (thousandth f 1); apply Qlt_le_weak; exact H).
  assert (Hd : (inject_Z 1000 < f -> fl (f / inject_Z 1000) - f / inject_Z 1000 <= f / inject_Z 1000 * (1 # 4503599627370496) /\
                 f / inject_Z 1000 - fl (f / inject_Z 1000) <= f / inject_Z 1000 * (1 # 4503599627370496))%Q) by (intros H; apply (proj2 (proj2 Hfl)), T, H).
  set (q := fl (f / inject_Z 1000)%Q) in *. clearbody q. generalize dependent (f / inject_Z 1000)%Q. intros d E T Hd.
  change (inject_Z 10) with (10 # 1)%Q in *. change (inject_Z 1000) with (1000 # 1)%Q in *. change (inject_Z 5) with (5 # 1)%Q. change (inject_Z 501) with (501 # 1)%Q.
  change (inject_Z 5001) with (5001 # 1)%Q. change (inject_Z 10000) with (10000 # 1)%Q. change (inject_Z 1) with (1 # 1)%Q. change (inject_Z 1000000) with (1000000 # 1)%Q in *.
  destruct (Qltb_spec (1000000 # 1) f) as [F1|F1]; [exfalso; lra|].
  destruct (Qltb_spec (10000 # 1) f) as [F2|F2].
  { split; [intros; exfalso; lra|]. split; [intros; exfalso; lra|]. split; [intros; exfalso; lra|]. intros _.
    assert (M : (inject_Z (10 * rnd0 q * 1000) == 10000 * inject_Z (rnd0 q))%Q) by (rewrite !inject_Z_mult; unfold Qeq, Qmult, inject_Z; cbn -[Z.mul]; lia). rewrite M. lra. }
  destruct (Qltb_spec (1000 # 1) f) as [F3|F3].
  { split; [intros; exfalso; lra|]. split; [intros; exfalso; lra|]. split; [|intros; exfalso; lra]. intros _.
    assert (M : (inject_Z (rnd1 q * 1000) == 1000 * inject_Z (rnd1 q))%Q) by (rewrite !inject_Z_mult; unfold Qeq, Qmult, inject_Z; cbn -[Z.mul]; lia). rewrite M. lra. }
  destruct (Qleb_spec (1 # 1) f) as [F4|F4].
  { split; [intros; exfalso; lra|]. split; [|split; intros; exfalso; lra]. intros _.
    assert (M : (inject_Z (10 * rnd0 f) == 10 * inject_Z (rnd0 f))%Q) by (rewrite !inject_Z_mult; unfold Qeq, Qmult, inject_Z; cbn -[Z.mul]; lia). rewrite M. lra. }
  split; [|split; [intros; exfalso; lra|split; intros; exfalso; lra]]. intros _. lra.
Qed.
(** A higher rate never looks lower. *)
Theorem C79_rates_monotone : forall fl f f' t t', rounding fl -> (0 <= f <= f')%Q ->
  says (HumanizeFloat fl f) = Some t -> says (HumanizeFloat fl f') = Some t' -> t <= t'.
Proof.
  intros fl f f' t t' Hfl (H0 & H1) Ht Ht'. rewrite rate_says in Ht by assumption. rewrite rate_says in Ht' by (try assumption; eapply Qle_trans; eassumption).
  injection Ht as <-. injection Ht' as <-. apply rate_mono; auto.
Qed.
(** 0 is shown for rates up to one in twenty seconds, and for no others. *)
Theorem C79_zero : forall fl f, rounding fl -> (0 <= f)%Q -> (HumanizeFloat fl f = "0" <-> (f <= 1 # 20)%Q).
Proof.
  intros fl f Hfl Hf. pose proof (rate_says fl Hfl f Hf) as Hs. split.
  - intros E. rewrite E in Hs. injection Hs as Hs. change (10 * 0 * 1) with 0 in Hs. apply Qnot_lt_le. intros L.
    assert (H1 : rate_said fl (inject_Z 1) <= rate_said fl f \/ (f < inject_Z 1)%Q).
    { destruct (Qlt_le_dec f (inject_Z 1)) as [G|G]; [right; exact G|left; apply rate_mono; [exact Hfl|intros _; exact G|discriminate]]. }
    destruct H1 as [H1|H1]; [change (rate_said fl (inject_Z 1)) with 10 in H1; lia|].
    unfold rate_said in Hs. destruct (Qltb_spec (inject_Z 1000000) f) as [C|C]; [unfold Qlt in *; cbn -[Z.mul] in *; lia|].
    destruct (Qltb_spec (inject_Z 10000) f) as [C2|C2]; [unfold Qlt in *; cbn -[Z.mul] in *; lia|].
    destruct (Qltb_spec (inject_Z 1000) f) as [C3|C3]; [unfold Qlt in *; cbn -[Z.mul] in *; lia|].
    destruct (Qleb_spec (inject_Z 1) f) as [C4|C4]; [unfold Qlt, Qle in *; cbn -[Z.mul] in *; lia|].
    pose proof (rhe_near (Qnum f * 10) (Zpos (Qden f)) ltac:(lia)) as N. unfold rnd1 in Hs. rewrite <- Hs in N. unfold Qlt in L. cbn -[Z.mul] in L. lia.
  - intros L. unfold HumanizeFloat.
    destruct (Qltb_spec (inject_Z 1000000) f) as [C|C]; [unfold Qlt, Qle in *; cbn -[Z.mul] in *; lia|].
    destruct (Qltb_spec (inject_Z 10000) f) as [C2|C2]; [unfold Qlt, Qle in *; cbn -[Z.mul] in *; lia|].
    destruct (Qltb_spec (inject_Z 1000) f) as [C3|C3]; [unfold Qlt, Qle in *; cbn -[Z.mul] in *; lia|].
    destruct (Qleb_spec (inject_Z 1) f) as [C4|C4]; [unfold Qlt, Qle in *; cbn -[Z.mul] in *; lia|].
    destruct (Qeq_bool f 0); [reflexivity|]. pose proof (Qnum_nonneg f Hf) as Hn. unfold f1, signed. destruct (Z.ltb_spec (Qnum f) 0); [lia|].
    assert (R : round_half_even (Qnum f * 10) (Zpos (Qden f)) = 0).
    { apply Z.le_antisymm; [|apply rhe_nonneg; lia]. change 0 with (round_half_even 1 2). unfold Qle in L. cbn -[Z.mul] in L. apply rhe_mono; lia. }
    unfold unsigned_f1. rewrite R. reflexivity.
Qed.

(** ** Widths *)
Lemma width_table : forallb (fun n => Nat.leb (String.length (itoa (Z.of_nat n))) (if Nat.ltb n 10 then 1 else if Nat.ltb n 100 then 2 else if Nat.ltb n 1000 then 3 else 4)) (seq 0 (Z.to_nat 10000)) = true.
Proof. vm_compute. reflexivity. Qed.
Lemma width n : 0 <= n < 10000 -> (String.length (itoa n) <= (if Z.ltb n 10 then 1 else if Z.ltb n 100 then 2 else if Z.ltb n 1000 then 3 else 4))%nat.
Proof.
  intros H. pose proof width_table as T. rewrite forallb_forall in T. specialize (T (Z.to_nat n)). rewrite Z2Nat.id in T by lia.
  assert (I : In (Z.to_nat n) (seq 0 (Z.to_nat 10000))) by (apply in_seq; lia). apply T in I. apply Nat.leb_le in I.
  destruct (Z.ltb_spec n 10), (Nat.ltb_spec (Z.to_nat n) 10); try lia; destruct (Z.ltb_spec n 100), (Nat.ltb_spec (Z.to_nat n) 100); try lia;
    destruct (Z.ltb_spec n 1000), (Nat.ltb_spec (Z.to_nat n) 1000); lia.
Qed.
Lemma length_append (a b : string) : String.length (a ++ b) = (String.length a + String.length b)%nat.
Proof. induction a as [|c a IH]; [reflexivity|]. cbn. f_equal. exact IH. Qed.
Lemma width0 q u : 0 <= Qnum q -> (0 <= rnd0 q < 10000) -> (String.length (f0 q ++ u) <= (if Z.ltb (rnd0 q) 1000 then 3 else 4) + String.length u)%nat.
Proof.
  intros Hq Hr. unfold f0, signed. destruct (Z.ltb_spec (Qnum q) 0); [lia|]. rewrite length_append. unfold unsigned_f0. fold (rnd0 q).
  pose proof (width (rnd0 q) Hr). destruct (Z.ltb_spec (rnd0 q) 10), (Z.ltb_spec (rnd0 q) 100), (Z.ltb_spec (rnd0 q) 1000); lia.
Qed.
Lemma width1 q u : 0 <= Qnum q -> (0 <= rnd1 q < 100000) -> (String.length (f1 q ++ u) <=
   (if Z.ltb (rnd1 q) 100 then 3 else if Z.ltb (rnd1 q) 1000 then 4 else if Z.ltb (rnd1 q) 10000 then 5 else 6) + String.length u)%nat.
Proof.
  intros Hq Hr. unfold f1, signed. destruct (Z.ltb_spec (Qnum q) 0); [lia|]. rewrite !length_append. unfold unsigned_f1. fold (rnd1 q). rewrite !length_append.
  assert (Hd : 0 <= rnd1 q / 10 < 10000) by (split; [apply Z.div_pos; lia|apply Z.div_lt_upper_bound; lia]). pose proof (width _ Hd) as W1.
  pose proof (Z.mod_pos_bound (rnd1 q) 10 ltac:(lia)) as B. pose proof (width (rnd1 q mod 10) ltac:(lia)) as W2. pose proof (Z.div_mod (rnd1 q) 10 ltac:(lia)) as E.
  cbn [String.length]. destruct (Z.ltb_spec (rnd1 q mod 10) 10); [|lia].
  destruct (Z.ltb_spec (rnd1 q / 10) 10), (Z.ltb_spec (rnd1 q / 10) 100), (Z.ltb_spec (rnd1 q / 10) 1000), (Z.ltb_spec (rnd1 q) 100), (Z.ltb_spec (rnd1 q) 1000), (Z.ltb_spec (rnd1 q) 10000); lia.
Qed.
(** A rate never takes more than five characters, sizes up to 10000 MB never more than seven. *)
Theorem C79_widths : (forall fl f, rounding fl -> (0 <= f)%Q -> (String.length (HumanizeFloat fl f) <= 5)%nat) /\
  (forall n, 0 <= n < 9999 * 1024 * 1024 -> (String.length (HumanizeBytes n) <= 7)%nat).
Proof.
  split.
  - intros fl f Hfl Hf. unfold HumanizeFloat. cbv zeta.
    assert (Z0 : forall s, (String.length s <= 5)%nat -> (String.length (if String.eqb s "0.0" then "0" else s) <= 5)%nat) by (intros s Hs; destruct (String.eqb s "0.0"); [cbn; lia|exact Hs]).
    apply Z0. pose proof (fl_nonneg fl Hfl f Hf) as Hq. apply Qnum_nonneg in Hq as Hq'. pose proof (Qnum_nonneg f Hf) as Hn.
    assert (N0 : forall s, (s ++ "")%string = s) by (induction s as [|c s IH]; [reflexivity|]; cbn; f_equal; exact IH).
    destruct (Qltb_spec (inject_Z 1000000) f) as [C|C]; [cbn; lia|]. apply Qnot_lt_le in C. pose proof (rnd0_le _ _ (fl_below fl Hfl f 1000 ltac:(lia) C)) as L0.
    assert (G0 : 0 <= rnd0 (fl (f / inject_Z 1000)%Q)) by (apply rnd0_ge; exact Hq). assert (G1 : 0 <= rnd1 (fl (f / inject_Z 1000)%Q)) by (apply (rnd1_ge _ 0); exact Hq).
    destruct (Qltb_spec (inject_Z 10000) f) as [C2|C2].
    { pose proof (width0 _ "K" Hq' ltac:(lia)) as W. cbn [String.length] in W. destruct (Z.ltb _ _); lia. }
    apply Qnot_lt_le in C2. pose proof (rnd1_le _ _ (fl_below fl Hfl f 10 ltac:(lia) C2)) as L1.
    destruct (Qltb_spec (inject_Z 1000) f) as [C3|C3].
    { pose proof (width1 _ "K" Hq' ltac:(lia)) as W. cbn [String.length] in W. destruct (Z.ltb_spec (rnd1 (fl (f / inject_Z 1000)%Q)) 100), (Z.ltb_spec (rnd1 (fl (f / inject_Z 1000)%Q)) 1000); lia. }
    apply Qnot_lt_le in C3. pose proof (rnd0_le _ _ C3) as L2. assert (G2 : 0 <= rnd0 f) by (apply rnd0_ge; exact Hf). assert (G3 : 0 <= rnd1 f) by (apply (rnd1_ge _ 0); exact Hf).
    destruct (Qleb_spec (inject_Z 1) f) as [C4|C4].
    { pose proof (width0 _ "" Hn ltac:(lia)) as W. rewrite N0 in W. cbn [String.length] in W. destruct (Z.ltb _ _); lia. }
    destruct (Qeq_bool f 0); [cbn; lia|]. apply Qnot_le_lt, Qlt_le_weak in C4. pose proof (rnd1_le _ _ C4).
    pose proof (width1 _ "" Hn ltac:(lia)) as W. rewrite N0 in W. cbn [String.length] in W. destruct (Z.ltb_spec (rnd1 f) 100); lia.
  - intros n Hn. unfold HumanizeBytes, mib, kib.
    assert (A0 : forall d k, n <= k * Zpos d -> 0 <= rnd0 (n # d) <= k) by (intros d k H; split; [apply rnd0_ge; unfold Qle; cbn; lia|apply rnd0_le; unfold Qle; cbn; lia]).
    assert (A1 : forall d k, n <= k * Zpos d -> 0 <= rnd1 (n # d) <= 10 * k) by (intros d k H; split; [apply (rnd1_ge _ 0); unfold Qle; cbn; lia|apply rnd1_le; unfold Qle; cbn; lia]).
    destruct (Z.ltb_spec n (1 * 1024)).
    { assert (E : rnd1 (inject_Z n) = n * 10) by (unfold rnd1; cbn [inject_Z Qnum Qden]; rewrite <- (Z.mul_1_r (n * 10)) at 1; apply rhe_exact; lia).
      pose proof (width1 (inject_Z n) "B" ltac:(cbn; lia) ltac:(lia)) as W. cbn [String.length] in W. rewrite E in W. destruct (Z.ltb (n * 10) 100), (Z.ltb (n * 10) 1000); try lia. destruct (Z.ltb (n * 10) 10000); lia. }
    destruct (Z.ltb_spec n (100 * 1024)).
    { pose proof (A1 1024%positive 100 ltac:(lia)). pose proof (width1 (n # 1024) "KB" ltac:(cbn; lia) ltac:(lia)) as W. cbn [String.length] in W.
      destruct (Z.ltb_spec (rnd1 (n # 1024)) 100), (Z.ltb_spec (rnd1 (n # 1024)) 1000), (Z.ltb_spec (rnd1 (n # 1024)) 10000); lia. }
    destruct (Z.ltb_spec n (1 * (1024 * 1024))).
    { pose proof (A0 1024%positive 1024 ltac:(lia)). pose proof (width0 (n # 1024) "KB" ltac:(cbn; lia) ltac:(lia)) as W. cbn [String.length] in W. destruct (Z.ltb _ _); lia. }
    destruct (Z.ltb_spec n (100 * (1024 * 1024))).
    { pose proof (A1 1048576%positive 100 ltac:(lia)). pose proof (width1 (n # 1048576) "MB" ltac:(cbn; lia) ltac:(lia)) as W. cbn [String.length] in W.
      destruct (Z.ltb_spec (rnd1 (n # 1048576)) 100), (Z.ltb_spec (rnd1 (n # 1048576)) 1000), (Z.ltb_spec (rnd1 (n # 1048576)) 10000); lia. }
    pose proof (A0 1048576%positive 9999 ltac:(lia)). pose proof (width0 (n # 1048576) "MB" ltac:(cbn; lia) ltac:(lia)) as W. cbn [String.length] in W. destruct (Z.ltb _ _); lia.
Qed.

(** ** What goes wrong *)
Lemma exact_rounding : rounding (fun q => q).
Proof. split; [auto|]. split; [intros; reflexivity|]. intros x Hx. split; lra. Qed.
(** Four characters are not always enough; the comment's own example is rounded, not cut. *)
Theorem C79_four_characters_refuted : exists fl, rounding fl /\
  HumanizeFloat fl (inject_Z 9990) = "10.0K" /\ HumanizeFloat fl (inject_Z 999600) = "1000K" /\ HumanizeFloat fl (inject_Z 32756) = "33K".
Proof. exists (fun q => q). split; [exact exact_rounding|]. repeat split; vm_compute; reflexivity. Qed.
(** The smaller number of two can have the longer text, with a unit too small for it. *)
Theorem C79_units_refuted : HumanizeBytes (1024 * 1024 - 1) = "1024KB" /\ HumanizeBytes (1024 * 1024) = "1.0MB" /\
  HumanizeBytes (100 * 1024 - 1) = "100.0KB" /\ HumanizeBytes (100 * 1024) = "100KB".
Proof. repeat split; vm_compute; reflexivity. Qed.
Example C79_instance : rounding (fun q => q) /\ says (HumanizeFloat (fun q => q) (2534 # 2)) = Some 13000 /\ HumanizeFloat (fun q => q) (2534 # 2) = "1.3K" /\
  HumanizeFloat (fun q => q) (1 # 20) = "0" /\ HumanizeFloat (fun q => q) (16 # 100) = "0.2" /\ HumanizeFloat (fun q => q) (8123 # 10) = "812" /\
  HumanizeBytes 1536 = "1.5KB" /\ says "1.5KB" = Some 15360 /\ HumanizeBytes (-5) = "-5.0B" /\ says "-5.0B" = Some (-50).
Proof. split; [exact exact_rounding|]. repeat split; vm_compute; reflexivity. Qed.

Print Assumptions C79_bytes.
Print Assumptions C79_bytes_monotone.
Print Assumptions C79_rates.
Print Assumptions C79_rates_monotone.
Print Assumptions C79_zero.
Print Assumptions C79_widths.
Print Assumptions C79_four_characters_refuted.
Print Assumptions C79_units_refuted.

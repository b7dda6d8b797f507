(** Lemmas about the text conversions: numbers and durations survive being written and read. *)
From Verif Require Import Go M_Strings M_Humanize M_Text L_Strings.
From Coq Require Import Decimal DecimalString DecimalPos DecimalFacts ZifyClasses.
Open Scope string_scope.
Open Scope Z_scope.

Fixpoint horner (u : uint) (x : Z) : Z :=
  match u with
  | Nil => x
  | D0 u => horner u (x * 10 + 0) | D1 u => horner u (x * 10 + 1) | D2 u => horner u (x * 10 + 2)
  | D3 u => horner u (x * 10 + 3) | D4 u => horner u (x * 10 + 4) | D5 u => horner u (x * 10 + 5)
  | D6 u => horner u (x * 10 + 6) | D7 u => horner u (x * 10 + 7) | D8 u => horner u (x * 10 + 8)
  | D9 u => horner u (x * 10 + 9)
  end.

Lemma horner_le u x : 0 <= x -> x <= horner u x.
Proof.
  revert x; induction u; intros x Hx; cbn [horner]; [lia|..];
  match goal with |- _ <= horner _ ?y => specialize (IHu y ltac:(lia)) end; lia.
Qed.
Lemma horner_acc u p : horner u (Zpos p) = Zpos (Pos.of_uint_acc u p).
Proof. revert p; induction u; intros p; cbn [horner Pos.of_uint_acc]; try reflexivity; rewrite <- IHu; f_equal; lia. Qed.
Lemma horner_of_uint u : horner u 0 = Z.of_N (Pos.of_uint u).
Proof. induction u; cbn [horner Pos.of_uint]; try reflexivity; try (apply horner_acc). exact IHu. Qed.

(** does not start with a digit *)
Definition no_digit (s : string) : Prop := match s with EmptyString => True | String c _ => is_digit c = false end.

Lemma digit_cons_read c v s x : digit c = Some v -> read_digits (String c s) x = read_digits s (x * 10 + v).
Proof. intros H. cbn [read_digits]. rewrite H. reflexivity. Qed.

Lemma read_uint u x : read_digits (NilEmpty.string_of_uint u) x = Some (horner u x).
Proof. revert x; induction u; intros x; [reflexivity|..]; cbn [NilEmpty.string_of_uint horner]; erewrite digit_cons_read by reflexivity; apply IHu. Qed.

Lemma leading_cons c v s x : digit c = Some v -> 0 <= x -> 0 <= v -> x * 10 + v <= two63 ->
  leadingInt (String c s) x = leadingInt s (x * 10 + v).
Proof.
  intros H Hx Hv Hle. cbn [leadingInt]. rewrite H.
  destruct (Z.ltb_spec (two63 / 10) x) as [L|_].
  { exfalso. assert (x <= two63 / 10) by (apply Z.div_le_lower_bound; lia). lia. }
  destruct (Z.ltb_spec two63 (x * 10 + v)); [lia|reflexivity].
Qed.
Lemma leading_stop s x : no_digit s -> leadingInt s x = Some (x, s).
Proof. destruct s as [|c s]; [reflexivity|]. cbn. unfold is_digit. destruct (digit c); [discriminate|reflexivity]. Qed.
Lemma leading_uint u x rest : 0 <= x -> horner u x <= two63 -> no_digit rest ->
  leadingInt (NilEmpty.string_of_uint u ++ rest) x = Some (horner u x, rest).
Proof.
  revert x; induction u; intros x Hx Hle Hr; [apply leading_stop; exact Hr|..]; cbn [NilEmpty.string_of_uint horner append] in *;
  (match type of Hle with horner u ?y <= _ => pose proof (horner_le u y ltac:(lia)) end);
  (match type of Hle with horner u (x * 10 + ?v) <= _ => rewrite (leading_cons _ v); [| reflexivity | lia | lia | lia] end); apply IHu; auto; lia.
Qed.

(** how a number is written *)
Definition uint_of (n : Z) : uint := match Z.to_int n with Pos u => u | Neg u => u end.
Lemma itoa_nonneg n : 0 <= n -> itoa n = NilEmpty.string_of_uint (uint_of n) /\ horner (uint_of n) 0 = n /\ uint_of n <> Nil.
Proof.
  intros H. destruct n as [|p|p]; [repeat split; discriminate| |lia]. unfold itoa, uint_of, Z.to_int. cbn [NilZero.string_of_int].
  assert (E : horner (Pos.to_uint p) 0 = Zpos p) by (rewrite horner_of_uint, DecimalPos.Unsigned.of_to; reflexivity).
  assert (N : Pos.to_uint p <> Nil) by (intros C; rewrite C in E; cbn in E; discriminate).
  repeat split; auto. unfold NilZero.string_of_uint. destruct (Pos.to_uint p); try reflexivity. contradiction.
Qed.
Lemma itoa_neg p : itoa (Zneg p) = String "-" (itoa (Zpos p)).
Proof. reflexivity. Qed.

(** the first byte is a digit *)
Lemma itoa_first n : 0 <= n -> exists c s, itoa n = String c s /\ is_digit c = true /\
  Ascii.eqb c "-" = false /\ Ascii.eqb c "+" = false.
Proof.
  intros H. destruct (itoa_nonneg n H) as (E & _ & N). rewrite E. destruct (uint_of n); [contradiction|..]; cbn [NilEmpty.string_of_uint]; eexists _, _; repeat split.
Qed.

Lemma sign_first c s : Ascii.eqb c "-" = false -> Ascii.eqb c "+" = false -> sign (String c s) = (false, String c s).
Proof. intros A B. cbn. rewrite A, B. reflexivity. Qed.

Lemma Atoi_itoa n : int64 n -> Atoi (itoa n) = Some n.
Proof.
  intros H. unfold int64 in H.
  assert (P : forall m, 0 <= m -> read_digits (itoa m) 0 = Some m).
  { intros m Hm. destruct (itoa_nonneg m Hm) as (E & V & _). rewrite E, read_uint, V. reflexivity. }
  destruct (Z.ltb_spec n 0) as [L|L].
  - destruct n as [|p|p]; [lia|lia|]. rewrite itoa_neg. unfold Atoi. cbn [sign]. change (Ascii.eqb "-" "-") with true. cbv iota.
    destruct (itoa_first (Zpos p) ltac:(lia)) as (c & s & E & _). rewrite E. rewrite <- E, (P (Zpos p)) by lia.
    cbv zeta. destruct (Z.leb_spec (- two63) (- Zpos p)); [|lia]. destruct (Z.ltb_spec (- Zpos p) two63); [reflexivity|lia].
  - destruct (itoa_first n L) as (c & s & E & _ & A & B). unfold Atoi. rewrite E, sign_first by auto. rewrite <- E, (P n L).
    cbv zeta. destruct (Z.leb_spec (- two63) n); [|lia]. destruct (Z.ltb_spec n two63); [reflexivity|lia].
Qed.

Lemma leading_itoa n rest : 0 <= n <= two63 -> no_digit rest -> leadingInt (itoa n ++ rest) 0 = Some (n, rest).
Proof.
  intros H Hr. destruct (itoa_nonneg n ltac:(lia)) as (E & V & _). rewrite E, leading_uint by (rewrite ?V; auto; lia). rewrite V. reflexivity.
Qed.

(** Fractions *)
Lemma digit_char_digit v : 0 <= v <= 9 -> digit (digit_char v) = Some v /\ is_digit (digit_char v) = true.
Proof.
  intros H. assert (C : v = 0 \/ v = 1 \/ v = 2 \/ v = 3 \/ v = 4 \/ v = 5 \/ v = 6 \/ v = 7 \/ v = 8 \/ v = 9) by lia.
  repeat (destruct C as [->|C]; [split; reflexivity|]). subst; split; reflexivity.
Qed.

(** The digits written by fmtFrac: the string of the k digits of x, most significant first. *)
Fixpoint frac_digits (k : nat) (x : Z) (buf : string) : string :=
  match k with O => buf | S k => frac_digits k (x / 10) (String (digit_char (x mod 10)) buf) end.

Lemma fmtFrac_print prec v buf : 0 <= v -> fmtFrac prec v true buf = (String "." (frac_digits prec v buf), v / 10 ^ Z.of_nat prec).
Proof.
  revert v buf; induction prec as [|p IH]; intros v buf Hv; cbn [fmtFrac frac_digits].
  - cbn. rewrite Z.div_1_r. reflexivity.
  - cbn [orb]. rewrite IH by (apply Z.div_pos; lia). f_equal. rewrite Z.div_div by lia. f_equal. rewrite Nat2Z.inj_succ, Z.pow_succ_r by lia. lia.
Qed.
Lemma fmtFrac_spec prec v buf : 0 <= v ->
  snd (fmtFrac prec v false buf) = v / 10 ^ Z.of_nat prec /\
  ((v mod 10 ^ Z.of_nat prec = 0 /\ fst (fmtFrac prec v false buf) = buf) \/
   exists k x j, (k + j = prec)%nat /\ 0 < x < 10 ^ Z.of_nat k /\ (0 < k)%nat /\ v mod 10 ^ Z.of_nat prec = x * 10 ^ Z.of_nat j /\
     fst (fmtFrac prec v false buf) = String "." (frac_digits k x buf)).
Proof.
  revert v; induction prec as [|p IH]; intros v Hv; cbn [fmtFrac].
  - cbn. rewrite Z.div_1_r, Z.mod_1_r. auto.
  - pose proof (Z.mod_pos_bound v 10 ltac:(lia)) as B. pose proof (Z.div_pos v 10 Hv ltac:(lia)) as Hq.
    set (T := 10 ^ Z.of_nat p). assert (HT : 0 < T) by (apply Z.pow_pos_nonneg; lia).
    rewrite Nat2Z.inj_succ, Z.pow_succ_r by lia. fold T.
    assert (DM : v mod (10 * T) = v mod 10 + 10 * ((v / 10) mod T)) by (apply Z.rem_mul_r; lia).
    destruct (Z.eqb_spec (v mod 10) 0) as [E|E]; cbn [orb negb].
    + specialize (IH (v / 10) Hq). fold T in IH. destruct IH as [IH1 IH2]. split; [rewrite IH1, Z.div_div by lia; reflexivity|].
      rewrite E in DM. destruct IH2 as [(E1 & E2)|(k & x & j & K & X & K0 & M & F)].
      * left. split; [lia|exact E2].
      * right. exists k, x, (S j). split; [lia|]. split; [exact X|]. split; [exact K0|]. split; [|exact F].
        rewrite DM, M, Nat2Z.inj_succ, Z.pow_succ_r by lia. ring.
    + rewrite fmtFrac_print by exact Hq. fold T. cbn [fst snd]. split; [rewrite Z.div_div by lia; reflexivity|].
      right. pose proof (Z.mod_pos_bound (v / 10) T HT) as B2.
      exists (S p), (v mod (10 * T)), O. split; [lia|]. rewrite Nat2Z.inj_succ, Z.pow_succ_r by lia. fold T. change (10 ^ Z.of_nat 0) with 1.
      split; [rewrite DM; lia|]. split; [lia|]. split; [lia|].
      f_equal. cbn [frac_digits].
      assert (G : forall n y b, 0 <= y -> frac_digits n (y mod 10 ^ Z.of_nat n) b = frac_digits n y b).
      { clear. induction n as [|n IH]; intros y b Hy; [reflexivity|]. cbn [frac_digits].
        rewrite Nat2Z.inj_succ, Z.pow_succ_r by lia. assert (0 < 10 ^ Z.of_nat n) by (apply Z.pow_pos_nonneg; lia).
        pose proof (Z.mod_pos_bound y 10 ltac:(lia)). pose proof (Z.mod_pos_bound (y / 10) (10 ^ Z.of_nat n) ltac:(lia)).
        rewrite Z.rem_mul_r by lia. replace (y mod 10 + 10 * ((y / 10) mod 10 ^ Z.of_nat n)) with ((y / 10) mod 10 ^ Z.of_nat n * 10 + y mod 10) by ring.
        rewrite Z.div_add_l, (Z.div_small (y mod 10) 10), Z.add_0_r by lia. rewrite Z.add_comm, Z.mod_add, Z.mod_mod by lia. apply IH. apply Z.div_pos; lia. }
      pose proof (G p (v / 10) (String (digit_char (v mod 10)) buf) Hq) as G1. fold T in G1. rewrite <- G1.
      rewrite DM. replace (v mod 10 + 10 * ((v / 10) mod T)) with ((v / 10) mod T * 10 + v mod 10) by ring.
      rewrite Z.div_add_l, (Z.div_small (v mod 10) 10), Z.add_0_r by lia. rewrite (Z.add_comm (_ * 10)), Z.mod_add, Z.mod_mod by lia. reflexivity.
Qed.

Lemma leadingFraction_digits k x buf : 0 <= x < 10 ^ Z.of_nat k -> forall y scale, 0 <= y -> (y + 1) * 10 ^ Z.of_nat k <= 10 ^ 18 ->
  leadingFraction (frac_digits k x buf) y scale false = leadingFraction buf (y * 10 ^ Z.of_nat k + x) (scale * 10 ^ Z.of_nat k) false.
Proof.
  revert x buf; induction k as [|k IH]; intros x buf Hx y scale Hy Hb; cbn [frac_digits].
  - cbn in *. replace (y * 1 + x) with y by lia. rewrite Z.mul_1_r. reflexivity.
  - rewrite Nat2Z.inj_succ, Z.pow_succ_r in * by lia. set (T := 10 ^ Z.of_nat k) in *. assert (HT : 0 < T) by (apply Z.pow_pos_nonneg; lia).
    pose proof (Z.mod_pos_bound x 10 ltac:(lia)) as B. pose proof (Z.div_mod x 10 ltac:(lia)) as E.
    rewrite IH; [|split; [apply Z.div_pos; lia|apply Z.div_lt_upper_bound; lia]|lia|lia].
    cbn [leadingFraction]. destruct (digit_char_digit (x mod 10) ltac:(lia)) as [-> _].
    assert (Y : 0 <= y * T + x / 10 < 10 ^ 17).
    { assert (0 <= x / 10 < T) by (split; [apply Z.div_pos; lia|apply Z.div_lt_upper_bound; lia]). change (10 ^ 18) with (10 * 10 ^ 17) in Hb. nia. }
    destruct (Z.ltb_spec ((two63 - 1) / 10) (y * T + x / 10)) as [L|_].
    { exfalso. change ((two63 - 1) / 10) with 922337203685477580 in L. lia. }
    destruct (Z.ltb_spec two63 ((y * T + x / 10) * 10 + x mod 10)) as [L|_].
    { exfalso. change two63 with 9223372036854775808 in L. lia. }
    f_equal; [lia|ring].
Qed.

(** Units *)
Definition unit_name (u : string) (val : Z) : Prop :=
  unitMap u = Some val /\ 0 < val /\ no_digit u /\ u <> "" /\ (forall r, match u ++ r with String c _ => Ascii.eqb c "." = false | _ => True end) /\
  (forall rest, match rest with EmptyString => True | String c _ => is_digit c = true end -> span_unit (u ++ rest) = (u, rest)).

Ltac unit_tac := split; [reflexivity|]; split; [reflexivity|]; split; [reflexivity|]; split; [discriminate|]; split; [intros; reflexivity|];
  intros rest H; destruct rest as [|c rest]; cbn; [reflexivity|]; rewrite H, orb_true_r; reflexivity.
Lemma unit_ns : unit_name "ns" 1. Proof. unit_tac. Qed.
Lemma unit_us : unit_name (micro ++ "s") Microsecond. Proof. unit_tac. Qed.
Lemma unit_ms : unit_name "ms" Millisecond. Proof. unit_tac. Qed.
Lemma unit_s : unit_name "s" Second. Proof. unit_tac. Qed.
Lemma unit_m : unit_name "m" Minute. Proof. unit_tac. Qed.
Lemma unit_h : unit_name "h" Hour. Proof. unit_tac. Qed.

Lemma str_app_assoc (a b c : string) : (a ++ (b ++ c) = (a ++ b) ++ c)%string.
Proof. induction a as [|x a IH]; cbn; [reflexivity|]. rewrite IH. reflexivity. Qed.
Lemma no_digit_app u r : no_digit u -> u <> "" -> no_digit (u ++ r).
Proof. destruct u; [congruence|]. cbn. auto. Qed.

Section Loop.
Variable fl : Z -> Z -> Z -> Z.

(** one component without a fraction *)
Lemma parse_whole fuel n u val rest d : unit_name u val -> 0 <= n -> 0 <= d -> d + n * val <= two63 ->
  match rest with EmptyString => True | String c _ => is_digit c = true end ->
  parse_loop fl (S fuel) (itoa n ++ u ++ rest) d = parse_loop fl fuel rest (d + n * val).
Proof.
  intros (U & V & ND & NE & DOT & SP) Hn Hd Hle Hr.
  destruct (itoa_first n Hn) as (c & s & E & ID & _ & _).
  pose proof (no_digit_app u rest ND NE) as ND'.
  assert (L : leadingInt (itoa n ++ u ++ rest) 0 = Some (n, u ++ rest)) by (apply leading_itoa; [nia|exact ND']).
  rewrite E in *. cbn [append parse_loop] in *. rewrite ID. rewrite orb_true_r. cbn [negb]. rewrite L.
  specialize (DOT rest). assert (D : (match (u ++ rest)%string with
     | String c2 s2 => if Ascii.eqb c2 "." then let '(f, scale, s3) := leadingFraction s2 0 1 false in
          (f, scale, s3, match s2 with String c3 _ => is_digit c3 | EmptyString => false end) else (0, 1, (u ++ rest)%string, false)
     | EmptyString => (0, 1, (u ++ rest)%string, false) end) = (0, 1, (u ++ rest)%string, false)).
  { destruct (u ++ rest)%string; [reflexivity|]. rewrite DOT. reflexivity. }
  rewrite D. cbn [negb andb]. rewrite SP by exact Hr. rewrite U.
  destruct (Z.ltb_spec (two63 / val) n) as [LT|_].
  { exfalso. assert (n <= two63 / val) by (apply Z.div_le_lower_bound; lia). lia. }
  change (0 <? 0) with false. cbn [andb]. assert (T63 : 0 < two63) by reflexivity. rewrite Z.mod_small by (pose proof (Z.mul_nonneg_nonneg n val Hn ltac:(lia)); lia).
  destruct (Z.ltb_spec two63 (d + n * val)); [lia|reflexivity].
Qed.

Hypothesis Hfl : float_exact fl.

(** one component as written by fmtFrac *)
Lemma parse_frac fuel v prec u d : unit_name u (10 ^ Z.of_nat prec) -> (prec <= 9)%nat -> 0 <= v -> 0 <= d -> d + v <= two63 ->
  let '(buf, n) := fmtFrac prec v false u in
  parse_loop fl (S fuel) (itoa n ++ buf) d = Some (d + v).
Proof.
  intros HU Hp Hv Hd Hle. set (T := 10 ^ Z.of_nat prec) in *. assert (HT : 0 < T) by (apply Z.pow_pos_nonneg; lia).
  destruct (fmtFrac_spec prec v u Hv) as [S1 S2]. fold T in S1, S2. destruct (fmtFrac prec v false u) as [buf n] eqn:EF. cbn [fst snd] in S1, S2.
  pose proof (Z.div_mod v T ltac:(lia)) as DM. pose proof (Z.mod_pos_bound v T HT) as MB. pose proof (Z.div_pos v T Hv HT) as DP.
  destruct S2 as [(E & ->)|(k & x & j & K & X & K0 & M & ->)].
  - pose proof (parse_whole fuel n u T "" d HU ltac:(lia) Hd ltac:(nia) I) as P. rewrite str_app_nil_r in P. rewrite P.
    destruct fuel; cbn [parse_loop]; f_equal; nia.
  - destruct HU as (U & V & ND & NE & DOT & SP).
    destruct (itoa_first n ltac:(lia)) as (c & s & EI & ID & _ & _).
    assert (L : leadingInt (itoa n ++ String "." (frac_digits k x u)) 0 = Some (n, String "." (frac_digits k x u))).
    { apply leading_itoa; [nia|reflexivity]. }
    rewrite EI in *. cbn [append parse_loop] in *. rewrite ID, orb_true_r. cbn [negb]. rewrite L. change (Ascii.eqb "." ".") with true. cbv iota.
    set (TK := 10 ^ Z.of_nat k) in *. assert (HTK : 0 < TK) by (apply Z.pow_pos_nonneg; lia).
    assert (Tsplit : T = 10 ^ Z.of_nat j * TK).
    { unfold T, TK. rewrite <- Z.pow_add_r by lia. f_equal. lia. }
    assert (HTj : 0 < 10 ^ Z.of_nat j) by (apply Z.pow_pos_nonneg; lia).
    assert (T9 : T <= 10 ^ 9) by (apply Z.pow_le_mono_r; lia).
    assert (TK9 : TK <= 10 ^ 9) by (apply Z.pow_le_mono_r; lia).
    pose proof (leadingFraction_digits k x u ltac:(fold TK; lia) 0 1 ltac:(lia) ltac:(fold TK; lia)) as LF. fold TK in LF. rewrite LF.
    assert (ST : forall y sc, leadingFraction u y sc false = (y, sc, u)).
    { intros y sc. destruct u as [|c0 u0]; [reflexivity|]. cbn [leadingFraction]. cbn in ND. unfold is_digit in ND. destruct (digit c0); [discriminate|reflexivity]. }
    rewrite ST. cbn [negb andb]. specialize (SP "" I). rewrite str_app_nil_r in SP. rewrite SP, U.
    destruct (Z.ltb_spec (two63 / T) n) as [LT|_].
    { exfalso. assert (n <= two63 / T) by (apply Z.div_le_lower_bound; nia). lia. }
    replace (0 * TK + x) with x by lia. rewrite Z.mul_1_l. destruct (Z.ltb_spec 0 x); [|lia].
    assert (FE : fl x T TK = v mod T).
    { rewrite M, Tsplit. apply Hfl; try lia; try nia. }
    rewrite FE. assert (NV : n * T + v mod T = v) by nia. rewrite NV. cbn [andb].
    assert (T63 : 0 < two63) by reflexivity. destruct (Z.ltb_spec two63 v); [lia|]. rewrite Z.mod_small by lia. destruct (Z.ltb_spec two63 (d + v)); [lia|]. destruct fuel; reflexivity.
Qed.

Lemma itoa_head n s : 0 <= n -> match (itoa n ++ s)%string with EmptyString => True | String c _ => is_digit c = true end.
Proof. intros H. destruct (itoa_first n H) as (c & r & E & ID & _). rewrite E. exact ID. Qed.
Lemma itoa_length n : 0 <= n -> (1 <= String.length (itoa n))%nat.
Proof. intros H. destruct (itoa_first n H) as (c & r & E & _). rewrite E. cbn. lia. Qed.

(** the text of the magnitude *)
Definition magnitude (u : Z) : string :=
  if u <? Second then
      if u =? 0 then "0s"
      else
        let '(prec, unit) :=
          if u <? Microsecond then (0%nat, "ns") else if u <? Millisecond then (3%nat, micro ++ "s") else (6%nat, "ms") in
        let '(buf, u) := fmtFrac prec u false unit in
        itoa u ++ buf
    else
      let '(buf, u) := fmtFrac 9 u false "s" in
      let buf := itoa (u mod 60) ++ buf in
      let u := u / 60 in
      if 0 <? u then
        let buf := itoa (u mod 60) ++ "m" ++ buf in
        let u := u / 60 in
        if 0 <? u then itoa u ++ "h" ++ buf else buf
      else buf.
Lemma DurationString_eq d : DurationString d = if d <? 0 then "-" ++ magnitude (Z.abs d) else magnitude (Z.abs d).
Proof. reflexivity. Qed.

Lemma fmtFrac_shift p v print buf m : 0 <= v -> 0 <= m ->
  fmtFrac p (v + m * 10 ^ Z.of_nat p) print buf = (fst (fmtFrac p v print buf), snd (fmtFrac p v print buf) + m).
Proof.
  revert v print buf; induction p as [|p IH]; intros v print buf Hv Hm.
  - cbn [fmtFrac fst snd]. f_equal. cbn. lia.
  - cbn [fmtFrac]. rewrite Nat2Z.inj_succ, Z.pow_succ_r by lia.
    replace (v + m * (10 * 10 ^ Z.of_nat p)) with (v + m * 10 ^ Z.of_nat p * 10) by ring.
    rewrite Z.mod_add, Z.div_add by lia. apply IH; [apply Z.div_pos; lia|lia].
Qed.

Lemma parse_magnitude u : 0 <= u <= two63 ->
  exists c s, magnitude u = String c s /\ is_digit c = true /\ Ascii.eqb c "-" = false /\ Ascii.eqb c "+" = false /\ magnitude u <> "0" /\
    parse_loop fl (String.length (magnitude u)) (magnitude u) 0 = Some u.
Proof.
  intros Hu. unfold magnitude.
  assert (FIRST : forall n r, 0 <= n -> r <> "" -> exists c s, (itoa n ++ r)%string = String c s /\ is_digit c = true /\ Ascii.eqb c "-" = false /\
            Ascii.eqb c "+" = false /\ (itoa n ++ r)%string <> "0").
  { intros n r Hn Hr. destruct (itoa_first n Hn) as (c & s & E & ID & A & B). rewrite E. cbn [append]. exists c, (s ++ r)%string. repeat split; auto.
    intros C. injection C as _ C. destruct s; [|discriminate]. cbn in C. congruence. }
  assert (CASES : forall prec unit v, unit_name unit (10 ^ Z.of_nat prec) -> (prec <= 9)%nat -> 0 <= v <= two63 ->
     let '(buf, n) := fmtFrac prec v false unit in
     0 <= n /\ buf <> "" /\ forall fuel d, 0 <= d -> d + v <= two63 -> parse_loop fl (S fuel) (itoa n ++ buf) d = Some (d + v)).
  { intros prec unit v HU Hp Hv. pose proof (fmtFrac_spec prec v unit ltac:(lia)) as [S1 S2].
    pose proof (fun fuel d => parse_frac fuel v prec unit d HU Hp ltac:(lia)) as P. destruct (fmtFrac prec v false unit) as [buf n]. cbn [fst snd] in *.
    split; [rewrite S1; apply Z.div_pos; [lia|apply Z.pow_pos_nonneg; lia]|]. split.
    - destruct S2 as [(_ & ->)|(k & x & j & _ & _ & _ & _ & ->)]; [|discriminate]. destruct HU as (_ & _ & _ & NE & _). exact NE.
    - intros fuel d Hd Hle. apply P; auto. }
  assert (SMALL : forall prec unit, unit_name unit (10 ^ Z.of_nat prec) -> (prec <= 9)%nat ->
     exists c s, (let '(buf, n) := fmtFrac prec u false unit in itoa n ++ buf)%string = String c s /\ is_digit c = true /\ Ascii.eqb c "-" = false /\
       Ascii.eqb c "+" = false /\ (let '(buf, n) := fmtFrac prec u false unit in itoa n ++ buf)%string <> "0" /\
       parse_loop fl (String.length (let '(buf, n) := fmtFrac prec u false unit in itoa n ++ buf)) (let '(buf, n) := fmtFrac prec u false unit in itoa n ++ buf) 0 = Some u).
  { intros prec unit HU Hp. specialize (CASES prec unit u HU Hp Hu). destruct (fmtFrac prec u false unit) as [buf n]. destruct CASES as (Hn & Hb & P).
    destruct (FIRST n buf Hn Hb) as (c & s & E & ID & A & B & Z0). exists c, s. repeat split; auto.
    rewrite str_length_app. pose proof (itoa_length n Hn). destruct (String.length (itoa n)) as [|len]; [lia|]. cbn [Nat.add]. apply P; lia. }
  destruct (Z.ltb_spec u Second) as [LS|LS].
  - destruct (Z.eqb_spec u 0) as [->|NZ]; [exists "0"%char, "s"; repeat split; discriminate|].
    destruct (u <? Microsecond); [apply (SMALL 0%nat "ns" unit_ns); lia|].
    destruct (u <? Millisecond); [apply (SMALL 3%nat _ unit_us); lia|]. apply (SMALL 6%nat "ms" unit_ms); lia.
  - (* seconds and more *)
    set (w := u / Second) in *. pose proof (Z.div_mod u Second ltac:(discriminate)) as DU. fold w in DU.
    pose proof (Z.mod_pos_bound u Second ltac:(reflexivity)) as MU.
    assert (HF : fmtFrac 9 u false "s" = (fst (fmtFrac 9 (u mod Second) false "s"), w)).
    { destruct (fmtFrac_spec 9 u "s" ltac:(lia)) as [S1 _]. change (10 ^ Z.of_nat 9) with Second in S1. fold w in S1.
      rewrite (surjective_pairing (fmtFrac 9 u false "s")), S1. f_equal.
      rewrite DU at 1. rewrite Z.add_comm, (Z.mul_comm Second). change Second with (10 ^ Z.of_nat 9) at 2.
      rewrite fmtFrac_shift by (try lia; unfold w; apply Z.div_pos; lia). reflexivity. }
    rewrite HF. set (buf := fst (fmtFrac 9 (u mod Second) false "s")).
    assert (Hw : 1 <= w) by (unfold w; apply Z.div_le_lower_bound; [reflexivity|lia]).
    (* the seconds component, with the minutes taken off *)
    assert (SEC : forall r fuel d, 0 <= r -> 0 <= d -> d + (r * Second + u mod Second) <= two63 ->
       parse_loop fl (S fuel) (itoa r ++ buf) d = Some (d + (r * Second + u mod Second))).
    { intros r fuel d Hr Hd Hle. assert (0 <= r * Second) by (apply Z.mul_nonneg_nonneg; [lia|discriminate]). pose proof (parse_frac fuel (u mod Second + r * 10 ^ Z.of_nat 9) 9 "s" d unit_s ltac:(lia) ltac:(change (10 ^ Z.of_nat 9) with Second; lia) Hd ltac:(change (10 ^ Z.of_nat 9) with Second; lia)) as P.
      rewrite fmtFrac_shift in P by lia. fold buf in P.
      assert (S0 : snd (fmtFrac 9 (u mod Second) false "s") = 0).
      { destruct (fmtFrac_spec 9 (u mod Second) "s" ltac:(lia)) as [S1 _]. rewrite S1. apply Z.div_small. exact MU. }
      rewrite S0 in P. cbn [Z.add] in P. rewrite P. f_equal. change (10 ^ Z.of_nat 9) with Second. lia. }
    assert (Hbuf : buf <> "").
    { unfold buf. destruct (fmtFrac_spec 9 (u mod Second) "s" ltac:(lia)) as [_ [(_ & ->)|(k & x & j & _ & _ & _ & _ & ->)]]; discriminate. }
    pose proof (Z.div_mod w 60 ltac:(lia)) as D1. pose proof (Z.mod_pos_bound w 60 ltac:(lia)) as M1.
    set (mi := w / 60) in *. assert (Hmi : 0 <= mi) by (unfold mi; apply Z.div_pos; lia).
    pose proof (Z.div_mod mi 60 ltac:(lia)) as D2. pose proof (Z.mod_pos_bound mi 60 ltac:(lia)) as M2.
    set (ho := mi / 60) in *. assert (Hho : 0 <= ho) by (unfold ho; apply Z.div_pos; lia).
    assert (CM : Minute = 60 * Second) by reflexivity. assert (CH : Hour = 60 * Minute) by reflexivity. assert (S9 : 0 < Second) by reflexivity.
    destruct (Z.ltb_spec 0 mi) as [Lm|Lm]; [destruct (Z.ltb_spec 0 ho) as [Lh|Lh]|].
    + destruct (FIRST ho ("h" ++ itoa (mi mod 60) ++ "m" ++ itoa (w mod 60) ++ buf) ltac:(lia) ltac:(discriminate)) as (c & s & E & ID & A & B & Z0).
      exists c, s. split; [exact E|]. repeat split; auto.
      assert (LEN : (3 <= String.length (itoa ho ++ "h" ++ itoa (mi mod 60) ++ "m" ++ itoa (w mod 60) ++ buf))%nat).
      { rewrite !str_length_app. cbn [String.length]. pose proof (itoa_length ho Hho). pose proof (itoa_length (mi mod 60) ltac:(lia)). lia. }
      destruct (String.length (itoa ho ++ "h" ++ itoa (mi mod 60) ++ "m" ++ itoa (w mod 60) ++ buf)) as [|[|[|n]]]; try lia.
      rewrite (parse_whole _ ho "h" Hour); [|exact unit_h|lia|lia|nia|apply itoa_head; lia].
      rewrite (parse_whole _ (mi mod 60) "m" Minute); [|exact unit_m|lia|nia|nia|apply itoa_head; lia].
      rewrite SEC; [f_equal; nia|lia|nia|nia].
    + assert (ho = 0) by lia. assert (MM : mi mod 60 = mi) by lia.
      destruct (FIRST (mi mod 60) ("m" ++ itoa (w mod 60) ++ buf) ltac:(lia) ltac:(discriminate)) as (c & s & E & ID & A & B & Z0).
      exists c, s. split; [exact E|]. repeat split; auto.
      assert (LEN : (2 <= String.length (itoa (mi mod 60) ++ "m" ++ itoa (w mod 60) ++ buf))%nat).
      { rewrite !str_length_app. cbn [String.length]. pose proof (itoa_length (mi mod 60) ltac:(lia)). lia. }
      destruct (String.length (itoa (mi mod 60) ++ "m" ++ itoa (w mod 60) ++ buf)) as [|[|n]]; try lia.
      rewrite (parse_whole _ (mi mod 60) "m" Minute); [|exact unit_m|lia|lia|nia|apply itoa_head; lia].
      rewrite SEC; [f_equal; nia|lia|nia|nia].
    + assert (mi = 0) by lia. destruct (FIRST (w mod 60) buf ltac:(lia) Hbuf) as (c & s & E & ID & A & B & Z0).
      exists c, s. split; [exact E|]. repeat split; auto.
      rewrite str_length_app. pose proof (itoa_length (w mod 60) ltac:(lia)). destruct (String.length (itoa (w mod 60))) as [|n]; [lia|]. cbn [Nat.add].
      rewrite SEC; [f_equal; nia|lia|lia|nia].
Qed.

Theorem ParseDuration_String d : int64 d -> ParseDuration fl (DurationString d) = Some d.
Proof.
  intros H. unfold int64 in H. destruct (parse_magnitude (Z.abs d) ltac:(lia)) as (c & s & E & _ & A & B & Z0 & P).
  rewrite DurationString_eq. destruct (Z.ltb_spec d 0) as [L|L]; unfold ParseDuration.
  - cbn [append sign]. change (Ascii.eqb "-" "-") with true. cbv iota.
    destruct (String.eqb_spec (magnitude (Z.abs d)) "0"); [contradiction|]. destruct (String.eqb_spec (magnitude (Z.abs d)) ""); [congruence|].
    rewrite P. f_equal. lia.
  - assert (SG : sign (magnitude (Z.abs d)) = (false, magnitude (Z.abs d))) by (rewrite E; apply sign_first; auto). rewrite SG.
    destruct (String.eqb_spec (magnitude (Z.abs d)) "0"); [contradiction|]. destruct (String.eqb_spec (magnitude (Z.abs d)) ""); [congruence|].
    rewrite P. destruct (Z.ltb_spec (two63 - 1) (Z.abs d)); [lia|]. f_equal. lia.
Qed.
End Loop.

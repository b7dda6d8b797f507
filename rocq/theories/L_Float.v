(** Lemmas on rounding. *)
From Coq Require Import ZArith QArith Qround Qabs Qpower Lqa Lia.
From Verif Require Import Go M_Types M_Web M_Float S_Timeline.
Open Scope Z_scope.

(** *** nearest *)
Lemma floor_spec x : (inject_Z (Qfloor x) <= x < inject_Z (Qfloor x) + 1)%Q.
Proof. split; [apply Qfloor_le|]. pose proof (Qlt_floor x) as H. rewrite inject_Z_plus in H. exact H. Qed.
Lemma nearest_cases x :
  ((x - inject_Z (Qfloor x) <= 1 # 2)%Q /\ nearest x = Qfloor x) \/ ((1 # 2 <= x - inject_Z (Qfloor x))%Q /\ nearest x = Qfloor x + 1).
Proof.
  unfold nearest. destruct (Qcompare_spec (x - inject_Z (Qfloor x)) (1 # 2)) as [E|E|E].
  - destruct (Z.even (Qfloor x)); [left|right]; (split; [rewrite E; apply Qle_refl|reflexivity]).
  - left. split; [apply Qlt_le_weak; exact E|reflexivity].
  - right. split; [apply Qlt_le_weak; exact E|reflexivity].
Qed.
Lemma nearest_error x : (- (1 # 2) <= inject_Z (nearest x) - x <= 1 # 2)%Q.
Proof.
  pose proof (floor_spec x). destruct (nearest_cases x) as [[H1 ->]|[H1 ->]]; rewrite ?inject_Z_plus; split; try lra; change (inject_Z 1) with 1%Q; lra.
Qed.
Lemma nearest_floor x : Qfloor x <= nearest x <= Qfloor x + 1.
Proof. destruct (nearest_cases x) as [[_ ->]|[_ ->]]; lia. Qed.
Lemma nearest_mono x y : (x <= y)%Q -> nearest x <= nearest y.
Proof.
  intros H. pose proof (Qfloor_resp_le x y H) as Hf. destruct (Z.eq_dec (Qfloor x) (Qfloor y)) as [E|E].
  - unfold nearest. rewrite <- E.
    destruct (Qcompare_spec (x - inject_Z (Qfloor x)) (1 # 2)) as [A|A|A], (Qcompare_spec (y - inject_Z (Qfloor x)) (1 # 2)) as [B|B|B];
      try destruct (Z.even (Qfloor x)); try lia; exfalso; lra.
  - pose proof (nearest_floor x). pose proof (nearest_floor y). lia.
Qed.
Lemma nearest_comp x y : (x == y)%Q -> nearest x = nearest y.
Proof. intros H. apply Z.le_antisymm; apply nearest_mono; rewrite H; apply Qle_refl. Qed.
Lemma nearest_Z n : nearest (inject_Z n) = n.
Proof.
  pose proof (nearest_error (inject_Z n)) as [A B].
  assert (A' : (inject_Z n < inject_Z (nearest (inject_Z n) + 1))%Q) by (rewrite inject_Z_plus; change (inject_Z 1) with 1%Q; lra).
  assert (B' : (inject_Z (nearest (inject_Z n)) < inject_Z (n + 1))%Q) by (rewrite inject_Z_plus; change (inject_Z 1) with 1%Q; lra).
  rewrite <- Zlt_Qlt in A', B'. lia.
Qed.

(** *** powers of two *)
Lemma two_pos e : (0 < two e)%Q.
Proof. apply Qpower_0_lt. reflexivity. Qed.
Lemma two_plus a b : (two (a + b) == two a * two b)%Q.
Proof. apply Qpower_plus. discriminate. Qed.
Lemma two_Z e : 0 <= e -> (two e == inject_Z (2 ^ e))%Q.
Proof. intros H. unfold two. rewrite Zpower_Qpower by exact H. reflexivity. Qed.
Lemma two_le a b : a <= b -> (two a <= two b)%Q.
Proof. intros H. apply Qpower_le_compat_l; [exact H|discriminate]. Qed.
Lemma two_lt_inv a b : (two a < two b)%Q -> a < b.
Proof. intros H. destruct (Z.lt_ge_cases a b) as [|E]; [assumption|]. exfalso. pose proof (two_le b a E). lra. Qed.
Lemma two_S a : (two (a + 1) == 2 * two a)%Q.
Proof. rewrite two_plus. change (two 1) with (2 # 1)%Q. ring. Qed.

Lemma log2_spec x : (0 < x)%Q -> (two (log2 x) <= x < two (log2 x + 1))%Q.
Proof.
  intros H. destruct x as [n d]. assert (Hn : 0 < n) by (unfold Qlt in H; cbn in H; lia).
  pose proof (Z.log2_spec n Hn) as [A B]. pose proof (Z.log2_spec (Zpos d) ltac:(lia)) as [C D].
  set (a := Z.log2 n) in *. set (b := Z.log2 (Zpos d)) in *.
  assert (Ha : 0 <= a) by apply Z.log2_nonneg. assert (Hb : 0 <= b) by apply Z.log2_nonneg.
  assert (Ex : (n # d == inject_Z n / inject_Z (Zpos d))%Q) by (rewrite <- (Qmake_Qdiv n d); reflexivity).
  assert (Pd : (0 < inject_Z (Zpos d))%Q) by reflexivity.
  rewrite Zle_Qle, <- two_Z in A, C by lia. rewrite Zlt_Qlt, <- two_Z in B, D by lia.
  rewrite <- Z.add_1_r in B, D. rewrite two_S in B, D. pose proof (two_pos a). pose proof (two_pos b).
  assert (U : (n # d < two (a - b + 1))%Q).
  { rewrite Ex. apply Qlt_shift_div_r; [exact Pd|]. assert (E : (two (a - b + 1) * two b == 2 * two a)%Q) by (rewrite <- two_plus; replace (a - b + 1 + b) with (a + 1) by lia; apply two_S).
    assert ((two (a - b + 1) * two b <= two (a - b + 1) * inject_Z (Zpos d))%Q) by (apply Qmult_le_l; [apply two_pos|exact C]). lra. }
  assert (V : (two (a - b - 1) <= n # d)%Q).
  { rewrite Ex. apply Qle_shift_div_l; [exact Pd|]. assert (E : (two (a - b - 1) * (2 * two b) == two a)%Q) by (rewrite <- two_S, <- two_plus; replace (a - b - 1 + (b + 1)) with a by lia; reflexivity).
    assert ((two (a - b - 1) * inject_Z (Zpos d) <= two (a - b - 1) * (2 * two b))%Q) by (apply Qmult_le_l; [apply two_pos|apply Qlt_le_weak; exact D]). lra. }
  unfold log2. cbn [Qnum Qden]. fold a b. destruct (Qle_bool (two (a - b)) (n # d)) eqn:E.
  - apply Qle_bool_iff in E. split; assumption.
  - split; [exact V|]. replace (a - b - 1 + 1) with (a - b) by lia. apply Qnot_le_lt. intros E'. apply Qle_bool_iff in E'. congruence.
Qed.
Lemma log2_mono x y : (0 < x)%Q -> (x <= y)%Q -> log2 x <= log2 y.
Proof.
  intros Hx H. pose proof (log2_spec x Hx) as [A _]. pose proof (log2_spec y ltac:(lra)) as [_ B].
  assert (two (log2 x) < two (log2 y + 1))%Q as C by lra. apply two_lt_inv in C. lia.
Qed.
Lemma log2_lt x k : (0 < x)%Q -> (x < two k)%Q -> log2 x < k.
Proof. intros Hx H. pose proof (log2_spec x Hx) as [A _]. apply two_lt_inv. lra. Qed.

(** *** rounding of positive numbers *)
(** a multiple of the last place *)
Lemma at_place k e : e <= k -> (two k / two e == inject_Z (2 ^ (k - e)))%Q.
Proof.
  intros H. rewrite <- two_Z by lia. pose proof (two_pos e).
  assert (E : (two k == two (k - e) * two e)%Q) by (rewrite <- two_plus; replace (k - e + e) with k by lia; reflexivity).
  rewrite E. field. lra.
Qed.
Lemma place_le x y e : (x <= y)%Q -> (x / two e <= y / two e)%Q.
Proof. intros H. apply Qmult_le_compat_r; [exact H|]. apply Qlt_le_weak, Qinv_lt_0_compat, two_pos. Qed.
Lemma round_pos_mono x y : (0 < x)%Q -> (x <= y)%Q -> (round_pos x <= round_pos y)%Q.
Proof.
  intros Hx H. unfold round_pos. pose proof (log2_mono x y Hx H) as Hl. assert (Hy : (0 < y)%Q) by lra.
  destruct (Z.eq_dec (last_place x) (last_place y)) as [E|E].
  - rewrite <- E. apply Qmult_le_compat_r; [|apply Qlt_le_weak, two_pos]. rewrite <- Zle_Qle. apply nearest_mono, place_le. exact H.
  - unfold last_place in *. set (ex := Z.max (-1074) (log2 x - 52)) in *. set (ey := Z.max (-1074) (log2 y - 52)) in *. set (k := log2 y) in *.
    assert (Hk : log2 x < k /\ ex <= k /\ ey <= k) by lia. destruct Hk as (Hk & Hex & Hey).
    pose proof (log2_spec x Hx) as [_ Ux]. pose proof (log2_spec y Hy) as [Ly _]. fold k in Ly.
    pose proof (two_le (log2 x + 1) k ltac:(lia)) as Hxy.
    apply Qle_trans with (two k).
    + assert (N : nearest (x / two ex) <= 2 ^ (k - ex)).
      { rewrite <- (nearest_Z (2 ^ (k - ex))). apply nearest_mono. rewrite <- at_place by lia. apply place_le. lra. }
      rewrite Zle_Qle, <- at_place in N by lia. pose proof (two_pos ex) as P.
      apply Qle_trans with (two k / two ex * two ex)%Q; [apply Qmult_le_compat_r; [exact N|lra]|]. apply Qle_lteq. right. field. lra.
    + assert (N : 2 ^ (k - ey) <= nearest (y / two ey)).
      { rewrite <- (nearest_Z (2 ^ (k - ey))). apply nearest_mono. rewrite <- at_place by lia. apply place_le. lra. }
      rewrite Zle_Qle, <- at_place in N by lia. pose proof (two_pos ey) as P.
      apply Qle_trans with (two k / two ey * two ey)%Q; [|apply Qmult_le_compat_r; [exact N|lra]]. apply Qle_lteq. right. field. lra.
Qed.
Lemma round_pos_exact x m e : 0 < m < 2 ^ 53 -> -1074 <= e -> (x == inject_Z m * two e)%Q -> (round_pos x == x)%Q.
Proof.
  intros Hm He E. pose proof (two_pos e) as Pe. assert (Pm : (0 < inject_Z m)%Q) by (change 0%Q with (inject_Z 0); rewrite <- Zlt_Qlt; lia).
  assert (Hx : (0 < x)%Q) by (rewrite E; apply Qmult_lt_0_compat; assumption).
  assert (L : log2 x < 53 + e).
  { apply log2_lt; [exact Hx|]. rewrite E, two_plus. apply Qmult_lt_r; [exact Pe|]. rewrite two_Z by lia. rewrite <- Zlt_Qlt. lia. }
  unfold round_pos. assert (Hp : last_place x <= e) by (unfold last_place; lia). set (p := last_place x) in *. pose proof (two_pos p) as Pp.
  assert (Ei : (x / two p == inject_Z (m * 2 ^ (e - p)))%Q).
  { rewrite E, inject_Z_mult, <- at_place by lia. field. lra. }
  rewrite (nearest_comp _ _ Ei), nearest_Z, <- Ei. field. lra.
Qed.
Lemma round_pos_error x : (two (-1022) <= x)%Q -> (x * (1 - two (-53)) <= round_pos x <= x * (1 + two (-53)))%Q.
Proof.
  intros H. pose proof (two_pos (-1022)) as P0. assert (Hx : (0 < x)%Q) by lra. pose proof (log2_spec x Hx) as [A B].
  assert (L : -1022 <= log2 x). { assert (C : (two (-1022) < two (log2 x + 1))%Q) by lra. apply two_lt_inv in C. lia. }
  unfold round_pos, last_place. replace (Z.max (-1074) (log2 x - 52)) with (log2 x - 52) by lia. set (p := log2 x - 52).
  pose proof (two_pos p) as Pp. pose proof (nearest_error (x / two p)) as [E1 E2].
  assert (Ep : ((1 # 2) * two p == two (log2 x) * two (-53))%Q).
  { rewrite <- two_plus. replace (log2 x + -53) with (p + -1) by (unfold p; lia). rewrite two_plus. change (two (-1)) with (1 # 2)%Q. ring. }
  assert (Eu : (two (log2 x) * two (-53) <= x * two (-53))%Q) by (apply Qmult_le_compat_r; [exact A|apply Qlt_le_weak, two_pos]).
  set (n := inject_Z (nearest (x / two p))) in *.
  assert (F : (x / two p * two p == x)%Q) by (field; lra).
  assert (G1 : ((n - x / two p) * two p <= (1 # 2) * two p)%Q) by (apply Qmult_le_compat_r; [exact E2|lra]).
  assert (G2 : (- (1 # 2) * two p <= (n - x / two p) * two p)%Q) by (apply Qmult_le_compat_r; [exact E1|lra]).
  assert (G : ((n - x / two p) * two p == n * two p - x)%Q) by (rewrite <- F at 2; ring). rewrite G in G1, G2. split; lra.
Qed.

(** *** rounding *)
Lemma round_pos_eq x : (0 < x)%Q -> round x = round_pos x.
Proof. intros H. unfold round. destruct (Qcompare_spec x 0); [lra|lra|reflexivity]. Qed.
Lemma round_zero x : (x == 0)%Q -> round x = 0%Q.
Proof. intros H. unfold round. destruct (Qcompare_spec x 0); [reflexivity|lra|lra]. Qed.
Lemma round_pos_nonneg x : (0 < x)%Q -> (0 <= round_pos x)%Q.
Proof.
  intros H. unfold round_pos. apply Qmult_le_0_compat; [|apply Qlt_le_weak, two_pos]. change 0%Q with (inject_Z 0). rewrite <- Zle_Qle.
  rewrite <- (nearest_Z 0). apply nearest_mono. change (inject_Z 0) with 0%Q. apply Qle_shift_div_l; [apply two_pos|]. lra.
Qed.
Lemma round_mono x y : (x <= y)%Q -> (round x <= round y)%Q.
Proof.
  intros H. unfold round. destruct (Qcompare_spec x 0) as [A|A|A], (Qcompare_spec y 0) as [B|B|B]; try lra.
  - apply round_pos_nonneg. exact B.
  - pose proof (round_pos_nonneg (- x) ltac:(lra)). lra.
  - pose proof (round_pos_mono (- y) (- x) ltac:(lra) ltac:(lra)). lra.
  - pose proof (round_pos_nonneg (- x) ltac:(lra)). pose proof (round_pos_nonneg y B). lra.
  - apply round_pos_mono; assumption.
Qed.
Lemma round_comp x y : (x == y)%Q -> (round x == round y)%Q.
Proof. intros H. apply Qle_antisym; apply round_mono; rewrite H; apply Qle_refl. Qed.
(** numbers of 53 bits are unchanged *)
Lemma round_exact x m e : 0 <= m <= 2 ^ 53 -> -1074 <= e -> (x == inject_Z m * two e)%Q -> (round x == x)%Q.
Proof.
  intros Hm He E. destruct (Z.eq_dec m 0) as [->|H0].
  - rewrite round_zero; [|rewrite E; ring]. rewrite E. ring.
  - assert (Hx : (0 < x)%Q). { rewrite E. apply Qmult_lt_0_compat; [|apply two_pos]. change 0%Q with (inject_Z 0). rewrite <- Zlt_Qlt. lia. }
    rewrite round_pos_eq by exact Hx. destruct (Z.eq_dec m (2 ^ 53)) as [->|H1].
    + apply (round_pos_exact x (2 ^ 52) (e + 1)); [lia|lia|]. rewrite E, two_S. change (2 ^ 53) with (2 * 2 ^ 52). rewrite inject_Z_mult. change (inject_Z 2) with (2#1). ring.
    + apply (round_pos_exact x m e); [lia|exact He|exact E].
Qed.
Lemma round_int n : 0 <= n <= 2 ^ 53 -> (round (inject_Z n) == inject_Z n)%Q.
Proof. intros H. apply (round_exact _ n 0); [exact H|lia|]. change (two 0) with 1%Q. ring. Qed.
Lemma round_error x : (two (-1022) <= x)%Q -> (x * (1 - two (-53)) <= round x <= x * (1 + two (-53)))%Q.
Proof. intros H. pose proof (two_pos (-1022)). rewrite round_pos_eq by lra. apply round_pos_error. exact H. Qed.

Lemma trunc_floor x : (0 <= x)%Q -> trunc x = Qfloor x.
Proof. intros H. destruct x as [n d]. unfold Qle in H. cbn in H. unfold trunc, Qfloor. cbn [Qnum Qden]. apply Z.quot_div_nonneg; lia. Qed.
Lemma floor_unique x k : (inject_Z k <= x < inject_Z k + 1)%Q -> Qfloor x = k.
Proof.
  intros [A B]. pose proof (floor_spec x) as [C D]. assert (E1 : (inject_Z k < inject_Z (Qfloor x + 1))%Q) by (rewrite inject_Z_plus; change (inject_Z 1) with 1%Q; lra).
  assert (E2 : (inject_Z (Qfloor x) < inject_Z (k + 1))%Q) by (rewrite inject_Z_plus; change (inject_Z 1) with 1%Q; lra). rewrite <- Zlt_Qlt in E1, E2. lia.
Qed.

(** *** percentages *)
Lemma inject_pos d : 0 < d -> (0 < inject_Z d)%Q.
Proof. intros H. change 0%Q with (inject_Z 0). rewrite <- Zlt_Qlt. exact H. Qed.
Lemma inject_nonneg d : 0 <= d -> (0 <= inject_Z d)%Q.
Proof. intros H. change 0%Q with (inject_Z 0). rewrite <- Zle_Qle. exact H. Qed.
Lemma fdiv_fin x y : (0 < y)%Q -> fdiv x y = Fin (round (x / y)).
Proof. intros H. unfold fdiv. destruct (Qeq_bool y 0) eqn:E; [apply Qeq_bool_iff in E; lra|reflexivity]. Qed.
(** up to 2^46, only the division rounds *)
Lemma fpercent_small n d : 0 <= n <= 2 ^ 46 -> 0 < d <= 2 ^ 46 -> exists q, fpercent n d = Fin q /\ (q == round (share n d))%Q.
Proof.
  intros Hn Hd. pose proof (inject_pos d ltac:(lia)) as Pd. unfold fpercent, float64.
  assert (Ed : (round (inject_Z d) == inject_Z d)%Q) by (apply round_int; lia).
  rewrite fdiv_fin by (rewrite Ed; exact Pd). eexists. split; [reflexivity|]. apply round_comp. unfold share. rewrite Ed.
  assert (En : (round (inject_Z n) == inject_Z n)%Q) by (apply round_int; lia).
  assert (Ep : (round (inject_Z 100 * round (inject_Z n)) == inject_Z (100 * n))%Q).
  { rewrite (round_comp _ (inject_Z (100 * n))) by (rewrite En, inject_Z_mult; reflexivity). apply round_int. lia. }
  rewrite Ep. reflexivity.
Qed.
Lemma share_floor n d : 0 <= n -> 0 < d -> Qfloor (share n d) = 100 * n / d.
Proof. intros Hn Hd. unfold share. rewrite Zdiv_Qdiv. reflexivity. Qed.
Lemma share_le n d k : 0 < d -> 100 * n <= k * d -> (share n d <= inject_Z k)%Q.
Proof. intros Hd H. apply Qle_shift_div_r; [apply inject_pos; exact Hd|]. rewrite <- inject_Z_mult, <- Zle_Qle. lia. Qed.
Lemma share_ge n d k : 0 < d -> k * d <= 100 * n -> (inject_Z k <= share n d)%Q.
Proof. intros Hd H. apply Qle_shift_div_l; [apply inject_pos; exact Hd|]. rewrite <- inject_Z_mult, <- Zle_Qle. lia. Qed.
Lemma share_nonneg n d : 0 <= n -> 0 < d -> (0 <= share n d)%Q.
Proof. intros Hn Hd. change 0%Q with (inject_Z 0). apply share_ge; lia. Qed.
(** Rounding does not change the whole part of a percentage. *)
Lemma share_round_floor n d : 0 <= n <= d -> 0 < d <= 2 ^ 46 -> Qfloor (round (share n d)) = 100 * n / d.
Proof.
  intros Hn Hd. set (k := 100 * n / d). assert (Hk : k * d <= 100 * n < (k + 1) * d).
  { unfold k. pose proof (Z.div_mod (100 * n) d ltac:(lia)). pose proof (Z.mod_pos_bound (100 * n) d ltac:(lia)). lia. }
  assert (Hk0 : 0 <= k <= 100) by (split; [apply Z.div_pos; lia|]; apply Z.div_le_upper_bound; lia).
  apply floor_unique. split.
  - rewrite <- (round_int k) by lia. apply round_mono. apply share_ge; lia.
  - assert (H : (share n d <= inject_Z k + 1 - two (-46))%Q).
    { unfold share. apply Qle_shift_div_r; [apply inject_pos; lia|].
      assert (E : (two (-46) * inject_Z d <= 1)%Q).
      { apply Qle_trans with (two (-46) * inject_Z (2 ^ 46))%Q; [apply Qmult_le_l; [apply two_pos|]; rewrite <- Zle_Qle; lia|]. vm_compute. discriminate. }
      assert (F : (inject_Z (100 * n) + 1 <= (inject_Z k + 1) * inject_Z d)%Q).
      { change 1%Q with (inject_Z 1). rewrite <- !inject_Z_plus, <- inject_Z_mult, <- Zle_Qle. lia. }
      lra. }
    apply round_mono in H.
    assert (Er : (round (inject_Z k + 1 - two (-46)) == inject_Z k + 1 - two (-46))%Q).
    { apply (round_exact _ ((k + 1) * 2 ^ 46 - 1) (-46)); [lia|lia|]. unfold Z.sub. rewrite inject_Z_plus, inject_Z_mult, inject_Z_plus.
      change (inject_Z (2 ^ 46)) with (inject_Z (2 ^ 46)). assert (E : (inject_Z (2 ^ 46) * two (-46) == 1)%Q) by reflexivity. change (inject_Z (- (1))) with (- (1))%Q. change (inject_Z 1) with 1%Q.
      transitivity ((inject_Z k + 1) * (inject_Z (2 ^ 46) * two (-46)) - two (-46))%Q; [rewrite E; ring|ring]. }
    rewrite Er in H. pose proof (two_pos (-46)). lra.
Qed.

(** for all numbers of 64 bits *)
Lemma fpercent_close n d : 0 <= n <= 2 ^ 63 -> 0 < d <= 2 ^ 63 -> exists q, fpercent n d = Fin q /\ close q (share n d).
Proof.
  intros Hn Hd. pose proof (inject_pos d ltac:(lia)) as Pd. unfold fpercent.
  assert (Small : (two (-1022) <= 1 # 2)%Q) by (vm_compute; discriminate).
  assert (Tiny : (two (-1022) <= two (-65))%Q) by (apply two_le; lia).
  assert (G : forall k, 1 <= k -> (inject_Z k * (1 - two (-53)) <= float64 k <= inject_Z k * (1 + two (-53)))%Q).
  { intros k Hk. apply round_error. assert (inject_Z 1 <= inject_Z k)%Q by (rewrite <- Zle_Qle; exact Hk). change (inject_Z 1) with 1%Q in *. lra. }
  assert (U : (0 < two (-53) <= 1 # 1000)%Q) by (split; [apply two_pos|vm_compute; discriminate]).
  set (u := two (-53)) in *.
  assert (C1 : ((1 + u) * (1 + u) <= (1 + 4 * u) * (1 - u))%Q) by (unfold u; vm_compute; discriminate).
  assert (C2 : ((1 - 4 * u) * (1 + u) <= (1 - u) * (1 - u))%Q) by (unfold u; vm_compute; discriminate).
  assert (C3 : ((1 + 4 * u) * (1 + u) <= 1 + two (-50))%Q) by (unfold u; vm_compute; discriminate).
  assert (C4 : (1 - two (-50) <= (1 - 4 * u) * (1 - u))%Q) by (unfold u; vm_compute; discriminate).
  destruct (G d ltac:(lia)) as [D1 D2]. set (fd := float64 d) in *.
  assert (Pf : (0 < fd)%Q). { assert (0 < inject_Z d * (1 - u))%Q by (apply Qmult_lt_0_compat; lra). lra. }
  rewrite fdiv_fin by exact Pf. eexists. split; [reflexivity|].
  assert (Py : (0 <= share n d)%Q) by (apply share_nonneg; lia).
  assert (Ey : (share n d * inject_Z d == inject_Z 100 * inject_Z n)%Q) by (unfold share; rewrite inject_Z_mult; field; lra).
  set (y := share n d) in *. unfold close.
  destruct (Z.eq_dec n 0) as [->|Hn0].
  { assert (Ep : (round (inject_Z 100 * float64 0) == 0)%Q) by reflexivity.
    rewrite (round_comp _ 0) by (rewrite Ep; field; lra). change (inject_Z 0) with 0%Q in Ey.
    assert (Y0 : (y == 0)%Q) by (apply (Qmult_inj_r _ _ (inject_Z d)); [lra|]; rewrite Ey; ring). rewrite Y0. change (round 0) with 0%Q. lra. }
  destruct (G n ltac:(lia)) as [N1 N2]. set (fn := float64 n) in *.
  assert (Hn1 : (1 <= inject_Z n)%Q) by (change 1%Q with (inject_Z 1); rewrite <- Zle_Qle; lia).
  assert (Fn : ((1 # 2) <= fn)%Q). { assert (1 * (1 - u) <= inject_Z n * (1 - u))%Q by (apply Qmult_le_compat_r; lra). lra. }
  change (inject_Z 100) with (100 # 1)%Q in *.
  destruct (round_error ((100 # 1) * fn) ltac:(lra)) as [P1 P2]. fold u in P1, P2. set (p := round ((100 # 1) * fn)) in *.
  assert (P1' : ((100 # 1) * inject_Z n * ((1 - u) * (1 - u)) <= p)%Q).
  { apply Qle_trans with ((100 # 1) * fn * (1 - u))%Q; [|exact P1]. setoid_replace ((100 # 1) * inject_Z n * ((1 - u) * (1 - u)))%Q with ((100 # 1) * (inject_Z n * (1 - u)) * (1 - u))%Q by ring. apply Qmult_le_compat_r; lra. }
  assert (P2' : (p <= (100 # 1) * inject_Z n * ((1 + u) * (1 + u)))%Q).
  { apply Qle_trans with ((100 # 1) * fn * (1 + u))%Q; [exact P2|]. setoid_replace ((100 # 1) * inject_Z n * ((1 + u) * (1 + u)))%Q with ((100 # 1) * (inject_Z n * (1 + u)) * (1 + u))%Q by ring. apply Qmult_le_compat_r; lra. }
  set (N := ((100 # 1) * inject_Z n)%Q) in *. assert (PN : (0 < N)%Q) by (unfold N; lra).
  assert (R1 : (y * (1 - 4 * u) <= p / fd)%Q).
  { apply Qle_shift_div_l; [exact Pf|]. apply Qle_trans with (y * (1 - 4 * u) * (inject_Z d * (1 + u)))%Q.
    - rewrite (Qmult_comm _ fd), (Qmult_comm _ (inject_Z d * (1 + u))). apply Qmult_le_compat_r; [exact D2|]. apply Qmult_le_0_compat; lra.
    - setoid_replace (y * (1 - 4 * u) * (inject_Z d * (1 + u)))%Q with (y * inject_Z d * ((1 - 4 * u) * (1 + u)))%Q by ring. rewrite Ey. fold N.
      apply Qle_trans with (N * ((1 - u) * (1 - u)))%Q; [|exact P1']. apply Qmult_le_l; [exact PN|exact C2]. }
  assert (R2 : (p / fd <= y * (1 + 4 * u))%Q).
  { apply Qle_shift_div_r; [exact Pf|]. apply Qle_trans with (y * (1 + 4 * u) * (inject_Z d * (1 - u)))%Q.
    - setoid_replace (y * (1 + 4 * u) * (inject_Z d * (1 - u)))%Q with (y * inject_Z d * ((1 + 4 * u) * (1 - u)))%Q by ring. rewrite Ey. fold N.
      apply Qle_trans with (N * ((1 + u) * (1 + u)))%Q; [exact P2'|]. apply Qmult_le_l; [exact PN|exact C1].
    - rewrite (Qmult_comm _ fd), (Qmult_comm _ (inject_Z d * (1 - u))). apply Qmult_le_compat_r; [exact D1|]. apply Qmult_le_0_compat; lra. }
  assert (Low : (two (-1022) <= p / fd)%Q).
  { apply Qle_trans with (two (-65)); [exact Tiny|]. apply Qle_shift_div_l; [exact Pf|].
    assert (B : (fd <= two 64)%Q).
    { assert (inject_Z d * (1 + u) <= inject_Z (2 ^ 63) * (1 + u))%Q by (apply Qmult_le_compat_r; [rewrite <- Zle_Qle; lia|lra]).
      assert (inject_Z (2 ^ 63) * (1 + u) <= two 64)%Q by (unfold u; vm_compute; discriminate). lra. }
    assert (B2 : (two (-65) * fd <= two (-65) * two 64)%Q) by (apply Qmult_le_l; [apply two_pos|exact B]).
    assert (B3 : (two (-65) * two 64 == 1 # 2)%Q) by reflexivity.
    assert (B4 : ((100 # 1) * fn * (1 - u) >= (50 # 1) * (1 - u))%Q) by (apply Qmult_le_compat_r; lra). lra. }
  destruct (round_error (p / fd) Low) as [Q1 Q2]. fold u in Q1, Q2. set (r := (p / fd)%Q) in *. split.
  - apply Qle_trans with (y * ((1 - 4 * u) * (1 - u)))%Q; [rewrite (Qmult_comm y), (Qmult_comm y); apply Qmult_le_compat_r; assumption|].
    apply Qle_trans with (r * (1 - u))%Q; [|exact Q1]. setoid_replace (y * ((1 - 4 * u) * (1 - u)))%Q with (y * (1 - 4 * u) * (1 - u))%Q by ring. apply Qmult_le_compat_r; lra.
  - apply Qle_trans with (y * ((1 + 4 * u) * (1 + u)))%Q; [|rewrite (Qmult_comm y), (Qmult_comm y); apply Qmult_le_compat_r; assumption].
    apply Qle_trans with (r * (1 + u))%Q; [exact Q2|]. setoid_replace (y * ((1 + 4 * u) * (1 + u)))%Q with (y * (1 + 4 * u) * (1 + u))%Q by ring. apply Qmult_le_compat_r; lra.
Qed.

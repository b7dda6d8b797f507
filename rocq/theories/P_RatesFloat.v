(** C96: rates in float64. *)
From Verif Require Import Go L_List M_Strings M_Types M_Stats M_Rates M_Float L_Float M_RatesFloat S_RatesFloat S_Stats S_StatsView L_Stats P_Stats P_Rates.
From Coq Require Import QArith Lqa Qround.
Open Scope string_scope.
Open Scope Z_scope.

(** A rate: none, or not so small that float64 loses precision. *)
Definition rate_like (e : Q) : Prop := (e == 0 \/ two (-200) <= e)%Q.

Lemma u_small : (0 < two (-53) <= 1 # 1000000)%Q.
Proof. split; [apply two_pos|vm_compute; discriminate]. Qed.
Lemma ku_small k : 0 <= k <= 2 ^ 40 -> (0 <= inject_Z k * two (-53) <= 1 # 1000)%Q.
Proof.
  intros Hk. split; [apply Qmult_le_0_compat; [change 0%Q with (inject_Z 0); rewrite <- Zle_Qle; lia|apply Qlt_le_weak, two_pos]|].
  apply Qle_trans with (inject_Z (2 ^ 40) * two (-53))%Q; [apply Qmult_le_compat_r; [rewrite <- Zle_Qle; lia|apply Qlt_le_weak, two_pos]|vm_compute; discriminate].
Qed.
(** error bounds: x (1-a) <= f <= x (1+a) *)
Definition within (a f x : Q) : Prop := (x * (1 - a) <= f <= x * (1 + a))%Q.
Lemma mul_le x a b : (0 <= x)%Q -> (a <= b)%Q -> (x * a <= x * b)%Q.
Proof. intros Hx H. rewrite !(Qmult_comm x). apply Qmult_le_compat_r; assumption. Qed.
Lemma within_weaken a b f x : (0 <= x)%Q -> (a <= b)%Q -> within a f x -> within b f x.
Proof.
  intros Hx Hab [H1 H2]. split.
  - apply Qle_trans with (x * (1 - a))%Q; [apply mul_le; lra|exact H1].
  - apply Qle_trans with (x * (1 + a))%Q; [exact H2|apply mul_le; lra].
Qed.
Lemma within_round a f x : (0 <= a <= 1 # 1000)%Q -> (two (-300) <= x)%Q -> within a f x -> within (a + 2 * two (-53)) (round f) x.
Proof.
  intros Ha Hx [H1 H2]. pose proof u_small as Hu. set (u := two (-53)) in *.
  assert (Px : (0 < x)%Q) by (pose proof (two_pos (-300)); lra).
  assert (Hf : (two (-1022) <= f)%Q).
  { assert (two (-1022) <= two (-300) * (1 # 2))%Q by (vm_compute; discriminate).
    assert (two (-300) * (1 # 2) <= x * (1 # 2))%Q by (apply Qmult_le_compat_r; lra). assert (x * (1 # 2) <= x * (1 - a))%Q by (apply mul_le; lra). lra. }
  destruct (round_error f Hf) as [R1 R2]. fold u in R1, R2.
  assert (F1 : (x * (1 - a) * (1 - u) <= f * (1 - u))%Q) by (apply Qmult_le_compat_r; lra).
  assert (F2 : (f * (1 + u) <= x * (1 + a) * (1 + u))%Q) by (apply Qmult_le_compat_r; lra).
  assert (AU : (0 <= a * u)%Q) by (apply Qmult_le_0_compat; lra). assert (AU2 : (a * u <= 1 * u)%Q) by (apply Qmult_le_compat_r; lra).
  split.
  - apply Qle_trans with (x * (1 - a) * (1 - u))%Q; [|lra]. rewrite <- Qmult_assoc. apply mul_le; [lra|]. assert (E : ((1 - a) * (1 - u) == 1 - a - u + a * u)%Q) by ring. rewrite E. lra.
  - apply Qle_trans with (x * (1 + a) * (1 + u))%Q; [lra|]. rewrite <- Qmult_assoc. apply mul_le; [lra|]. assert (E : ((1 + a) * (1 + u) == 1 + a + u + a * u)%Q) by ring. rewrite E. lra.
Qed.
Lemma within_plus a f x g y : within a f x -> within a g y -> within a (f + g) (x + y).
Proof. unfold within. intros [H1 H2] [H3 H4]. split; lra. Qed.
Lemma within_refl a x : (0 <= a)%Q -> (0 <= x)%Q -> within a x x.
Proof. intros Ha Hx. split; [setoid_replace x with (x * 1)%Q at 2 by ring|setoid_replace x with (x * 1)%Q at 1 by ring]; apply mul_le; lra. Qed.

Lemma float64_within n : 1 <= n -> within (two (-53)) (float64 n) (inject_Z n).
Proof.
  intros Hn. unfold within, float64. apply round_error. assert (inject_Z 1 <= inject_Z n)%Q by (rewrite <- Zle_Qle; exact Hn).
  assert (two (-1022) <= 1)%Q by (vm_compute; discriminate). change (inject_Z 1) with 1%Q in *. lra.
Qed.
Lemma one_le n : 1 <= n -> (1 <= inject_Z n)%Q.
Proof. intros H. change 1%Q with (inject_Z 1). rewrite <- Zle_Qle. exact H. Qed.

(** seconds *)
Definition seconds (d : Z) : Q := (inject_Z d / inject_Z 1000000000)%Q.
Lemma seconds_split d : (seconds d == inject_Z (d / 1000000000) + inject_Z (d mod 1000000000) / inject_Z 1000000000)%Q.
Proof. unfold seconds. rewrite (Z.div_mod d 1000000000) at 1 by lia. rewrite inject_Z_plus, inject_Z_mult. field. Qed.
Lemma seconds_pos d : 0 < d -> ((1 # 1000000000) <= seconds d)%Q.
Proof.
  intros H. unfold seconds. apply Qle_shift_div_l; [reflexivity|]. apply Qle_trans with 1%Q; [vm_compute; discriminate|apply one_le; lia].
Qed.
Lemma Seconds_within d : 0 < d -> within (5 * two (-53)) (Seconds d) (seconds d).
Proof.
  intros Hd. unfold Seconds. pose proof (Z.div_pos d 1000000000 ltac:(lia) ltac:(lia)) as Hs. pose proof (Z.mod_pos_bound d 1000000000 ltac:(lia)) as Hns.
  pose proof u_small as Hu.
  assert (W1 : within (3 * two (-53)) (float64 (d / 1000000000)) (inject_Z (d / 1000000000))).
  { destruct (Z.eq_dec (d / 1000000000) 0) as [->|Hne]; [split; vm_compute; discriminate|]. eapply within_weaken; [| |apply float64_within; lia].
    - assert (1 <= inject_Z (d / 1000000000))%Q by (apply one_le; lia). lra.
    - lra. }
  assert (W2 : within (3 * two (-53)) (round (float64 (d mod 1000000000) / inject_Z 1000000000)) (inject_Z (d mod 1000000000) / inject_Z 1000000000)).
  { destruct (Z.eq_dec (d mod 1000000000) 0) as [->|Hne]; [split; vm_compute; discriminate|].
    assert (G : within (two (-53)) (float64 (d mod 1000000000) / inject_Z 1000000000) (inject_Z (d mod 1000000000) / inject_Z 1000000000)).
    { destruct (float64_within (d mod 1000000000) ltac:(lia)) as [G1 G2]. unfold within, Qdiv.
      assert (0 <= / inject_Z 1000000000)%Q by (vm_compute; discriminate). split.
      - setoid_replace (inject_Z (d mod 1000000000) * / inject_Z 1000000000 * (1 - two (-53)))%Q with (inject_Z (d mod 1000000000) * (1 - two (-53)) * / inject_Z 1000000000)%Q by ring. apply Qmult_le_compat_r; assumption.
      - setoid_replace (inject_Z (d mod 1000000000) * / inject_Z 1000000000 * (1 + two (-53)))%Q with (inject_Z (d mod 1000000000) * (1 + two (-53)) * / inject_Z 1000000000)%Q by ring. apply Qmult_le_compat_r; assumption. }
    apply within_round in G; [|lra|].
    - eapply within_weaken; [| |exact G]; [|lra]. apply Qle_shift_div_l; [reflexivity|]. assert (1 <= inject_Z (d mod 1000000000))%Q by (apply one_le; lia). lra.
    - apply Qle_shift_div_l; [reflexivity|]. apply Qle_trans with 1%Q; [vm_compute; discriminate|apply one_le; lia]. }
  pose proof (within_plus _ _ _ _ _ W1 W2) as W.
  assert (W' : within (3 * two (-53)) (float64 (d / 1000000000) + round (float64 (d mod 1000000000) / inject_Z 1000000000)) (seconds d)).
  { unfold within in *. rewrite seconds_split. exact W. }
  apply within_round in W'; [|lra|].
  - eapply within_weaken; [| |exact W']; [|lra]. pose proof (seconds_pos d Hd). lra.
  - apply Qle_trans with (1 # 1000000000)%Q; [vm_compute; discriminate|apply seconds_pos; exact Hd].
Qed.

(** one rate *)
Lemma per_second_seconds n d : (per_second n d == inject_Z n / seconds d)%Q.
Proof. reflexivity. Qed.
Lemma per_second_large n d : 1 <= n -> 0 < d <= 2 ^ 100 -> (two (-200) <= per_second n d)%Q.
Proof.
  intros Hn Hd. rewrite per_second_seconds. pose proof (seconds_pos d ltac:(lia)) as Hs. apply Qle_shift_div_l; [lra|].
  assert (S : (seconds d <= inject_Z (2 ^ 100))%Q).
  { unfold seconds. apply Qle_shift_div_r; [reflexivity|]. apply Qle_trans with (inject_Z (2 ^ 100)); [rewrite <- Zle_Qle; lia|vm_compute; discriminate]. }
  apply Qle_trans with (two (-200) * inject_Z (2 ^ 100))%Q; [apply mul_le; [apply Qlt_le_weak, two_pos|exact S]|].
  apply Qle_trans with 1%Q; [vm_compute; discriminate|apply one_le; exact Hn].
Qed.
Lemma per_second_within n d : 1 <= n -> 0 < d <= 2 ^ 100 -> within (9 * two (-53)) (fper_second n d) (per_second n d).
Proof.
  intros Hn Hd. unfold fper_second. pose proof u_small as Hu. destruct (float64_within n Hn) as [N1 N2]. destruct (Seconds_within d ltac:(lia)) as [S1 S2].
  pose proof (seconds_pos d ltac:(lia)) as Ps. pose proof (one_le n Hn) as Pn. pose proof (per_second_large n d Hn Hd) as L. pose proof (per_second_seconds n d) as E.
  set (u := two (-53)) in *. set (s := seconds d) in *. set (S := Seconds d) in *. set (N := inject_Z n) in *. set (F := float64 n) in *.
  assert (C1 : (1 + u <= (1 + 7 * u) * (1 - 5 * u))%Q) by (unfold u; vm_compute; discriminate).
  assert (C2 : ((1 - 7 * u) * (1 + 5 * u) <= 1 - u)%Q) by (unfold u; vm_compute; discriminate).
  assert (PS : (0 < S)%Q). { assert (0 < s * (1 - 5 * u))%Q by (apply Qmult_lt_0_compat; lra). lra. }
  assert (E' : (per_second n d * s == N)%Q) by (rewrite E; field; lra). set (q := per_second n d) in *.
  assert (Pq : (0 < q)%Q) by (pose proof (two_pos (-200)); lra).
  assert (G : within (7 * u) (F / S) q).
  { split.
    - apply Qle_shift_div_l; [exact PS|]. apply Qle_trans with (q * (1 - 7 * u) * (s * (1 + 5 * u)))%Q; [apply mul_le; [apply Qmult_le_0_compat; lra|exact S2]|].
      setoid_replace (q * (1 - 7 * u) * (s * (1 + 5 * u)))%Q with ((q * s) * ((1 - 7 * u) * (1 + 5 * u)))%Q by ring. rewrite E'.
      apply Qle_trans with (N * (1 - u))%Q; [apply mul_le; [lra|exact C2]|exact N1].
    - apply Qle_shift_div_r; [exact PS|]. apply Qle_trans with (q * (1 + 7 * u) * (s * (1 - 5 * u)))%Q; [|apply mul_le; [apply Qmult_le_0_compat; lra|exact S1]].
      setoid_replace (q * (1 + 7 * u) * (s * (1 - 5 * u)))%Q with ((q * s) * ((1 + 7 * u) * (1 - 5 * u)))%Q by ring. rewrite E'.
      apply Qle_trans with (N * (1 + u))%Q; [exact N2|apply mul_le; [lra|exact C1]]. }
  apply within_round in G; [|lra|].
  - eapply within_weaken; [| |exact G]; [lra|]. fold u. lra.
  - apply Qle_trans with (two (-200)); [vm_compute; discriminate|exact L].
Qed.

Lemma near_within k f e : 0 <= k <= 2 ^ 40 -> (0 < e)%Q -> within (inject_Z k * two (-53)) f e -> near k f e.
Proof.
  intros Hk He W. pose proof (ku_small k Hk) as Hs. split; [exact W|]. destruct W as [W1 _]. assert (0 < e * (1 - inject_Z k * two (-53)))%Q by (apply Qmult_lt_0_compat; lra). split; intros H0; lra.
Qed.
Lemma near_zero k : near k 0 0.
Proof. split; [lra|split; auto]. Qed.
Lemma near_weaken k k' f e : 0 <= k <= k' -> (0 <= e)%Q -> near k f e -> near k' f e.
Proof.
  intros Hk He [W Z0]. split; [|exact Z0]. eapply within_weaken; [exact He| |exact W]. apply Qmult_le_compat_r; [rewrite <- Zle_Qle; lia|apply Qlt_le_weak, two_pos].
Qed.
Lemma rate_like_nonneg e : rate_like e -> (0 <= e)%Q.
Proof. pose proof (two_pos (-200)). intros [H0|H0]; lra. Qed.
Lemma rate_like_plus a b : rate_like a -> rate_like b -> rate_like (a + b).
Proof. pose proof (two_pos (-200)). unfold rate_like. intros [Ha|Ha] [Hb|Hb]; [left|right..]; lra. Qed.
Lemma near_sum k f e g h : 0 <= k <= 2 ^ 39 -> rate_like e -> rate_like h -> near k f e -> near k g h -> near (k + 2) (round (f + g)) (e + h).
Proof.
  intros Hk He Hh [W1 Z1] [W2 Z2]. pose proof (rate_like_plus e h He Hh) as Hs. pose proof (rate_like_nonneg _ He) as Pe. pose proof (rate_like_nonneg _ Hh) as Ph.
  pose proof (within_plus _ _ _ _ _ W1 W2) as W. destruct Hs as [Hs|Hs].
  - assert (e == 0)%Q by lra. assert (h == 0)%Q by lra. assert (f == 0)%Q by (apply Z1; assumption). assert (g == 0)%Q by (apply Z2; assumption).
    assert (R : (round (f + g) == 0)%Q) by (rewrite (round_zero (f + g)); [reflexivity|lra]). split; [|split; intros _; lra]. rewrite R, Hs. lra.
  - pose proof (ku_small k ltac:(lia)) as Hks. apply within_round in W; [|exact Hks|apply Qle_trans with (two (-200)); [vm_compute; discriminate|exact Hs]].
    apply near_within; [lia|pose proof (two_pos (-200)); lra|]. eapply within_weaken; [lra| |exact W]. rewrite inject_Z_plus. change (inject_Z 2) with 2%Q. lra.
Qed.

(** *** The float64 program follows the exact one *)
Definition follows (k : Z) (f e : rated) : Prop :=
  r_cs f = r_cs e /\ 0 <= Oldest (r_cs e) /\ near k (tracerate f) (tracerate e) /\ near k (eventrate f) (eventrate e) /\ rate_like (tracerate e) /\ rate_like (eventrate e).

Lemma fresh_near n o w now k : 0 <= o -> usable now -> 9 <= k <= 2 ^ 40 -> near k (f_fresh_rate n o w now) (fresh_rate n o w now) /\ rate_like (fresh_rate n o w now).
Proof.
  intros Ho Hn Hk. unfold f_fresh_rate, fresh_rate. destruct (_ || _ || _ || _) eqn:E; [split; [apply near_zero|left; reflexivity]|].
  rewrite !orb_false_iff in E. destruct E as (((E1 & E2) & _) & _). apply Z.leb_gt in E1, E2. unfold usable in Hn.
  pose proof (per_second_large n (now - o) ltac:(lia) ltac:(lia)) as L. split; [|right; exact L].
  apply (near_weaken 9); [lia|pose proof (two_pos (-200)); lra|]. apply near_within; [lia|pose proof (two_pos (-200)); lra|].
  apply per_second_within; lia.
Qed.
Lemma near_eqb k f e : near k f e -> Qeq_bool f 0 = Qeq_bool e 0.
Proof.
  intros [_ H]. destruct (Qeq_bool e 0) eqn:E; [apply Qeq_bool_iff; apply H; apply Qeq_bool_iff; exact E|].
  destruct (Qeq_bool f 0) eqn:F; [|reflexivity]. apply Qeq_bool_iff in F. apply H in F. apply Qeq_bool_iff in F. congruence.
Qed.
Lemma trace_rate_follows k f e now : 9 <= k <= 2 ^ 40 -> usable now -> follows k f e ->
  near k (fst (f_TraceRate now f)) (fst (TraceRate now e)) /\ rate_like (fst (TraceRate now e)) /\ follows k (snd (f_TraceRate now f)) (snd (TraceRate now e)) /\
  r_cs (snd (TraceRate now e)) = r_cs e.
Proof.
  intros Hk Hn (E & Ho & N1 & N2 & L1 & L2). unfold f_TraceRate, TraceRate. rewrite (near_eqb _ _ _ N1). destruct (negb (Qeq_bool (tracerate e) 0)).
  - cbn [fst snd]. repeat split; try assumption; apply N1 || apply N2.
  - cbn [fst snd]. rewrite E. destruct (fresh_near (TotalCount (r_cs e)) (Oldest (r_cs e)) (Newest (r_cs e)) now k Ho Hn Hk) as [F1 F2].
    split; [exact F1|]. split; [exact F2|]. split; [|reflexivity]. repeat split; cbn; try assumption; apply F1 || apply N2.
Qed.
Lemma event_rate_follows k f e now : 9 <= k <= 2 ^ 40 -> usable now -> follows k f e ->
  near k (fst (f_EventRate now f)) (fst (EventRate now e)) /\ rate_like (fst (EventRate now e)) /\ follows k (snd (f_EventRate now f)) (snd (EventRate now e)) /\
  r_cs (snd (EventRate now e)) = r_cs e.
Proof.
  intros Hk Hn (E & Ho & N1 & N2 & L1 & L2). unfold f_EventRate, EventRate. rewrite (near_eqb _ _ _ N2). destruct (negb (Qeq_bool (eventrate e) 0)).
  - cbn [fst snd]. repeat split; try assumption; apply N1 || apply N2.
  - cbn [fst snd]. rewrite E. destruct (fresh_near (EventCount (r_cs e)) (Oldest (r_cs e)) (Newest (r_cs e)) now k Ho Hn Hk) as [F1 F2].
    split; [exact F1|]. split; [exact F2|]. split; [|reflexivity]. repeat split; cbn; try assumption; apply F1 || apply N1.
Qed.
Lemma follows_weaken k k' f e : 0 <= k <= k' -> follows k f e -> follows k' f e.
Proof.
  intros Hk (E & Ho & N1 & N2 & L1 & L2). split; [exact E|]. split; [exact Ho|]. split; [apply (near_weaken k); auto using rate_like_nonneg|]. split; [apply (near_weaken k); auto using rate_like_nonneg|]. auto.
Qed.
Lemma older_nonneg a b : 0 <= a -> 0 <= b -> 0 <= olderOf a b.
Proof. intros Ha Hb. unfold olderOf. repeat match goal with |- context [if ?c then _ else _] => destruct c end; lia. Qed.
Lemma merge_oldest a b c : cs_Merge a b = Ok c -> 0 <= Oldest a -> 0 <= Oldest b -> 0 <= Oldest c.
Proof.
  unfold cs_Merge. intros H Ha Hb. destruct (cs_IsZero b); [injection H as <-; exact Ha|]. destruct (cs_IsZero a); [injection H as <-; exact Hb|].
  destruct (negb _); [discriminate|]. destruct (add_buckets _ _); [|discriminate]. cbn [bind] in H. injection H as <-. apply older_nonneg; assumption.
Qed.
Lemma merge_follows k t f e f' e' : 9 <= k <= 2 ^ 39 -> usable4 t -> follows k f e -> follows k f' e' ->
  match r_Merge t e e', f_r_Merge t f f' with
  | Ok (m, o), Ok (mf, of) => follows (k + 2) mf m /\ follows k of o
  | Panic, Panic => True
  | _, _ => False
  end.
Proof.
  destruct t as [[[t1 t2] t3] t4]. intros Hk (U1 & U2 & U3 & U4) H H'. unfold r_Merge, f_r_Merge. rewrite (proj1 H), (proj1 H').
  destruct (cs_IsZero (r_cs e')); [split; [apply (follows_weaken k); [lia|exact H]|exact H']|].
  destruct (cs_IsZero (r_cs e)); [split; [apply (follows_weaken k); [lia|exact H']|exact H']|].
  destruct (cs_Merge (r_cs e) (r_cs e')) as [c|] eqn:Ec; cbn [bind]; [|exact Logic.I].
  assert (Hc : follows k (MkR c (tracerate f) (eventrate f)) (MkR c (tracerate e) (eventrate e))).
  { destruct H as (_ & Ho & N1 & N2 & L1 & L2). destruct H' as (_ & Ho' & _). split; [reflexivity|]. split; [exact (merge_oldest _ _ _ Ec Ho Ho')|]. cbn. auto. }
  destruct (trace_rate_follows k _ _ t1 ltac:(lia) U1 Hc) as (A1 & A2 & A3 & A4).
  destruct (f_TraceRate t1 (MkR c (tracerate f) (eventrate f))) as [fm fc]. destruct (TraceRate t1 (MkR c (tracerate e) (eventrate e))) as [em ec]. cbn [fst snd] in *.
  destruct (trace_rate_follows k _ _ t2 ltac:(lia) U2 H') as (B1 & B2 & B3 & B4).
  destruct (f_TraceRate t2 f') as [fm' fo]. destruct (TraceRate t2 e') as [em' eo]. cbn [fst snd] in *.
  assert (Hc2 : follows (k + 2) (MkR (r_cs fc) (round (fm + fm')) (eventrate fc)) (MkR (r_cs ec) (em + em') (eventrate ec))).
  { destruct A3 as (E & Ho & _ & N2 & _ & L2). split; [exact E|]. split; [exact Ho|]. cbn. split; [apply near_sum; auto; lia|].
    split; [apply (near_weaken k); [lia|apply rate_like_nonneg; exact L2|exact N2]|]. split; [apply rate_like_plus; assumption|exact L2]. }
  (* the event rate of the receiver has not changed, so it is as precise as before *)
  assert (Hev : near k (fst (f_EventRate t3 (MkR (r_cs fc) (round (fm + fm')) (eventrate fc)))) (fst (EventRate t3 (MkR (r_cs ec) (em + em') (eventrate ec)))) /\
                rate_like (fst (EventRate t3 (MkR (r_cs ec) (em + em') (eventrate ec))))).
  { destruct (event_rate_follows k _ _ t3 ltac:(lia) U3 A3) as (X1 & X2 & _). unfold f_EventRate, EventRate in *. cbn [eventrate r_cs] in *.
    destruct (negb (Qeq_bool (eventrate fc) 0)); destruct (negb (Qeq_bool (eventrate ec) 0)); cbn [fst] in *; auto. }
  destruct (event_rate_follows (k + 2) _ _ t3 ltac:(lia) U3 Hc2) as (_ & _ & C3 & C4).
  destruct (f_EventRate t3 _) as [fv fc']. destruct (EventRate t3 _) as [ev ec']. cbn [fst snd] in *.
  destruct (event_rate_follows k _ _ t4 ltac:(lia) U4 B3) as (D1 & D2 & D3 & D4).
  destruct (f_EventRate t4 fo) as [fv' fo']. destruct (EventRate t4 eo) as [ev' eo']. cbn [fst snd] in *.
  split; [|exact D3]. destruct C3 as (E & Ho & N1 & _ & L1 & _). split; [exact E|]. split; [exact Ho|]. cbn. split; [exact N1|].
  split; [apply near_sum; [lia|apply Hev|exact D2|apply Hev|exact D1]|]. split; [exact L1|apply rate_like_plus; [apply Hev|exact D2]].
Qed.
Lemma unrated_follows k cs : 0 <= Oldest cs -> follows k (unrated cs) (unrated cs).
Proof. intros H. split; [reflexivity|]. split; [exact H|]. split; [apply near_zero|]. split; [apply near_zero|]. split; left; reflexivity. Qed.

(** Merged rates, for any number of sources: *)
Lemma merge_all_follows others : forall k f e fo, 9 <= k -> k + 2 * zlen others <= 2 ^ 39 -> follows k f e ->
  Forall2 (fun o o' => follows 9 (fst o') (fst o) /\ snd o' = snd o /\ usable4 (snd o)) others fo ->
  match merge_all e others, f_merge_all f fo with
  | Ok m, Ok mf => follows (k + 2 * zlen others) mf m
  | Panic, Panic => True
  | _, _ => False
  end.
Proof.
  induction others as [|[o t] others IH]; intros k f e fo Hk Hb H HF; inversion HF as [|? [o' t'] ? fo' (F1 & F2 & F3) HF']; subst; cbn [merge_all f_merge_all].
  - unfold zlen. cbn. rewrite Z.add_0_r. exact H.
  - cbn [fst snd] in *. subst t'. assert (El : zlen ((o, t) :: others) = 1 + zlen others) by (unfold zlen; cbn [length]; lia). rewrite El in *.
    pose proof (merge_follows k t f e o' o ltac:(unfold zlen in *; lia) F3 H (follows_weaken 9 k _ _ ltac:(lia) F1)) as M.
    destruct (r_Merge t e o) as [[m x]|], (f_r_Merge t f o') as [[mf xf]|]; cbn [bind]; [|destruct M|destruct M|exact Logic.I].
    specialize (IH (k + 2) mf m fo' ltac:(lia) ltac:(lia) (proj1 M) HF'). replace (k + 2 * (1 + zlen others)) with (k + 2 + 2 * zlen others) by lia. exact IH.
Qed.

(** Every rate, before and after merging any number of statistics, is what exact arithmetic gives,
    up to a relative error of 9/2^53 and 2/2^53 for every merge; and it is 0 only if that is.  (So
    what C65 says holds of the program's numbers too, to that precision.) *)
Theorem C96_one_rate :
  forall cs now, 0 <= Oldest cs -> usable now ->
    near 9 (fst (f_TraceRate now (unrated cs))) (fst (TraceRate now (unrated cs))) /\
    near 9 (fst (f_EventRate now (unrated cs))) (fst (EventRate now (unrated cs))).
Proof. intros cs now Ho Hn. pose proof (unrated_follows 9 cs Ho) as H. split; [apply (trace_rate_follows 9)|apply (event_rate_follows 9)]; auto; lia. Qed.
(** In plain terms, for statistics with traces that started before now: *)
Theorem C96_rate_is_per_second :
  forall cs now, TotalCount cs > 0 -> Newest cs <> 0 -> 0 < Oldest cs < now -> usable now ->
    exists exact, is_rate exact (TotalCount cs) (Oldest cs) now /\ near 9 (fst (f_TraceRate now (unrated cs))) exact.
Proof.
  intros cs now Hn Hw Ho Hu. exists (per_second (TotalCount cs) (now - Oldest cs)). split.
  - unfold is_rate. rewrite per_second_seconds. unfold seconds. rewrite inject_Z_mult. field. intros E. change 0%Q with (inject_Z 0) in E. rewrite inject_Z_injective in E. lia.
  - pose proof (proj1 (C96_one_rate cs now ltac:(lia) Hu)) as N. replace (per_second (TotalCount cs) (now - Oldest cs)) with (fst (TraceRate now (unrated cs))); [exact N|].
    unfold TraceRate, unrated. cbn [tracerate r_cs fst]. change (negb (Qeq_bool 0 0)) with false. cbv iota. cbn [fst]. unfold fresh_rate.
    rewrite (proj2 (Z.leb_gt _ _)) by lia. rewrite (proj2 (Z.leb_gt _ _)) by lia. rewrite (proj2 (Z.eqb_neq _ _)) by assumption. rewrite (proj2 (Z.eqb_neq _ _)) by lia. reflexivity.
Qed.
Theorem C96_merged_rates :
  forall cs (sources : list (CategoryStats * times)),
    0 <= Oldest cs -> Forall (fun s => 0 <= Oldest (fst s) /\ usable4 (snd s)) sources -> zlen sources <= 2 ^ 37 ->
    let others := map (fun s => (unrated (fst s), snd s)) sources in
    match merge_all (unrated cs) others, f_merge_all (unrated cs) others with
    | Ok exact, Ok float =>
        r_cs float = r_cs exact /\ near (9 + 2 * zlen sources) (tracerate float) (tracerate exact) /\ near (9 + 2 * zlen sources) (eventrate float) (eventrate exact)
    | Panic, Panic => True
    | _, _ => False
    end.
Proof.
  intros cs sources Ho HF Hl others.
  assert (El : zlen others = zlen sources) by (unfold zlen, others; rewrite map_length; reflexivity).
  assert (Hb : 9 + 2 * zlen others <= 2 ^ 39) by (rewrite El; lia).
  pose proof (merge_all_follows others 9 (unrated cs) (unrated cs) others ltac:(lia) Hb (unrated_follows 9 cs Ho)) as M.
  assert (F2 : Forall2 (fun o o' : rated * times => follows 9 (fst o') (fst o) /\ snd o' = snd o /\ usable4 (snd o)) others others).
  { subst others. clear -HF. induction HF as [|s l [H1 H2] HF IH]; constructor; [|exact IH]. cbn. split; [apply unrated_follows; exact H1|]. split; [reflexivity|exact H2]. }
  specialize (M F2). change (@zlen (rated * (Z * Z * Z * Z)) others) with (@zlen (rated * times) others) in M. rewrite El in M. destruct (merge_all (unrated cs) others), (f_merge_all (unrated cs) others); try exact M.
  destruct M as (E & _ & N1 & N2 & _). auto.
Qed.

(** The overall statistics, for any number of categories: *)
Lemma overall_loop_follows cats : forall k f e tf te ef ee, 9 <= k -> k + 2 * zlen cats <= 2 ^ 39 -> follows k f e ->
  near k tf te -> near k ef ee -> rate_like te -> rate_like ee ->
  Forall (fun c => let '(sc, t, t5, t6) := c in follows 9 sc sc /\ usable4 t /\ usable t5 /\ usable t6) cats ->
  forall fcats, Forall2 (fun c c' => let '(sc, t, t5, t6) := c in let '(sc', t', t5', t6') := c' in follows 9 sc' sc /\ t' = t /\ t5' = t5 /\ t6' = t6) cats fcats ->
  match r_overall_loop cats e te ee, f_overall_loop fcats f tf ef with
  | Ok (m, a, b), Ok (mf, af, bf) => r_cs mf = r_cs m /\ near (k + 2 * zlen cats) af a /\ near (k + 2 * zlen cats) bf b
  | Panic, Panic => True
  | _, _ => False
  end.
Proof.
  induction cats as [|[[[sc t] t5] t6] cats IH]; intros k f e tf te ef ee Hk Hb H Nt Ne Lt Le HU fcats HF; inversion HF as [|? [[[sc' t'] t5'] t6'] ? fc HF1 HF']; subst; cbn [r_overall_loop f_overall_loop].
  - unfold zlen. cbn. rewrite Z.add_0_r. split; [exact (proj1 H)|]. split; assumption.
  - destruct HF1 as (F1 & F2 & F3 & F4). subst t' t5' t6'. inversion HU as [|? ? HU1 HU']; subst. destruct HU1 as (_ & U & U5 & U6).
    assert (El : zlen ((sc, t, t5, t6) :: cats) = 1 + zlen cats) by (unfold zlen; cbn [length]; lia). rewrite El in *.
    pose proof (merge_follows k t f e sc' sc ltac:(unfold zlen in *; lia) U H (follows_weaken 9 k _ _ ltac:(lia) F1)) as M.
    destruct (r_Merge t e sc) as [[m x]|], (f_r_Merge t f sc') as [[mf xf]|]; cbn [bind]; [|destruct M|destruct M|exact Logic.I].
    destruct M as [M1 M2]. assert (Hk40 : 9 <= k <= 2 ^ 40) by (unfold zlen in *; lia).
    destruct (trace_rate_follows k _ _ t5 Hk40 U5 M2) as (A1 & A2 & A3 & _).
    destruct (f_TraceRate t5 xf) as [fa xf']. destruct (TraceRate t5 x) as [ea x']. cbn [fst snd] in *.
    destruct (event_rate_follows k _ _ t6 Hk40 U6 A3) as (B1 & B2 & _ & _).
    destruct (f_EventRate t6 xf') as [fb xf'']. destruct (EventRate t6 x') as [eb x'']. cbn [fst snd] in *.
    assert (Hk39 : 0 <= k <= 2 ^ 39) by (unfold zlen in *; lia).
    specialize (IH (k + 2) mf m (round (tf + fa)) (te + ea)%Q (round (ef + fb)) (ee + eb)%Q ltac:(lia) ltac:(lia) M1 (near_sum k _ _ _ _ Hk39 Lt A2 Nt A1) (near_sum k _ _ _ _ Hk39 Le B2 Ne B1)
      (rate_like_plus _ _ Lt A2) (rate_like_plus _ _ Le B2) HU' fc HF').
    replace (k + 2 * (1 + zlen cats)) with (k + 2 + 2 * zlen cats) by lia. exact IH.
Qed.
Theorem C96_overall_rates :
  forall bucketing (sources : list (CategoryStats * times * Z * Z)),
    Forall (fun s => let '(cs, t, t5, t6) := s in 0 <= Oldest cs /\ usable4 t /\ usable t5 /\ usable t6) sources -> zlen sources <= 2 ^ 37 ->
    let cats := map (fun s => let '(cs, t, t5, t6) := s in (unrated cs, t, t5, t6)) sources in
    match r_Overall bucketing cats, f_r_Overall bucketing cats with
    | Ok exact, Ok float =>
        r_cs float = r_cs exact /\ near (9 + 2 * zlen sources) (tracerate float) (tracerate exact) /\ near (9 + 2 * zlen sources) (eventrate float) (eventrate exact)
    | Panic, Panic => True
    | _, _ => False
    end.
Proof.
  intros b sources HF Hl cats. assert (El : zlen cats = zlen sources) by (unfold zlen, cats; rewrite map_length; reflexivity).
  assert (Hb : 9 + 2 * zlen cats <= 2 ^ 39) by (rewrite El; lia).
  pose proof (overall_loop_follows cats 9 (unrated (NewCategoryStats "overall" b)) (unrated (NewCategoryStats "overall" b)) 0 0 0 0 ltac:(lia) Hb
    (unrated_follows 9 (NewCategoryStats "overall" b) (Z.le_refl 0)) (near_zero 9) (near_zero 9) (or_introl (Qeq_refl 0)) (or_introl (Qeq_refl 0))) as M.
  assert (G : Forall (fun c : rated * times * Z * Z => let '(sc, t, t5, t6) := c in follows 9 sc sc /\ usable4 t /\ usable t5 /\ usable t6) cats).
  { subst cats. clear -HF. induction HF as [|[[[cs t] t5] t6] l (H1 & H2 & H3 & H4) HF IH]; constructor; [|exact IH]. split; [apply unrated_follows; exact H1|auto]. }
  assert (G2 : Forall2 (fun c c' : rated * times * Z * Z => let '(sc, t, t5, t6) := c in let '(sc', t', t5', t6') := c' in follows 9 sc' sc /\ t' = t /\ t5' = t5 /\ t6' = t6) cats cats).
  { clear -G. induction G as [|[[[sc t] t5] t6] l (H1 & _) G IH]; constructor; [auto|exact IH]. }
  specialize (M G cats G2). unfold r_Overall, f_r_Overall.
  destruct (r_overall_loop cats _ 0 0) as [[[m a] b']|], (f_overall_loop cats _ 0 0) as [[[mf af] bf]|]; cbn [bind]; try exact M.
  change (@zlen (rated * (Z * Z * Z * Z) * Z * Z) cats) with (@zlen (rated * times * Z * Z) cats) in M. rewrite El in M. exact M.
Qed.

(** Rounding never turns an order round: more traces in the same time do not show a lower rate. *)
Theorem C96_more_is_not_lower :
  forall n m delta, 0 <= n <= m -> 0 < delta -> (fper_second n delta <= fper_second m delta)%Q.
Proof.
  intros n m d H Hd. unfold fper_second. apply round_mono. destruct (Seconds_within d Hd) as [S1 _]. pose proof (seconds_pos d Hd). pose proof u_small.
  assert (0 < seconds d * (1 - 5 * two (-53)))%Q by (apply Qmult_lt_0_compat; lra).
  apply Qle_shift_div_l; [lra|]. unfold Qdiv. rewrite <- Qmult_assoc, (Qmult_comm (/ _)), Qmult_inv_r by lra. rewrite Qmult_1_r. apply round_mono. rewrite <- Zle_Qle. lia.
Qed.
(** ... and the same number of traces over a longer time does not show a higher one. *)
Lemma Seconds_mono d d' : 0 < d <= d' -> d' <= 2 ^ 63 -> (Seconds d <= Seconds d')%Q.
Proof.
  intros H Hmax. unfold Seconds. apply round_mono. pose proof (Z.div_le_mono d d' 1000000000 ltac:(lia) ltac:(lia)) as Hq. pose proof (Z.div_pos d 1000000000 ltac:(lia) ltac:(lia)) as Hs.
  pose proof (Z.mod_pos_bound d 1000000000 ltac:(lia)) as B. pose proof (Z.mod_pos_bound d' 1000000000 ltac:(lia)) as B'.
  pose proof (Z.div_mod d 1000000000 ltac:(lia)) as E. pose proof (Z.div_mod d' 1000000000 ltac:(lia)) as E'.
  assert (Hm : d' / 1000000000 <= 2 ^ 53) by (apply Z.div_le_upper_bound; lia).
  assert (part : forall a b, a <= b -> (round (float64 a / inject_Z 1000000000) <= round (float64 b / inject_Z 1000000000))%Q).
  { intros a b Hab. apply round_mono. unfold Qdiv. apply Qmult_le_compat_r; [apply round_mono; rewrite <- Zle_Qle; lia|vm_compute; discriminate]. }
  assert (S1 : (float64 (d / 1000000000) == inject_Z (d / 1000000000))%Q) by (apply round_int; lia).
  assert (S2 : (float64 (d' / 1000000000) == inject_Z (d' / 1000000000))%Q) by (apply round_int; lia).
  rewrite S1, S2. destruct (Z.eq_dec (d / 1000000000) (d' / 1000000000)) as [Eq|Ne].
  - rewrite <- Eq. pose proof (part (d mod 1000000000) (d' mod 1000000000) ltac:(lia)). lra.
  - pose proof (part (d mod 1000000000) 1000000000 ltac:(lia)) as P1. pose proof (part 0 (d' mod 1000000000) ltac:(lia)) as P2.
    assert (O : (round (float64 1000000000 / inject_Z 1000000000) == 1)%Q) by (vm_compute; reflexivity).
    assert (Z0 : (round (float64 0 / inject_Z 1000000000) == 0)%Q) by (vm_compute; reflexivity).
    assert (I : (inject_Z (d / 1000000000) + 1 <= inject_Z (d' / 1000000000))%Q) by (change 1%Q with (inject_Z 1); rewrite <- inject_Z_plus, <- Zle_Qle; lia).
    lra.
Qed.
Theorem C96_longer_is_not_higher :
  forall n delta delta', 0 <= n -> 0 < delta <= delta' -> delta' <= 2 ^ 63 -> (fper_second n delta' <= fper_second n delta)%Q.
Proof.
  intros n d d' Hn H Hmax. unfold fper_second. apply round_mono. pose proof (Seconds_mono d d' H Hmax) as M. destruct (Seconds_within d ltac:(lia)) as [S1 _]. pose proof (seconds_pos d ltac:(lia)). pose proof u_small.
  assert (0 < seconds d * (1 - 5 * two (-53)))%Q by (apply Qmult_lt_0_compat; lra).
  assert (PS : (0 < Seconds d)%Q) by lra. assert (PS' : (0 < Seconds d')%Q) by lra.
  assert (PF : (0 <= float64 n)%Q). { assert (R : (round 0 <= round (inject_Z n))%Q) by (apply round_mono; change 0%Q with (inject_Z 0); rewrite <- Zle_Qle; lia). change (round 0) with 0%Q in R. exact R. }
  apply Qle_shift_div_l; [exact PS|]. setoid_replace (float64 n / Seconds d' * Seconds d)%Q with (float64 n * Seconds d / Seconds d')%Q by (field; lra).
  apply Qle_shift_div_r; [exact PS'|]. apply mul_le; assumption.
Qed.
Print Assumptions C96_one_rate.
Print Assumptions C96_rate_is_per_second.
Print Assumptions C96_merged_rates.
Print Assumptions C96_overall_rates.
Print Assumptions C96_more_is_not_lower.
Print Assumptions C96_longer_is_not_higher.

(** Two sources and the clock an hour later: the hypotheses hold, both programs return, the rates are positive, and the rounding is visible. *)
Definition far : times := (sec 3603, sec 3603, sec 3603, sec 3603).
Definition demo_src (start : Z) : CategoryStats := MkCS "a" 7 0 [1] 0 start start.
Example C96_instance :
  let sources := [(demo_src (sec 2), far); (demo_src (sec 3), far)] in
  Forall (fun s => 0 <= Oldest (fst s) /\ usable4 (snd s)) sources /\ zlen sources <= 2 ^ 37 /\
  match merge_all (unrated (demo_src (sec 1))) (map (fun s => (unrated (fst s), snd s)) sources),
        f_merge_all (unrated (demo_src (sec 1))) (map (fun s => (unrated (fst s), snd s)) sources) with
  | Ok e, Ok f => Qeq_bool (tracerate f) (tracerate e) = false /\ Qle_bool (1 # 10000) (tracerate f) = true /\ Qle_bool (1 # 1000) (eventrate f) = true
  | _, _ => False
  end.
Proof.
  cbn zeta. split; [repeat constructor; vm_compute; discriminate|]. split; [vm_compute; discriminate|]. vm_compute. repeat split.
Qed.

(** Merging the same source again and again, through pointers. *)
From Verif Require Import Go L_List M_Types M_Stats M_StatsHeap S_StatsHeap L_StatsHeap.
From Coq Require Import ZifyBool Permutation.
Open Scope string_scope.
Open Scope Z_scope.

Lemma hadd_self rest : forall h a pre, arrs h a = (pre ++ rest)%list ->
  exists h', hadd h a a (zlen pre) (length rest) = Ok h' /\
    arrs h' a = (pre ++ map (Z.mul 2) rest)%list /\ (forall b, b <> a -> arrs h' b = arrs h b) /\
    cats h' = cats h /\ maps h' = maps h /\ stats h' = stats h /\ next h' = next h.
Proof.
  induction rest as [|x rest IH]; intros h a pre Ha.
  - exists h. cbn. auto 10.
  - cbn [length hadd]. rewrite Ha, slice_get_app. cbn [bind]. rewrite slice_set_app. cbn [bind].
    destruct (IH (set_arr h a (pre ++ (x + x) :: rest)%list) a (pre ++ [x + x])%list) as (h' & E & A1 & A2 & H).
    { cbn. rewrite upd_same, <- app_assoc. reflexivity. }
    exists h'. split; [rewrite <- E; f_equal; unfold zlen; rewrite app_length; cbn; lia|].
    split; [rewrite A1, <- app_assoc; cbn [map app]; do 2 f_equal; lia|]. cbn in A2, H. split; [|exact H].
    intros b Hb. rewrite A2 by exact Hb. apply upd_other. exact Hb.
Qed.

Lemma olderOf_self a : olderOf a a = a.
Proof. unfold olderOf. destruct (Z.eqb_spec a 0), (Z.ltb_spec a a); cbn; congruence. Qed.
Lemma newerOf_self a : newerOf a a = a.
Proof. unfold newerOf. destruct (Z.eqb_spec a 0), (Z.ltb_spec a a); cbn; congruence. Qed.

(** A copy of the object that counts [n] times as many. *)
Definition times_cat (n : Z) (o : hcat) : hcat :=
  MkHCat (o_Category o) (o_EventCount o) (n * o_ActiveCount o) (o_BucketCounts o) (n * o_ErroredCount o) (o_Oldest o) (o_Newest o).

Lemma hcat_Merge_again h cs other n : cs <> other -> solid (cats h other) -> cats h cs = times_cat n (cats h other) ->
  exists h', hcat_Merge h cs other = Ok h' /\ cats h' cs = times_cat (n + 1) (cats h other) /\
    (forall a, a <> cs -> cats h' a = cats h a) /\
    arrs h' (o_BucketCounts (cats h other)) = map (Z.mul 2) (arrs h (o_BucketCounts (cats h other))) /\
    (forall a, a <> o_BucketCounts (cats h other) -> arrs h' a = arrs h a) /\
    maps h' = maps h /\ stats h' = stats h /\ next h' = next h.
Proof.
  intros Hne Hs Hc. unfold hcat_Merge.
  assert (Hs' : solid (cats h cs)) by (rewrite Hc; exact Hs).
  rewrite !solid_not_zero by assumption. cbn [BucketCounts view_cat].
  assert (Eb : o_BucketCounts (cats h cs) = o_BucketCounts (cats h other)) by (rewrite Hc; reflexivity).
  rewrite Eb, Z.eqb_refl. cbn [negb].
  set (h1 := set_cat h cs _).
  assert (E1 : o_BucketCounts (cats h1 cs) = o_BucketCounts (cats h other)) by (unfold h1; cbn; rewrite upd_same; cbn; exact Eb || reflexivity).
  assert (E2 : cats h1 other = cats h other) by (unfold h1; cbn; rewrite upd_other by congruence; reflexivity).
  rewrite E1, E2.
  destruct (hadd_self (arrs h (o_BucketCounts (cats h other))) h1 (o_BucketCounts (cats h other)) [] eq_refl) as (h2 & Eh & A1 & A2 & C2 & M2 & S2 & N2).
  change (arrs h1) with (arrs h) in *. change (zlen (@nil Z)) with 0 in Eh. rewrite Eh. cbn [bind].
  eexists. split; [reflexivity|]. cbn [cats set_cat]. rewrite !upd_same. rewrite !(upd_other _ cs _ other) by congruence.
  rewrite C2. unfold h1. cbn [cats set_cat]. rewrite !upd_same. rewrite !(upd_other _ cs _ other) by congruence.
  cbn. split; [|split; [|split; [exact A1|split; [exact A2|auto]]]].
  - rewrite Hc. unfold times_cat. cbn. rewrite olderOf_self, newerOf_self. f_equal; lia.
  - intros a Ha. rewrite !upd_other by congruence. reflexivity.
Qed.

Lemma map_get_set_same {V} (m : list (string * V)) c v : map_get c (map_set c v m) = Some v.
Proof. induction m as [|[k o] m IH]; cbn; [rewrite String.eqb_refl; reflexivity|]. destruct (String.eqb c k) eqn:E; cbn; rewrite ?E, ?String.eqb_refl; [reflexivity|exact IH]. Qed.
Lemma map_get_set_other {V} (m : list (string * V)) c c' v : c' <> c -> map_get c' (map_set c v m) = map_get c' m.
Proof.
  intros H. induction m as [|[k o] m IH]; cbn.
  - apply String.eqb_neq in H. rewrite H. reflexivity.
  - destruct (String.eqb_spec c k) as [->|]; cbn.
    + apply String.eqb_neq in H. rewrite H. reflexivity.
    + destruct (String.eqb c' k); [reflexivity|exact IH].
Qed.

Section Repeat.
Variables (h0 : heap) (agg src : nat).
Hypothesis Hsep : h_Categories (stats h0 agg) <> h_Categories (stats h0 src).
Hypothesis Hwf : well_formed h0 src.

(** [m c]: how often category c has been merged so far. *)
Record merged (m : string -> nat) (h : heap) : Prop := {
  g_stats : stats h = stats h0;
  g_maps : maps h (h_Categories (stats h0 src)) = maps h0 (h_Categories (stats h0 src));
  g_next : (next h0 <= next h)%nat;
  g_cats : forall o, (o < next h0)%nat -> cats h o = cats h0 o;
  g_cat : forall c, match category_at h0 src c with
                    | None => category_at h agg c = None
                    | Some o => match m c with
                                | O => category_at h agg c = None /\ arrs h (arr_of h0 o) = arrs h0 (arr_of h0 o)
                                | S j => exists oa, category_at h agg c = Some oa /\ (next h0 <= oa < next h)%nat /\
                                           cats h oa = times_cat (Z.of_nat (S j)) (cats h0 o) /\
                                           arrs h (arr_of h0 o) = map (Z.mul (2 ^ Z.of_nat j)) (arrs h0 (arr_of h0 o))
                                end
                    end;
  g_inj : forall c c' oa, category_at h agg c = Some oa -> category_at h agg c' = Some oa -> c = c' }.

Definition bump (m : string -> nat) (c x : string) : nat := if String.eqb x c then S (m x) else m x.

Lemma merged_ext m m' h : (forall c, category_at h0 src c <> None -> m c = m' c) -> merged m h -> merged m' h.
Proof.
  intros E [G1 G2 G3 G4 G5 G6]. constructor; auto. intros c. specialize (G5 c). destruct (category_at h0 src c) eqn:Ec; [|exact G5].
  rewrite <- E by congruence. exact G5.
Qed.

Lemma hmerge_loop_again : forall names m h, (forall c, In c names -> category_at h0 src c <> None) -> merged m h ->
  exists h', hmerge_loop h agg src names = Ok h' /\ merged (fold_left bump names m) h'.
Proof.
  induction names as [|c names IH]; intros m h Hn Hm; [exists h; split; [reflexivity|exact Hm]|].
  cbn [hmerge_loop fold_left]. destruct (category_at h0 src c) as [t|] eqn:Et; [|elim (Hn c (or_introl eq_refl) Et)].
  pose proof Hm as [G1 G2 G3 G4 G5 G6]. destruct Hwf as (_ & _ & W3 & W4). destruct (W3 c t Et) as [Ht Hsol].
  rewrite G1, G2. unfold category_at in Et. rewrite Et. fold (category_at h0 src c) in Et.
  pose proof (G5 c) as Gc. rewrite Et in Gc. 
  destruct (m c) as [|j] eqn:Ej.
  - destruct Gc as [Ga Gb]. unfold category_at in Ga. rewrite G1 in Ga. rewrite Ga.
    apply IH; [intros x Hx; apply Hn; right; exact Hx|]. constructor.
    + cbn. reflexivity.
    + cbn. rewrite upd_other by congruence. exact G2.
    + cbn. lia.
    + intros o Ho. cbn. rewrite upd_other by lia. apply G4. exact Ho.
    + intros x. unfold category_at. cbn. rewrite ?G1, upd_same. unfold bump. specialize (G5 x). unfold category_at in G5. rewrite G1 in G5.
      destruct (String.eqb_spec x c) as [->|Hxc].
      * unfold category_at in Et. rewrite Et, Ej, map_get_set_same. exists (next h). split; [reflexivity|]. split; [lia|]. rewrite upd_same.
        split; [rewrite G4 by exact Ht; unfold times_cat; destruct (cats h0 t); f_equal; cbn - [Z.of_nat Z.mul]; lia|].
        rewrite Gb. cbn [Z.of_nat Z.pow]. rewrite <- (map_id (arrs h0 _)) at 1. apply map_ext. intros z. lia.
      * rewrite map_get_set_other by exact Hxc. destruct (map_get x (maps h0 (h_Categories (stats h0 src)))) as [o|] eqn:Eo; [|exact G5].
        destruct (m x) as [|jx]; [exact G5|]. destruct G5 as (oa & K1 & K2 & K3 & K4). exists oa. split; [exact K1|]. split; [lia|]. rewrite upd_other by lia. auto.
    + intros x x' oa. unfold category_at. cbn. rewrite ?G1, upd_same.
      assert (Lt : forall y o, map_get y (maps h (h_Categories (stats h0 agg))) = Some o -> (o < next h)%nat).
      { intros y o Hy. specialize (G5 y). unfold category_at in G5. rewrite G1, Hy in G5. destruct (map_get y (maps h0 (h_Categories (stats h0 src)))); [|discriminate].
        destruct (m y); [destruct G5; discriminate|]. destruct G5 as (oa' & K1 & K2 & _). injection K1 as ->. lia. }
      destruct (string_dec x c) as [->|Hx], (string_dec x' c) as [->|Hx']; rewrite ?map_get_set_same, ?map_get_set_other by assumption; intros K K'.
      * reflexivity.
      * injection K as <-. apply Lt in K'. lia.
      * injection K' as <-. apply Lt in K. lia.
      * apply (G6 x x' oa); unfold category_at; rewrite G1; assumption.
  - destruct Gc as (oa & Ka & Kb & Kc & Kd). unfold category_at in Ka. rewrite G1 in Ka. rewrite Ka.
    assert (Hct : cats h t = cats h0 t) by (apply G4; exact Ht).
    destruct (hcat_Merge_again h oa t (Z.of_nat (S j))) as (h' & E & C1 & C2 & A1 & A2 & M' & S' & N').
    + lia.
    + rewrite Hct. exact Hsol.
    + rewrite Hct. exact Kc.
    + rewrite E. cbn [bind]. apply IH; [intros x Hx; apply Hn; right; exact Hx|]. rewrite Hct in A1, A2, C1. constructor.
      * congruence.
      * rewrite M'. exact G2.
      * lia.
      * intros o Ho. rewrite C2 by lia. apply G4. exact Ho.
      * intros x. unfold category_at. rewrite M', S', G1, N'. unfold bump. specialize (G5 x). unfold category_at in G5. rewrite G1 in G5.
        destruct (String.eqb_spec x c) as [->|Hxc].
        -- unfold category_at in Et. rewrite Et, Ej. exists oa. split; [exact Ka|]. split; [lia|]. split; [rewrite C1; f_equal; lia|].
           unfold arr_of in *. rewrite A1, Kd, map_map. apply map_ext. intros z.
           rewrite (Nat2Z.inj_succ j), Z.pow_succ_r by lia. lia.
        -- destruct (map_get x (maps h0 (h_Categories (stats h0 src)))) as [o|] eqn:Eo; [|exact G5].
           destruct (W4 x c o t Eo Et Hxc) as [_ Hd].
           destruct (m x) as [|jx].
           ++ destruct G5 as [K1 K2]. split; [exact K1|]. unfold arr_of in *. rewrite A2 by exact Hd. exact K2.
           ++ destruct G5 as (ox & K1 & K2 & K3 & K4). exists ox. split; [exact K1|]. split; [exact K2|]. split.
              ** rewrite C2; [exact K3|]. intros ->. apply Hxc. apply (G6 x c oa); unfold category_at; rewrite G1; assumption.
              ** unfold arr_of in *. rewrite A2 by exact Hd. exact K4.
      * intros x x' o. unfold category_at. rewrite M', S'. apply G6.
Qed.

Lemma bump_count : forall names m c, NoDup names -> fold_left bump names m c = if in_dec string_dec c names then S (m c) else m c.
Proof.
  induction names as [|a names IH]; intros m c Hnd; [reflexivity|]. inversion Hnd as [|? ? Hni Hnd']; subst. cbn [fold_left]. rewrite IH by assumption.
  unfold bump. destruct (in_dec string_dec c names) as [Hi|Hi], (in_dec string_dec c (a :: names)) as [Hj|Hj]; destruct (String.eqb_spec c a) as [->|Hca]; try reflexivity.
  - contradiction.
  - elim Hj. right. exact Hi.
  - elim Hj. right. exact Hi.
  - destruct Hj as [->|Hj]; [congruence|contradiction].
  - elim Hj. left. reflexivity.
Qed.

Lemma map_get_keys (m : list (string * nat)) c : map_get c m <> None <-> In c (map_keys m).
Proof.
  unfold map_keys. induction m as [|[k o] m IH]; cbn; [intuition|]. destruct (String.eqb_spec c k) as [->|Hne].
  - split; [left; reflexivity|congruence].
  - rewrite IH. intuition congruence.
Qed.

Hypothesis Hb : h_Bucketing (stats h0 agg) <> [].
Hypothesis Hl : zlen (h_Bucketing (stats h0 agg)) = zlen (h_Bucketing (stats h0 src)).

Lemma hMerge_again order m h : is_order order -> merged m h -> exists h', hMerge order h agg src = Ok h' /\ merged (fun c => S (m c)) h'.
Proof.
  intros Ho Hm. pose proof Hm as [G1 G2 G3 G4 G5 G6]. destruct Hwf as (W1 & W2 & W3 & W4). unfold hMerge, ss_IsZero. cbn [Bucketing view]. rewrite G1, G2.
  assert (P : forall l : list Z, l <> [] -> (zlen l <=? 0) = false) by (intros [|? ?] H; [congruence|unfold zlen; cbn [length]; lia]).
  rewrite !P by assumption. rewrite Hl, Z.eqb_refl. cbn [negb].
  pose proof (Ho (map_keys (maps h0 (h_Categories (stats h0 src))))) as Hp.
  destruct (hmerge_loop_again (order (map_keys (maps h0 (h_Categories (stats h0 src))))) m h) as (h' & E & Hm').
  - intros c Hc. apply map_get_keys. eapply Permutation_in; [|exact Hc]. first [exact Hp|apply Permutation_sym; exact Hp].
  - exact Hm.
  - exists h'. split; [exact E|]. eapply merged_ext; [|exact Hm']. intros c Hc. cbn beta. rewrite bump_count.
    + destruct (in_dec string_dec c _) as [|Hn]; [reflexivity|]. elim Hn. apply map_get_keys in Hc. eapply Permutation_in; [|exact Hc].
      first [exact Hp|apply Permutation_sym; exact Hp].
    + eapply Permutation_NoDup; [|exact W2]. first [exact Hp|apply Permutation_sym; exact Hp].
Qed.

Lemma hmerge_all_again orders : (forall n, is_order (orders n)) -> forall k n m h, merged m h ->
  exists h', hmerge_all orders n h agg (repeat src k) = Ok h' /\ merged (fun c => (k + m c)%nat) h'.
Proof.
  intros Ho. induction k as [|k IH]; intros n m h Hm; cbn [repeat hmerge_all].
  - exists h. split; [reflexivity|exact Hm].
  - destruct (hMerge_again (orders n) m h (Ho n) Hm) as (h1 & E1 & H1). rewrite E1. cbn [bind].
    destruct (IH (S n) _ h1 H1) as (h' & E & H'). exists h'. split; [exact E|]. eapply merged_ext; [|exact H']. intros c _. cbn. lia.
Qed.

Lemma merged_start : maps h0 (h_Categories (stats h0 agg)) = [] -> merged (fun _ => 0%nat) h0.
Proof.
  intros E. constructor; auto.
  - intros c. unfold category_at at 2 3. rewrite E. cbn. destruct (category_at h0 src c); auto.
  - intros c c' oa. unfold category_at. rewrite E. discriminate.
Qed.
End Repeat.

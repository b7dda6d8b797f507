(** Merging through pointers refines merging of values, for separate sources. *)
From Verif Require Import Go L_List M_Types M_Stats M_StatsHeap S_StatsHeap.
From Coq Require Import ZifyBool.
Open Scope string_scope.
Open Scope Z_scope.

Lemma upd_same {V} (f : nat -> V) a v : upd f a v a = v.
Proof. unfold upd. rewrite Nat.eqb_refl. reflexivity. Qed.
Lemma upd_other {V} (f : nat -> V) a v x : x <> a -> upd f a v x = f x.
Proof. unfold upd. intros H. destruct (Nat.eqb_spec x a); [contradiction|reflexivity]. Qed.

Lemma slice_get_app {A} (pre : list A) x post : slice_get (pre ++ x :: post)%list (zlen pre) = Ok x.
Proof.
  unfold slice_get, zlen. destruct (Z.ltb_spec (Z.of_nat (length pre)) 0); [lia|]. rewrite Nat2Z.id, nth_error_app2, Nat.sub_diag by lia. reflexivity.
Qed.
Lemma slice_set_app {A} (pre : list A) x y post : slice_set (pre ++ x :: post)%list (zlen pre) y = Ok (pre ++ y :: post)%list.
Proof.
  unfold slice_set, zlen. rewrite app_length. cbn [length].
  replace ((Z.of_nat (length pre) <? 0) || (Z.of_nat (length pre + S (length post)) <=? Z.of_nat (length pre))) with false by lia.
  rewrite Nat2Z.id, firstn_app, firstn_all, Nat.sub_diag. cbn [firstn]. rewrite app_nil_r.
  rewrite skipn_app, skipn_all2 by lia. replace (S (length pre) - length pre)%nat with 1%nat by lia. reflexivity.
Qed.

Lemma hadd_spec rest1 : forall h dst src pre pre2 rest2, dst <> src -> length rest1 = length rest2 ->
  arrs h dst = (pre ++ rest1)%list -> arrs h src = (pre2 ++ rest2)%list -> length pre = length pre2 ->
  exists l h', add_buckets rest1 rest2 = Ok l /\ length l = length rest1 /\ hadd h dst src (zlen pre) (length rest1) = Ok h' /\
    arrs h' dst = (pre ++ l)%list /\ (forall a, a <> dst -> arrs h' a = arrs h a) /\
    cats h' = cats h /\ maps h' = maps h /\ stats h' = stats h /\ next h' = next h.
Proof.
  induction rest1 as [|x rest1 IH]; intros h dst src pre pre2 rest2 Hne Hl Hd Hs Hp; destruct rest2 as [|y rest2]; try discriminate.
  - exists [], h. cbn. repeat split; auto.
  - cbn [length hadd add_buckets]. 
    assert (G : slice_get (arrs h src) (zlen pre) = Ok y) by (rewrite Hs; replace (zlen pre) with (zlen pre2) by (unfold zlen; lia); apply slice_get_app).
    rewrite G, Hd, slice_get_app. cbn [bind]. rewrite slice_set_app. cbn [bind].
    destruct (IH (set_arr h dst (pre ++ (x + y) :: rest1)%list) dst src (pre ++ [x + y])%list (pre2 ++ [y])%list rest2) as (l & h' & E & El & Eh & H1 & H2 & H3).
    + exact Hne.
    + cbn in Hl. lia.
    + cbn. rewrite upd_same, <- app_assoc. reflexivity.
    + cbn. rewrite upd_other by congruence. rewrite Hs, <- app_assoc. reflexivity.
    + rewrite !app_length. cbn. lia.
    + rewrite E. cbn [bind]. exists ((x + y) :: l), h'. split; [reflexivity|]. split; [cbn; lia|].
      split; [rewrite <- Eh; f_equal; unfold zlen; rewrite app_length; cbn; lia|].
      split; [rewrite H1, <- app_assoc; reflexivity|]. cbn in H2, H3. split; [|exact H3].
      intros a Ha. rewrite H2 by exact Ha. apply upd_other. exact Ha.
Qed.

(** A category object that has observed something cannot look empty. *)
Definition solid (o : hcat) : Prop := o_Category o <> "" \/ o_Oldest o <> 0.
Lemma solid_not_zero h a : solid (cats h a) -> cs_IsZero (view_cat h a) = false.
Proof.
  intros [H|H]; unfold cs_IsZero, view_cat; cbn.
  - apply String.eqb_neq in H. rewrite H. reflexivity.
  - apply Z.eqb_neq in H. rewrite H. rewrite !andb_false_r. reflexivity.
Qed.
Lemma olderOf_nonzero a b : a <> 0 -> olderOf a b <> 0.
Proof. unfold olderOf. destruct (Z.eqb_spec a 0), (Z.eqb_spec b 0), (Z.ltb_spec a b); cbn; congruence. Qed.

Lemma hcat_Merge_spec h cs other : cs <> other -> o_BucketCounts (cats h cs) <> o_BucketCounts (cats h other) ->
  solid (cats h cs) -> solid (cats h other) ->
  match cs_Merge (view_cat h cs) (view_cat h other) with
  | Panic => hcat_Merge h cs other = Panic
  | Ok v => exists h', hcat_Merge h cs other = Ok h' /\ view_cat h' cs = v /\
      (forall a, a <> cs -> cats h' a = cats h a) /\ o_BucketCounts (cats h' cs) = o_BucketCounts (cats h cs) /\ solid (cats h' cs) /\
      (forall a, a <> o_BucketCounts (cats h cs) -> arrs h' a = arrs h a) /\
      maps h' = maps h /\ stats h' = stats h /\ next h' = next h
  end.
Proof.
  intros Hne Hna Hs1 Hs2. unfold cs_Merge, hcat_Merge. rewrite !solid_not_zero by assumption.
  destruct (Z.eqb_spec (zlen (BucketCounts (view_cat h cs))) (zlen (BucketCounts (view_cat h other)))) as [El|]; cbn [negb]; [|reflexivity].
  cbn [BucketCounts view_cat] in El. unfold zlen in El. apply Nat2Z.inj in El.
  set (h1 := set_cat h cs _).
  assert (E1 : o_BucketCounts (cats h1 cs) = o_BucketCounts (cats h cs)) by (unfold h1; cbn; rewrite upd_same; reflexivity).
  assert (E2 : cats h1 other = cats h other) by (unfold h1; cbn; rewrite upd_other by congruence; reflexivity).
  rewrite E1, E2.
  destruct (hadd_spec (arrs h (o_BucketCounts (cats h cs))) h1 _ _ [] [] (arrs h (o_BucketCounts (cats h other))) Hna El eq_refl eq_refl eq_refl)
    as (l & h2 & Eb & Ell & Eh & A1 & A2 & C2 & M2 & S2 & N2).
  cbn [BucketCounts view_cat]. rewrite Eb. cbn [bind]. change (arrs h1) with (arrs h) in *. change (zlen (@nil Z)) with 0 in Eh. rewrite Eh. cbn [bind].
  eexists. split; [reflexivity|]. cbn [cats set_cat]. rewrite !upd_same. rewrite !(upd_other _ cs _ other) by congruence.
  rewrite C2. unfold h1. cbn [cats set_cat]. rewrite !upd_same. rewrite !(upd_other _ cs _ other) by congruence.
  cbn. split.
  - unfold view_cat. cbn. rewrite upd_same. cbn. rewrite A1. reflexivity.
  - split; [|split; [|split; [|split; [|split; [|split]]]]].
    + intros a Ha. rewrite !upd_other by congruence. reflexivity.
    + reflexivity.
    + unfold solid in *. cbn. destruct Hs1 as [H|H]; [left; exact H|right; apply olderOf_nonzero; exact H].
    + intros a Ha. rewrite A2 by exact Ha. reflexivity.
    + rewrite M2. reflexivity.
    + rewrite S2. reflexivity.
    + rewrite N2. reflexivity.
Qed.

(** Views only depend on what they reach. *)
Lemma view_cat_ext h h' a : cats h' a = cats h a -> arrs h' (o_BucketCounts (cats h a)) = arrs h (o_BucketCounts (cats h a)) -> view_cat h' a = view_cat h a.
Proof. intros H1 H2. unfold view_cat. rewrite H1, H2. reflexivity. Qed.
Lemma view_map_get h m c : map_get c (view_map h m) = option_map (view_cat h) (map_get c m).
Proof. unfold view_map. induction m as [|[k o] m IH]; [reflexivity|]. cbn. destruct (String.eqb c k); [reflexivity|exact IH]. Qed.
Lemma view_map_keys h m : map_keys (view_map h m) = map_keys m.
Proof. unfold view_map, map_keys. rewrite map_map. reflexivity. Qed.
Lemma view_map_set_new h m c o : view_map h (map_set c o m) = map_set c (view_cat h o) (view_map h m).
Proof. unfold view_map. induction m as [|[k o'] m IH]; [reflexivity|]. cbn. destruct (String.eqb c k); cbn; [reflexivity|rewrite IH; reflexivity]. Qed.
Lemma view_map_ext h h' m : (forall c o, In (c, o) m -> view_cat h' o = view_cat h o) -> view_map h' m = view_map h m.
Proof. intros H. unfold view_map. apply map_ext_in. intros [c o] Hi. cbn. rewrite (H c o Hi). reflexivity. Qed.
Lemma view_map_upd h h' m c o v : NoDup (map_keys m) -> map_get c m = Some o -> view_cat h' o = v ->
  (forall c' o', In (c', o') m -> c' <> c -> view_cat h' o' = view_cat h o') -> view_map h' m = map_set c v (view_map h m).
Proof.
  intros Hnd Hg Hv Ho. unfold view_map. induction m as [|[k o'] m IH]; [discriminate|]. cbn [map map_set fst snd].
  cbn [map_get] in Hg. cbn [map_keys map fst] in Hnd. inversion Hnd as [|? ? Hni Hnd']; subst.
  destruct (String.eqb_spec c k) as [E|Hne].
  - subst k. injection Hg as ->. f_equal. apply map_ext_in. intros [c' o''] Hi. cbn. rewrite (Ho c' o''); [reflexivity|right; exact Hi|].
    intros ->. apply Hni. apply (in_map fst) in Hi. exact Hi.
  - f_equal; [f_equal; apply (Ho k o'); [left; reflexivity|congruence]|]. apply IH; auto. intros c' o'' Hi. apply Ho. right. exact Hi.
Qed.

(** The map of a stats object. *)
Definition smap (h : heap) (a : nat) : list (string * nat) := maps h (h_Categories (stats h a)).
Definition arr_of (h : heap) (o : nat) : nat := o_BucketCounts (cats h o).

(** A stats object owns its category objects and their arrays. *)
Definition owns (h : heap) (a : nat) : Prop :=
  NoDup (map_keys (smap h a)) /\
  (forall c o, map_get c (smap h a) = Some o -> (o < next h)%nat /\ solid (cats h o)) /\
  (forall c c' o o', map_get c (smap h a) = Some o -> map_get c' (smap h a) = Some o' -> c <> c' -> o <> o' /\ arr_of h o <> arr_of h o').

Lemma hmerge_loop_spec ss other : forall names h, NoDup names -> owns h ss -> owns h other ->
  h_Categories (stats h ss) <> h_Categories (stats h other) ->
  (forall c, In c names -> exists t, map_get c (smap h other) = Some t /\
     forall c' o, map_get c' (smap h ss) = Some o -> o <> t /\ arr_of h o <> arr_of h t) ->
  match merge_categories names (view_map h (smap h other)) (view_map h (smap h ss)) with
  | Panic => hmerge_loop h ss other names = Panic
  | Ok v => exists h', hmerge_loop h ss other names = Ok h' /\ view_map h' (smap h' ss) = v /\
      stats h' = stats h /\ (next h <= next h')%nat /\ owns h' ss /\
      (forall m, m <> h_Categories (stats h ss) -> maps h' m = maps h m) /\
      (forall o, (o < next h)%nat -> (forall c, map_get c (smap h ss) <> Some o) -> cats h' o = cats h o) /\
      (forall a, (forall c o, map_get c (smap h ss) = Some o -> In c names -> a <> arr_of h o) -> arrs h' a = arrs h a) /\
      (forall c, match map_get c (smap h ss) with
                 | Some o => map_get c (smap h' ss) = Some o /\ arr_of h' o = arr_of h o
                 | None => if in_dec string_dec c names
                           then exists o t, map_get c (smap h' ss) = Some o /\ (next h <= o)%nat /\ map_get c (smap h other) = Some t /\ arr_of h' o = arr_of h t
                           else map_get c (smap h' ss) = None
                 end)
  end.
Proof.
  induction names as [|c names IH]; intros h Hnd Hown Hoth Hm Hsep; cbn [merge_categories hmerge_loop].
  - exists h. split; [reflexivity|]. split; [reflexivity|]. split; [reflexivity|]. split; [lia|]. split; [exact Hown|].
    split; [reflexivity|]. split; [reflexivity|]. split; [reflexivity|]. intros c. destruct (map_get c (smap h ss)) eqn:E; [split; reflexivity|].
    destruct (in_dec string_dec c []) as [[]|]. reflexivity.
  - inversion Hnd as [|? ? Hni Hnd']; subst. destruct (Hsep c (or_introl eq_refl)) as (t & Ht & Hd).
    rewrite view_map_get. fold (smap h other). rewrite Ht. cbn [option_map]. fold (smap h ss). rewrite view_map_get.
    destruct Hown as (O1 & O2 & O3). destruct Hoth as (P1 & P2 & P3). destruct (P2 c t Ht) as [Pt Pts].
    destruct (map_get c (smap h ss)) as [o|] eqn:Eo; cbn [option_map].
    + (* merged into an existing category *)
      destruct (O2 c o Eo) as [Oo Oos]. destruct (Hd c o Eo) as [Dn Da].
      pose proof (hcat_Merge_spec h o t Dn Da Oos Pts) as HM. destruct (cs_Merge (view_cat h o) (view_cat h t)) as [v|]; [|rewrite HM; reflexivity].
      destruct HM as (h1 & E1 & V1 & C1 & B1 & So1 & A1 & M1 & S1 & N1). rewrite E1. cbn [bind].
      assert (Hss1 : smap h1 ss = smap h ss) by (unfold smap; rewrite S1, M1; reflexivity).
      assert (Hot1 : smap h1 other = smap h other) by (unfold smap; rewrite S1, M1; reflexivity).
      assert (Harr : forall x, arr_of h1 x = arr_of h x).
      { intros x. unfold arr_of. destruct (Nat.eq_dec x o) as [->|Hx]; [exact B1|rewrite C1 by exact Hx; reflexivity]. }
      assert (Hoth' : view_map h1 (smap h1 other) = view_map h1 (smap h other)) by (rewrite Hot1; reflexivity).
      assert (HV : view_map h1 (smap h1 ss) = map_set c v (view_map h (smap h ss))).
      { rewrite Hss1. apply (view_map_upd h h1 _ c o v); auto. intros c' o' Hi Hc. apply map_In_get in Hi; [|exact O1].
        destruct (O3 c' c o' o Hi Eo Hc) as [N A]. apply view_cat_ext; [apply C1; exact N|apply A1; exact A]. }
      assert (HO1 : owns h1 ss).
      { unfold owns. rewrite Hss1, N1. split; [exact O1|]. split.
        - intros c' o' H'. destruct (O2 c' o' H') as [Q1 Q2]. split; [exact Q1|]. destruct (Nat.eq_dec o' o) as [->|Hx]; [exact So1|rewrite C1 by exact Hx; exact Q2].
        - intros c1 c2 o1 o2 H1 H2 Hc. rewrite !Harr. eapply O3; eassumption. }
      assert (HP1 : owns h1 other).
      { unfold owns. rewrite Hot1, N1. split; [exact P1|]. split.
        - intros c' o' H'. destruct (P2 c' o' H') as [Q1 Q2]. split; [exact Q1|]. destruct (Nat.eq_dec o' o) as [->|Hx]; [exact So1|rewrite C1 by exact Hx; exact Q2].
        - intros c1 c2 o1 o2 H1 H2 Hc. rewrite !Harr. eapply P3; eassumption. }
      specialize (IH h1 Hnd' HO1 HP1). rewrite S1 in IH. specialize (IH Hm).
      rewrite Hot1, Hss1 in IH.
      assert (Hsep1 : forall c0, In c0 names -> exists t0, map_get c0 (smap h other) = Some t0 /\
                forall c' o0, map_get c' (smap h ss) = Some o0 -> o0 <> t0 /\ arr_of h1 o0 <> arr_of h1 t0).
      { intros c0 Hc0. destruct (Hsep c0 (or_intror Hc0)) as (t0 & Ht0 & Hd0). exists t0. split; [exact Ht0|]. intros c' o0 Ho0. rewrite !Harr. eapply Hd0; eassumption. }
      specialize (IH Hsep1). rewrite Hss1 in HV. rewrite HV in IH.
      (* the value-level merge reads the other map's entries for the remaining names only *)
      assert (Hmc : forall m1 m2 ours, (forall x, In x names -> map_get x m1 = map_get x m2) -> merge_categories names m1 ours = merge_categories names m2 ours).
      { clear. induction names as [|x xs IHx]; intros m1 m2 ours H; [reflexivity|]. cbn [merge_categories]. rewrite (H x (or_introl eq_refl)).
        destruct (map_get x m2); [|reflexivity]. destruct (map_get x ours) as [y|].
        - destruct (cs_Merge y c); [cbn; apply IHx; intros z Hz; apply H; right; exact Hz|reflexivity].
        - apply IHx. intros z Hz. apply H. right. exact Hz. }
      cbn [bind].
      rewrite (Hmc (view_map h1 (smap h other)) (view_map h (smap h other))) in IH.
      2:{ intros x Hx. rewrite !view_map_get. destruct (Hsep x (or_intror Hx)) as (tx & Htx & Hdx). rewrite Htx. cbn. f_equal.
          destruct (Hdx c o Eo) as [Q1 Q2]. apply view_cat_ext; [apply C1; congruence|apply A1]. intros E. apply Q2. unfold arr_of. congruence. }
      destruct (merge_categories names (view_map h (smap h other)) (map_set c v (view_map h (smap h ss)))) as [v'|]; [|exact IH].
      destruct IH as (h' & E' & V' & St & Nx & Ow & Mp & Ct & Ar & Ke). exists h'. split; [exact E'|]. split; [exact V'|]. split; [congruence|].
      split; [lia|]. split; [exact Ow|]. split; [intros m Hmm; rewrite Mp by exact Hmm; rewrite M1; reflexivity|].
      split. { intros x Hx Hnot. rewrite Ct; [|lia|exact Hnot]. apply C1. intros ->. apply (Hnot c). exact Eo. }
      split. { intros a Ha. rewrite Ar.
        - apply A1. apply (Ha c o Eo). left. reflexivity.
        - intros c' o' Ho' Hin. rewrite Harr. apply (Ha c' o' Ho'). right. exact Hin. }
      intros c'. specialize (Ke c'). destruct (map_get c' (smap h ss)) as [o'|] eqn:Ec'; [rewrite Harr in Ke; exact Ke|].
      destruct (in_dec string_dec c' names) as [Hi|Hi]; destruct (in_dec string_dec c' (c :: names)) as [Hi'|Hi'].
      * destruct Ke as (o' & t' & K1 & K2 & K3 & K4). exists o', t'. rewrite Harr in K4. repeat split; auto; lia.
      * exfalso. apply Hi'. right. exact Hi.
      * exfalso. destruct Hi' as [->|Hi']; [congruence|contradiction].
      * exact Ke.
    + (* copied *)
      cbn [stats maps set_map]. fold (smap h ss).
      set (h1 := set_map _ _ _).
      assert (S1 : stats h1 = stats h) by reflexivity.
      assert (Hss1 : smap h1 ss = map_set c (next h) (smap h ss)) by (unfold smap, h1; cbn; rewrite upd_same; reflexivity).
      assert (Hot1 : smap h1 other = smap h other) by (unfold smap, h1; cbn; rewrite upd_other by congruence; reflexivity).
      assert (C1 : forall x, (x < next h)%nat -> cats h1 x = cats h x) by (intros x Hx; unfold h1; cbn; apply upd_other; lia).
      assert (C2 : cats h1 (next h) = cats h t) by (unfold h1; cbn; apply upd_same).
      assert (A1 : arrs h1 = arrs h) by reflexivity.
      assert (Harr : forall x, (x < next h)%nat -> arr_of h1 x = arr_of h x) by (intros x Hx; unfold arr_of; rewrite C1 by exact Hx; reflexivity).
      assert (Harr2 : arr_of h1 (next h) = arr_of h t) by (unfold arr_of; rewrite C2; reflexivity).
      assert (HVx : forall x, (x < next h)%nat -> view_cat h1 x = view_cat h x) by (intros x Hx; apply view_cat_ext; [apply C1; exact Hx|reflexivity]).
      assert (HV2 : view_cat h1 (next h) = view_cat h t) by (unfold view_cat; rewrite C2; reflexivity).
      assert (Hold : view_map h1 (smap h ss) = view_map h (smap h ss)).
      { apply view_map_ext. intros c' o' Hi. apply map_In_get in Hi; [|exact O1]. apply HVx. eapply O2. exact Hi. }
      assert (HV : view_map h1 (smap h1 ss) = map_set c (view_cat h t) (view_map h (smap h ss))).
      { rewrite Hss1, view_map_set_new, Hold, HV2. reflexivity. }
      assert (HVo : view_map h1 (smap h1 other) = view_map h (smap h other)).
      { rewrite Hot1. apply view_map_ext. intros c' o' Hi. apply map_In_get in Hi; [|exact P1]. apply HVx. eapply P2. exact Hi. }
      assert (HO1 : owns h1 ss).
      { unfold owns. rewrite Hss1. split; [apply map_keys_set_NoDup; exact O1|]. cbn [next h1 set_map]. split.
        - intros c' o'. rewrite map_get_set. destruct (String.eqb_spec c' c) as [->|Hx]; intros H'.
          + injection H' as <-. split; [lia|]. rewrite C2. exact Pts.
          + destruct (O2 c' o' H') as [Q1 Q2]. split; [lia|]. rewrite C1 by exact Q1. exact Q2.
        - intros c1 c2 o1 o2. rewrite !map_get_set. destruct (String.eqb_spec c1 c) as [->|Hx], (String.eqb_spec c2 c) as [->|Hy]; intros H1 H2 Hc.
          + contradiction.
          + injection H1 as <-. destruct (O2 _ _ H2) as [Q _]. split; [lia|]. rewrite Harr2, Harr by exact Q. intros E. apply (proj2 (Hd _ _ H2)). congruence.
          + injection H2 as <-. destruct (O2 _ _ H1) as [Q _]. split; [lia|]. rewrite Harr2, Harr by exact Q. apply (proj2 (Hd _ _ H1)).
          + destruct (O2 _ _ H1) as [Q _]. destruct (O2 _ _ H2) as [Q' _]. rewrite !Harr by assumption. eapply O3; eassumption. }
      assert (HP1 : owns h1 other).
      { unfold owns. rewrite Hot1. split; [exact P1|]. cbn [next h1 set_map]. split.
        - intros c' o' H'. destruct (P2 c' o' H') as [Q1 Q2]. split; [lia|]. rewrite C1 by exact Q1. exact Q2.
        - intros c1 c2 o1 o2 H1 H2 Hc. destruct (P2 _ _ H1) as [Q _]. destruct (P2 _ _ H2) as [Q' _]. rewrite !Harr by assumption. eapply P3; eassumption. }
      specialize (IH h1 Hnd' HO1 HP1). rewrite S1 in IH. specialize (IH Hm).
      assert (Hsep1 : forall c0, In c0 names -> exists t0, map_get c0 (smap h1 other) = Some t0 /\
                forall c' o0, map_get c' (smap h1 ss) = Some o0 -> o0 <> t0 /\ arr_of h1 o0 <> arr_of h1 t0).
      { intros c0 Hc0. destruct (Hsep c0 (or_intror Hc0)) as (t0 & Ht0 & Hd0). exists t0. split; [rewrite Hot1; exact Ht0|]. destruct (P2 _ _ Ht0) as [Q0 _].
        intros c' o0. rewrite Hss1, map_get_set. destruct (String.eqb_spec c' c) as [->|Hx]; intros Ho0.
        - injection Ho0 as <-. split; [lia|]. rewrite Harr2, Harr by exact Q0. apply (P3 c c0 t t0 Ht Ht0). intros ->. contradiction.
        - destruct (O2 _ _ Ho0) as [Q _]. rewrite !Harr by assumption. eapply Hd0; exact Ho0. }
      specialize (IH Hsep1). rewrite HV, HVo in IH.
      destruct (merge_categories names (view_map h (smap h other)) (map_set c (view_cat h t) (view_map h (smap h ss)))) as [v'|]; [|exact IH].
      destruct IH as (h' & E' & V' & St & Nx & Ow & Mp & Ct & Ar & Ke). cbn [next h1 set_map] in Nx. exists h'. split; [exact E'|]. split; [exact V'|]. split; [congruence|].
      split; [lia|]. split; [exact Ow|].
      split. { intros m Hmm. rewrite Mp by exact Hmm. unfold h1. cbn. apply upd_other. exact Hmm. }
      split. { intros x Hx Hnot. rewrite Ct; [apply C1; exact Hx|cbn [next h1 set_map]; lia|]. intros c'. rewrite Hss1, map_get_set.
        destruct (String.eqb_spec c' c); [intros E; injection E as <-; lia|apply Hnot]. }
      split. { intros a Ha. rewrite Ar; [reflexivity|]. intros c' o'. rewrite Hss1, map_get_set. destruct (String.eqb_spec c' c) as [Ecc|Hx]; intros Ho' Hin; [subst c'|].
        - contradiction.
        - destruct (O2 _ _ Ho') as [Q _]. rewrite Harr by exact Q. apply (Ha c' o' Ho'). right. exact Hin. }
      intros c'. specialize (Ke c'). rewrite Hss1, map_get_set in Ke. destruct (string_dec c' c) as [Ecc|Hx]; [subst c'; rewrite String.eqb_refl in Ke|rewrite (proj2 (String.eqb_neq c' c) Hx) in Ke].
      * rewrite Eo. destruct Ke as [K1 K2]. destruct (in_dec string_dec c (c :: names)) as [_|Hi]; [|exfalso; apply Hi; left; reflexivity].
        exists (next h), t. repeat split; auto. rewrite K2. exact Harr2.
      * destruct (map_get c' (smap h ss)) as [o'|] eqn:Ec'; [destruct (O2 _ _ Ec') as [Q _]; rewrite Harr in Ke by exact Q; exact Ke|].
        destruct (in_dec string_dec c' names) as [Hi|Hi]; destruct (in_dec string_dec c' (c :: names)) as [Hi'|Hi'].
        -- destruct Ke as (o' & t' & K1 & K2 & K3 & K4). cbn [next h1 set_map] in K2. rewrite Hot1 in K3. exists o', t'. destruct (P2 _ _ K3) as [Q _]. rewrite Harr in K4 by exact Q. repeat split; auto; lia.
        -- exfalso. apply Hi'. right. exact Hi.
        -- exfalso. destruct Hi' as [->|Hi']; [congruence|contradiction].
        -- exact Ke.
Qed.

(** *** Many sources *)
Fixpoint first_with (h : heap) (l : list nat) (c : string) : option nat :=
  match l with
  | [] => None
  | b :: l => match category_at h b c with Some o => Some o | None => first_with h l c end
  end.
Lemma first_with_in h l c o : first_with h l c = Some o -> exists i b, nth_error l i = Some b /\ category_at h b c = Some o.
Proof.
  induction l as [|b l IH]; [discriminate|]. cbn. destruct (category_at h b c) as [o'|] eqn:E.
  - intros H. injection H as <-. exists 0%nat, b. auto.
  - intros H. destruct (IH H) as (i & b' & H1 & H2). exists (S i), b'. auto.
Qed.
Lemma first_with_app h l l' c : first_with h (l ++ l')%list c = match first_with h l c with Some o => Some o | None => first_with h l' c end.
Proof. induction l as [|b l IH]; [reflexivity|]. cbn. destruct (category_at h b c); [reflexivity|exact IH]. Qed.

Record inv (h0 : heap) (agg : nat) (D : list nat) (h : heap) : Prop := MkInv {
  i_stats : stats h = stats h0;
  i_maps : forall m, m <> h_Categories (stats h0 agg) -> maps h m = maps h0 m;
  i_next : (next h0 <= next h)%nat;
  i_owns : owns h agg;
  i_cats : forall o, (o < next h0)%nat -> cats h o = cats h0 o;
  i_agg : forall c, match first_with h0 D c with
                    | Some o => exists oa, map_get c (smap h agg) = Some oa /\ (next h0 <= oa)%nat /\ arr_of h oa = arr_of h0 o
                    | None => map_get c (smap h agg) = None
                    end;
  i_arrs : forall a, (forall c o, first_with h0 D c = Some o -> shared_category h0 D c -> a <> arr_of h0 o) -> arrs h a = arrs h0 a }.

Lemma well_formed_owns h a : well_formed h a -> owns h a.
Proof. intros (_ & H2 & H3 & H4). split; [exact H2|]. split; [exact H3|exact H4]. Qed.

Lemma separate_mid h D s R : separate h (D ++ s :: R) -> well_formed h s /\
  (forall c o c' t, first_with h D c = Some o -> category_at h s c' = Some t -> o <> t /\ arr_of h o <> arr_of h t).
Proof.
  intros [H1 H2]. split.
  - apply Forall_app in H1 as [_ H1]. inversion H1; assumption.
  - intros c o c' t Hf Ht. apply first_with_in in Hf as (i & b & Hi & Hb).
    assert (Hlt : (i < length D)%nat) by (apply nth_error_Some; congruence).
    destruct (H2 i (length D) b s) as [_ H]; [lia|rewrite nth_error_app1 by exact Hlt; exact Hi|rewrite nth_error_app2, Nat.sub_diag by lia; reflexivity|].
    eapply H; eassumption.
Qed.

Lemma merge_step h0 agg D s R h order : is_order order -> separate h0 (D ++ s :: R) -> fresh h0 agg (D ++ s :: R) -> inv h0 agg D h ->
  match ss_Merge order (view h agg) (Some (view h0 s)) with
  | Panic => hMerge order h agg s = Panic
  | Ok v => exists h', hMerge order h agg s = Ok h' /\ view h' agg = v /\ inv h0 agg (D ++ [s]) h'
  end.
Proof.
  intros Ho Hsep (F1 & F2 & F3) [I1 I2 I3 I4 I5 I6 I7]. destruct (separate_mid _ _ _ _ Hsep) as [Hwf Hdis].
  destruct Hwf as (W1 & W2 & W3 & W4).
  assert (Fs : h_Categories (stats h0 agg) <> h_Categories (stats h0 s)) by (apply F3; apply in_or_app; right; left; reflexivity).
  assert (Hsm : smap h s = smap h0 s) by (unfold smap; rewrite I1, I2 by congruence; reflexivity).
  assert (Hview : view h s = view h0 s).
  { unfold view. rewrite I1, (I2 (h_Categories (stats h0 s))) by congruence. f_equal. apply view_map_ext. intros c o Hi.
    apply map_In_get in Hi; [|exact W2]. destruct (W3 c o Hi) as [Q _]. apply view_cat_ext; [apply I5; exact Q|].
    apply I7. intros c' o' Hf _. intros E. apply (proj2 (Hdis _ _ _ _ Hf Hi)). symmetry. exact E. }
  unfold ss_Merge, hMerge. rewrite Hview.
  assert (Z1 : ss_IsZero (Some (view h0 s)) = false).
  { unfold ss_IsZero, view. cbn [Bucketing]. destruct (h_Bucketing (stats h0 s)) as [|x l]; [contradiction|]. unfold zlen. cbn [length].
    destruct (Z.leb_spec (Z.of_nat (S (length l))) 0); [lia|reflexivity]. }
  assert (Z2 : ss_IsZero (Some (view h agg)) = false).
  { unfold ss_IsZero, view. cbn [Bucketing]. rewrite I1. destruct (h_Bucketing (stats h0 agg)) as [|x l]; [contradiction|]. unfold zlen. cbn [length].
    destruct (Z.leb_spec (Z.of_nat (S (length l))) 0); [lia|reflexivity]. }
  rewrite Z1, Z2. destruct (zlen (Bucketing (view h agg)) =? zlen (Bucketing (view h0 s))); cbn [negb]; [|reflexivity].
  assert (Hown : owns h s).
  { unfold owns. rewrite Hsm. split; [exact W2|]. split.
    - intros c o H. destruct (W3 c o H) as [Q1 Q2]. split; [lia|]. rewrite I5 by exact Q1. exact Q2.
    - intros c c' o o' H H' Hc. destruct (W3 _ _ H) as [Q _]. destruct (W3 _ _ H') as [Q' _]. unfold arr_of. rewrite !I5 by assumption. eapply W4; eassumption. }
  cbn [Categories view]. rewrite view_map_keys. fold (smap h0 s). fold (smap h s). rewrite Hsm.
  set (names := order (map_keys (smap h0 s))).
  assert (Hnames : forall c, In c names <-> In c (map_keys (smap h0 s))) by (intros c; split; apply Permutation_in; [apply Ho|symmetry; apply Ho]).
  pose proof (hmerge_loop_spec agg s names h) as HL. rewrite Hsm in HL.
  assert (Ev : view_map h (smap h0 s) = view_map h0 (smap h0 s)).
  { pose proof Hview as E. unfold view in E. injection E as _ E. fold (smap h s) (smap h0 s) in E. rewrite Hsm in E. exact E. }
  rewrite Ev in HL. fold (smap h agg). specialize (HL ltac:(eapply Permutation_NoDup; [symmetry; apply Ho|exact W2]) I4 Hown).
  rewrite I1 in HL. specialize (HL Fs).
  assert (Hs2 : forall c, In c names -> exists t, map_get c (smap h0 s) = Some t /\
     forall c' o, map_get c' (smap h agg) = Some o -> o <> t /\ arr_of h o <> arr_of h t).
  { intros c Hc. apply Hnames, map_get_in in Hc. destruct (map_get c (smap h0 s)) as [t|] eqn:Et; [|contradiction]. exists t. split; [reflexivity|].
    destruct (W3 c t Et) as [Q _]. intros c' o Ho'. specialize (I6 c'). destruct (first_with h0 D c') as [o'|] eqn:Ef; [|congruence].
    destruct I6 as (oa & E1 & E2 & E3). rewrite Ho' in E1. injection E1 as <-. split; [lia|]. rewrite E3. unfold arr_of at 2. rewrite I5 by exact Q.
    apply (Hdis _ _ _ _ Ef Et). }
  specialize (HL Hs2).
  destruct (merge_categories names (view_map h0 (smap h0 s)) (view_map h (smap h agg))) as [v|]; [|exact HL]. cbn [bind].
  destruct HL as (h' & E' & V' & St & Nx & Ow & Mp & Ct & Ar & Ke). exists h'. split; [exact E'|].
  split. { unfold view. cbn [Bucketing]. rewrite I1, <- V'. unfold smap. rewrite St. reflexivity. }
  constructor.
  - congruence.
  - intros m Hm. rewrite Mp by exact Hm. apply I2. exact Hm.
  - lia.
  - exact Ow.
  - intros o Hlt. rewrite Ct; [apply I5; exact Hlt|lia|]. intros c Hc. specialize (I6 c). destruct (first_with h0 D c); [|congruence].
    destruct I6 as (oa & E1 & E2 & _). rewrite Hc in E1. injection E1 as <-. lia.
  - intros c. rewrite first_with_app. specialize (I6 c). specialize (Ke c). destruct (first_with h0 D c) as [o|].
    + destruct I6 as (oa & E1 & E2 & E3). rewrite E1 in Ke. destruct Ke as [K1 K2]. exists oa. repeat split; auto. congruence.
    + rewrite I6 in Ke. cbn [first_with]. fold (smap h0 s) in *. unfold category_at. fold (smap h0 s).
      destruct (in_dec string_dec c names) as [Hi|Hi].
      * destruct Ke as (oa & t & K1 & K2 & K3 & K4). rewrite K3. exists oa. repeat split; auto; [lia|]. rewrite K4. unfold arr_of. rewrite I5; [reflexivity|]. eapply W3. exact K3.
      * destruct (map_get c (smap h0 s)) eqn:E; [|exact Ke]. exfalso. apply Hi. apply Hnames. apply map_get_in. congruence.
  - intros a Ha. rewrite Ar.
    + apply I7. intros c o Hf (i & j & x & y & Hij & Hi & Hj & Hx & Hy). apply (Ha c o); [rewrite first_with_app, Hf; reflexivity|].
      exists i, j, x, y. split; [exact Hij|]. rewrite !nth_error_app1 by (apply nth_error_Some; congruence). auto.
    + intros c oa Hoa Hin. specialize (I6 c). destruct (first_with h0 D c) as [o|] eqn:Ef; [|congruence]. destruct I6 as (oa' & E1 & _ & E3).
      rewrite Hoa in E1. injection E1 as <-. rewrite E3. apply (Ha c o); [rewrite first_with_app, Ef; reflexivity|].
      apply first_with_in in Ef as (i & b & Hi & Hb). assert (Hlt : (i < length D)%nat) by (apply nth_error_Some; congruence).
      exists i, (length D), b, s. split; [exact Hlt|]. rewrite nth_error_app1 by exact Hlt. rewrite nth_error_app2, Nat.sub_diag by lia.
      split; [exact Hi|]. split; [reflexivity|]. split; [congruence|]. apply Hnames, map_get_in in Hin. exact Hin.
Qed.

Lemma merge_chain h0 agg orders : (forall n, is_order (orders n)) -> forall R D n h, separate h0 (D ++ R) -> fresh h0 agg (D ++ R) -> inv h0 agg D h ->
  match merge_all orders n (view h agg) (map (view h0) R) with
  | Panic => hmerge_all orders n h agg R = Panic
  | Ok v => exists h', hmerge_all orders n h agg R = Ok h' /\ view h' agg = v /\ inv h0 agg (D ++ R) h'
  end.
Proof.
  intros Ho. induction R as [|s R IH]; intros D n h Hs Hf Hi; cbn [map merge_all hmerge_all].
  - exists h. rewrite app_nil_r. auto.
  - pose proof (merge_step h0 agg D s R h (orders n) (Ho n) Hs Hf Hi) as HM.
    destruct (ss_Merge (orders n) (view h agg) (Some (view h0 s))) as [v|]; [|rewrite HM; reflexivity].
    destruct HM as (h1 & E1 & V1 & I1). rewrite E1. cbn [bind]. rewrite <- V1.
    replace (D ++ s :: R)%list with ((D ++ [s]) ++ R)%list in * by (rewrite <- app_assoc; reflexivity). apply IH; assumption.
Qed.

Lemma merge_all_separate h agg srcs orders n : (forall n, is_order (orders n)) -> separate h srcs -> fresh h agg srcs ->
  match merge_all orders n (view h agg) (map (view h) srcs) with
  | Panic => hmerge_all orders n h agg srcs = Panic
  | Ok v => exists h', hmerge_all orders n h agg srcs = Ok h' /\ view h' agg = v /\ inv h agg srcs h'
  end.
Proof.
  intros Ho Hs Hf. apply (merge_chain h agg orders Ho srcs [] n h Hs Hf). destruct Hf as (F1 & F2 & F3). constructor; auto.
  - unfold owns, smap. rewrite F2. split; [constructor|]. split; intros; discriminate.
  - intros c. cbn. unfold smap. rewrite F2. reflexivity.
Qed.

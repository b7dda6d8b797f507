(** Lemmas about M_Foreign.v *)
From Verif Require Import Go L_List M_Strings M_Types M_Filter M_Stats L_Stats M_Search L_Search M_Foreign S_Foreign.
From Coq Require Import ZifyBool.
Open Scope string_scope.
Open Scope list_scope.
Open Scope Z_scope.

Lemma fold_add l : forall a, fold_left Z.add l a = a + fold_right Z.add 0 l.
Proof. induction l as [|x l IH]; intros a; cbn; [lia|]. rewrite IH. lia. Qed.
Lemma blank_spec e : cs_IsZero e = true <-> blank e.
Proof.
  unfold cs_IsZero, blank. rewrite fold_add, !andb_true_iff, !Z.eqb_eq, String.eqb_eq. intuition lia.
Qed.
Lemma blank_dec e : blank e \/ ~ blank e.
Proof. destruct (cs_IsZero e) eqn:E; [left; apply blank_spec; exact E|right; intros H; apply blank_spec in H; congruence]. Qed.
Lemma not_blank e : ~ blank e -> cs_IsZero e = false.
Proof. intros H. destruct (cs_IsZero e) eqn:E; [|reflexivity]. destruct H. apply blank_spec. exact E. Qed.

(** *** Adding *)
Lemma add_buckets_ok a : forall b, length a = length b -> exists c, add_buckets a b = Ok c /\ length c = length a /\ forall i, nth i c 0 = nth i a 0 + nth i b 0.
Proof.
  induction a as [|x a IH]; intros [|y b] H; try discriminate; cbn.
  - exists []. repeat split. intros [|i]; reflexivity.
  - destruct (IH b ltac:(cbn in H; lia)) as (c & -> & Hl & Hn). cbn. exists (x + y :: c). split; [reflexivity|]. split; [cbn; lia|].
    intros [|i]; [reflexivity|apply Hn].
Qed.
Lemma cs_Merge_blank cs e : blank e -> cs_Merge cs e = Ok cs.
Proof. intros H. unfold cs_Merge. apply blank_spec in H. rewrite H. reflexivity. Qed.
Lemma cs_Merge_into_blank cs e : blank cs -> ~ blank e -> cs_Merge cs e = Ok e.
Proof. intros H He. unfold cs_Merge. rewrite (not_blank _ He). apply blank_spec in H. rewrite H. reflexivity. Qed.
Lemma cs_Merge_lengths cs e : ~ blank cs -> ~ blank e -> length (BucketCounts cs) <> length (BucketCounts e) -> cs_Merge cs e = Panic.
Proof.
  intros H He Hl. unfold cs_Merge. rewrite (not_blank _ He), (not_blank _ H). unfold zlen.
  destruct (Z.eqb_spec (Z.of_nat (length (BucketCounts cs))) (Z.of_nat (length (BucketCounts e)))); [lia|reflexivity].
Qed.
Lemma cs_Merge_adds cs e : ~ blank cs -> ~ blank e -> length (BucketCounts cs) = length (BucketCounts e) ->
  exists r, cs_Merge cs e = Ok r /\ cs_Category r = cs_Category cs /\ ActiveCount r = ActiveCount cs + ActiveCount e /\
    ErroredCount r = ErroredCount cs + ErroredCount e /\ length (BucketCounts r) = length (BucketCounts cs) /\
    forall i, nth i (BucketCounts r) 0 = nth i (BucketCounts cs) 0 + nth i (BucketCounts e) 0.
Proof.
  intros H He Hl. unfold cs_Merge. rewrite (not_blank _ He), (not_blank _ H). unfold zlen. rewrite Hl, Z.eqb_refl. cbn [negb].
  destruct (add_buckets_ok _ _ Hl) as (c & E & Hc & Hn). rewrite E. cbn [bind]. eexists. split; [reflexivity|]. cbn. split; [reflexivity|]. split; [reflexivity|]. split; [reflexivity|]. split; [congruence|exact Hn].
Qed.

(** *** One category *)
Definition step (st : option CategoryStats) (e : option CategoryStats) : res (option CategoryStats) :=
  match st with
  | None => match e with None => Panic | Some e => Ok (Some e) end
  | Some cs => f_cs_Merge (Some cs) e
  end.
Fixpoint steps (st : option CategoryStats) (es : list (option CategoryStats)) : res (option CategoryStats) :=
  match es with [] => Ok st | e :: es => st <- step st e ;; steps st es end.
Lemma step_some cs e : step (Some cs) (Some e) = (r <- cs_Merge cs e ;; Ok (Some r)).
Proof.
  cbn. unfold f_cs_Merge. cbn [f_cs_IsZero]. destruct (cs_IsZero e) eqn:E; [|reflexivity]. unfold cs_Merge. rewrite E. reflexivity.
Qed.
Definition nonblank (es : list CategoryStats) : list CategoryStats := filter (fun e => negb (cs_IsZero e)) es.
Lemma in_nonblank e es : In e (nonblank es) <-> In e es /\ ~ blank e.
Proof. unfold nonblank. rewrite filter_In, negb_true_iff. split; intros [H1 H2]; split; auto; [intros H; apply blank_spec in H; congruence|apply not_blank; exact H2]. Qed.
Lemma nonblank_cons_blank e es : blank e -> nonblank (e :: es) = nonblank es.
Proof. intros H. apply blank_spec in H. cbn. rewrite H. reflexivity. Qed.
Lemma nonblank_cons e es : ~ blank e -> nonblank (e :: es) = e :: nonblank es.
Proof. intros H. apply not_blank in H. cbn. rewrite H. reflexivity. Qed.

Definition disagree (es : list CategoryStats) : Prop :=
  exists e e', In e (nonblank es) /\ In e' (nonblank es) /\ length (BucketCounts e) <> length (BucketCounts e').
Definition good_entry (e : CategoryStats) : Prop := blank e \/ cs_Category e <> "".
Lemma steps_some es : forall cs, good_entry cs -> (forall e, In (Some e) es -> good_entry e) ->
  match steps (Some cs) es with
  | Panic => disagree (cs :: somes es)
  | Ok st =>
      ~ disagree (cs :: somes es) /\
      exists r, st = Some r /\ good_entry r /\
        ActiveCount r = total (map ActiveCount (cs :: somes es)) /\ ErroredCount r = total (map ErroredCount (cs :: somes es)) /\
        (nonblank (cs :: somes es) <> [] -> forall i, nth i (BucketCounts r) 0 = total (map (fun e => nth i (BucketCounts e) 0) (nonblank (cs :: somes es))))
  end.
Proof.
  induction es as [|o es IH]; intros cs Hcs Hes; cbn [steps].
  - split.
    { intros (e & e' & H1 & H2 & H3). apply in_nonblank in H1 as [[<-|[]] _]. apply in_nonblank in H2 as [[<-|[]] _]. congruence. }
    exists cs. split; [reflexivity|]. split; [exact Hcs|]. cbn. repeat split; try lia. cbn. destruct (cs_IsZero cs); cbn; [congruence|]. intros _ i. lia.
  - assert (Hes' : forall e, In (Some e) es -> good_entry e) by (intros e He; apply Hes; right; exact He).
    destruct o as [e|].
    2:{ assert (E : step (Some cs) None = Ok (Some cs)) by reflexivity. rewrite E. cbn [bind]. apply (IH cs Hcs Hes'). }
    rewrite step_some. assert (He : good_entry e) by (apply Hes; left; reflexivity).
    assert (Ep : somes (Some e :: es) = e :: somes es) by reflexivity. rewrite Ep. clear Ep.
    destruct (blank_dec e) as [Be|Be].
    + rewrite (cs_Merge_blank _ _ Be). cbn [bind]. specialize (IH cs Hcs Hes').
      assert (En : nonblank (cs :: e :: somes es) = nonblank (cs :: somes es)).
      { cbn. apply blank_spec in Be. rewrite Be. reflexivity. }
      destruct Be as (_ & B1 & _ & B2 & _). unfold disagree in *. rewrite En.
      destruct (steps (Some cs) es) as [st|]; [|exact IH]. destruct IH as (I1 & r & I2 & I3 & I4 & I5 & I6). split; [exact I1|]. exists r.
      split; [exact I2|]. split; [exact I3|]. cbn [map total fold_right] in *. rewrite B1, B2, I4, I5. auto.
    + destruct (blank_dec cs) as [Bc|Bc].
      * rewrite (cs_Merge_into_blank _ _ Bc Be). cbn [bind]. specialize (IH e He Hes'). unfold disagree in *. rewrite (nonblank_cons_blank cs _ Bc).
        destruct (steps (Some e) es) as [st|]; [|exact IH]. destruct IH as (I1 & r & I2 & I3 & I4 & I5 & I6). split; [exact I1|]. exists r.
        split; [exact I2|]. split; [exact I3|]. destruct Bc as (_ & B1 & _ & B2 & _). cbn [map total fold_right] in *. rewrite B1, B2, I4, I5. auto.
      * destruct (Nat.eq_dec (length (BucketCounts cs)) (length (BucketCounts e))) as [El|El].
        2:{ rewrite (cs_Merge_lengths _ _ Bc Be El). cbn. exists cs, e. rewrite (nonblank_cons cs _ Bc), (nonblank_cons e _ Be).
            split; [left; reflexivity|]. split; [right; left; reflexivity|exact El]. }
        destruct (cs_Merge_adds _ _ Bc Be El) as (r1 & -> & R1 & R2 & R3 & R4 & R5). cbn [bind].
        assert (Nc : cs_Category cs <> "") by (destruct Hcs as [Hb|H]; [destruct (Bc Hb)|exact H]).
        assert (Nr : ~ blank r1) by (intros (Hn & _); congruence).
        specialize (IH r1 (or_intror (eq_ind_r (fun x => x <> "") Nc R1)) Hes').
        assert (HD : disagree (r1 :: somes es) <-> disagree (cs :: e :: somes es)).
        { unfold disagree. rewrite (nonblank_cons r1 _ Nr), (nonblank_cons cs _ Bc), (nonblank_cons e _ Be). split; intros (x & y & Hx & Hy & Hl).
          - destruct Hx as [<-|Hx], Hy as [<-|Hy].
            + congruence.
            + exists cs, y. split; [left; reflexivity|]. split; [right; right; exact Hy|congruence].
            + exists x, cs. split; [right; right; exact Hx|]. split; [left; reflexivity|congruence].
            + exists x, y. split; [right; right; exact Hx|]. split; [right; right; exact Hy|exact Hl].
          - assert (HH : forall z, In z (cs :: e :: nonblank (somes es)) -> exists z', In z' (r1 :: nonblank (somes es)) /\ length (BucketCounts z') = length (BucketCounts z)).
            { intros z [<-|[<-|Hz]]; [exists r1|exists r1|exists z]; split; try (left; reflexivity); try (right; exact Hz); try reflexivity; congruence. }
            destruct (HH x Hx) as (x' & Hx' & E1), (HH y Hy) as (y' & Hy' & E2). exists x', y'. split; [exact Hx'|]. split; [exact Hy'|congruence]. }
        destruct (steps (Some r1) es) as [st|]; [|apply HD; exact IH].
        destruct IH as (I1 & r & I2 & I3 & I4 & I5 & I6). split; [rewrite <- HD; exact I1|]. exists r. split; [exact I2|]. split; [exact I3|].
        cbn [map total fold_right] in *. rewrite I4, I5, R2, R3. split; [lia|]. split; [lia|]. intros _ i.
        rewrite (nonblank_cons r1 _ Nr) in I6. rewrite (nonblank_cons cs _ Bc), (nonblank_cons e _ Be). rewrite (I6 ltac:(discriminate) i).
        cbn [map fold_right total]. rewrite R5. lia.
Qed.

(** *** Maps of categories *)
Definition ours (c : string) (m : list (string * option CategoryStats)) : option CategoryStats :=
  match map_get c m with Some (Some cs) => Some cs | _ => None end.
Definition no_nil (m : list (string * option CategoryStats)) : Prop := forall c, map_get c m <> Some None.
Definition step' (st : option CategoryStats) (e : option (option CategoryStats)) : res (option CategoryStats) :=
  match e with None => Ok st | Some e => step st e end.
Lemma ours_set c c' cs m : ours c (map_set c' (Some cs) m) = if String.eqb c c' then Some cs else ours c m.
Proof. unfold ours. rewrite map_get_set. destruct (String.eqb c c'); reflexivity. Qed.
Lemma no_nil_set c cs m : no_nil m -> no_nil (map_set c (Some cs) m).
Proof. intros H c'. rewrite map_get_set. destruct (String.eqb c' c); [discriminate|apply H]. Qed.
Lemma merge_categories_steps other : forall names m, NoDup names -> (forall c, In c names -> map_get c other <> None) -> no_nil m ->
  match f_merge_categories names other m with
  | Panic => exists c, In c names /\ step' (ours c m) (map_get c other) = Panic
  | Ok m' => no_nil m' /\ forall c, if in_dec string_dec c names then step' (ours c m) (map_get c other) = Ok (ours c m') else ours c m' = ours c m
  end.
Proof.
  induction names as [|c names IH]; intros m Hnd Hin Hm; cbn [f_merge_categories].
  - split; [exact Hm|]. intros c. destruct (in_dec string_dec c []) as [[]|]; reflexivity.
  - apply NoDup_cons_iff in Hnd as [Hni Hnd]. pose proof (Hin c (or_introl eq_refl)) as Hc.
    assert (Hin' : forall c, In c names -> map_get c other <> None) by (intros c' H'; apply Hin; right; exact H').
    destruct (map_get c other) as [e|] eqn:Ee; [|congruence].
    assert (K : forall cs, step' (ours c m) (Some e) = Ok (Some cs) ->
              match f_merge_categories names other (map_set c (Some cs) m) with
              | Panic => exists c', In c' (c :: names) /\ step' (ours c' m) (map_get c' other) = Panic
              | Ok m' => no_nil m' /\ forall c', if in_dec string_dec c' (c :: names) then step' (ours c' m) (map_get c' other) = Ok (ours c' m') else ours c' m' = ours c' m
              end).
    { intros cs Hs. specialize (IH (map_set c (Some cs) m) Hnd Hin' (no_nil_set _ _ _ Hm)).
      destruct (f_merge_categories names other (map_set c (Some cs) m)) as [m'|].
      - destruct IH as [I1 I2]. split; [exact I1|]. intros c'. specialize (I2 c'). rewrite ours_set in I2.
        destruct (in_dec string_dec c' (c :: names)) as [H|H]; destruct (in_dec string_dec c' names) as [H'|H'].
        + destruct (String.eqb_spec c' c) as [->|]; [contradiction|exact I2].
        + destruct H as [<-|H]; [|contradiction]. rewrite String.eqb_refl in I2. rewrite I2, Ee. exact Hs.
        + destruct H. right. exact H'.
        + destruct (String.eqb_spec c' c) as [->|]; [destruct H; left; reflexivity|exact I2].
      - destruct IH as (c' & H1 & H2). exists c'. split; [right; exact H1|]. rewrite ours_set in H2. destruct (String.eqb_spec c' c) as [->|]; [contradiction|exact H2]. }
    pose proof (Hm c) as Hmc. destruct (map_get c m) as [[cs|]|] eqn:Em; [| congruence |].
    + unfold ours at 1 in K. rewrite Em in K. cbn [step' step] in K. destruct (f_cs_Merge (Some cs) e) as [[r|]|] eqn:Er; cbn [bind].
      * exact (K r eq_refl).
      * exfalso. unfold f_cs_Merge in Er. destruct (f_cs_IsZero e); [discriminate|]. destruct e; [|discriminate]. destruct (cs_Merge cs c0); discriminate.
      * exists c. split; [left; reflexivity|]. unfold ours. rewrite Em, Ee. cbn. exact Er.
    + unfold ours at 1 in K. rewrite Em in K. destruct e as [e|]; cbn [step' step] in K.
      * exact (K e eq_refl).
      * exists c. split; [left; reflexivity|]. unfold ours. rewrite Em, Ee. reflexivity.
Qed.

(** *** Statistics *)
Lemma ss_merge_steps order ss o : is_order order -> NoDup (map fst (f_Categories o)) -> f_Bucketing o <> [] -> f_Bucketing ss <> [] -> no_nil (f_Categories ss) ->
  match f_ss_Merge order ss (Some o) with
  | Panic => length (f_Bucketing o) <> length (f_Bucketing ss) \/ exists c, step' (ours c (f_Categories ss)) (map_get c (f_Categories o)) = Panic
  | Ok ss' => length (f_Bucketing o) = length (f_Bucketing ss) /\ f_Bucketing ss' = f_Bucketing ss /\ no_nil (f_Categories ss') /\
              forall c, step' (ours c (f_Categories ss)) (map_get c (f_Categories o)) = Ok (ours c (f_Categories ss'))
  end.
Proof.
  intros Ho Hnd Hb Hs Hn. unfold f_ss_Merge, f_ss_IsZero. unfold zlen.
  destruct (f_Bucketing o) as [|b0 bs] eqn:Eb; [congruence|]. destruct (f_Bucketing ss) as [|s0 ss0] eqn:Es; [congruence|].
  replace (Z.of_nat (length (b0 :: bs)) <=? 0) with false by (cbn [length]; lia). replace (Z.of_nat (length (s0 :: ss0)) <=? 0) with false by (cbn [length]; lia).
  destruct (Z.eqb_spec (Z.of_nat (length (s0 :: ss0))) (Z.of_nat (length (b0 :: bs)))) as [El|El]; cbn [negb]; [|left; lia].
  pose proof (Ho (map_keys (f_Categories o))) as Hp.
  pose proof (merge_categories_steps (f_Categories o) (order (map_keys (f_Categories o))) (f_Categories ss)) as M.
  specialize (M ltac:(eapply Permutation_NoDup; [symmetry; exact Hp|exact Hnd])).
  specialize (M ltac:(intros c Hc; apply map_get_in; eapply Permutation_in; [exact Hp|exact Hc]) Hn).
  destruct (f_merge_categories _ _ _) as [m'|]; cbn [bind].
  - destruct M as [M1 M2]. cbn [f_Bucketing f_Categories]. split; [apply Nat2Z.inj; symmetry; exact El|]. split; [reflexivity|]. split; [exact M1|]. intros c. specialize (M2 c).
    destruct (in_dec string_dec c (order (map_keys (f_Categories o)))) as [H|H]; [exact M2|].
    assert (E : map_get c (f_Categories o) = None).
    { destruct (map_get c (f_Categories o)) eqn:E; [|reflexivity]. destruct H. eapply Permutation_in; [symmetry; exact Hp|]. apply map_get_in. congruence. }
    rewrite E. cbn. rewrite M2. reflexivity.
  - right. destruct M as (c & _ & Hc). exists c. exact Hc.
Qed.

Lemma total_cons x l : total (x :: l) = x + total l.
Proof. reflexivity. Qed.
Lemma with_stats_app a b : with_stats (a ++ b) = with_stats a ++ with_stats b.
Proof. apply flat_map_app. Qed.
Lemma entries_app c a b : entries c (a ++ b) = entries c a ++ entries c b.
Proof. unfold entries. rewrite with_stats_app. apply flat_map_app. Qed.

Lemma gather_steps orders b : b <> [] -> (forall n, is_order (orders n)) -> forall ts n agg ss, maps (answered ts) -> f_Bucketing ss = b -> no_nil (f_Categories ss) ->
  match f_gather orders n agg ss ts with
  | Panic => (exists o, In o (with_stats (answered ts)) /\ length (f_Bucketing o) <> length b) \/
             (exists c, steps (ours c (f_Categories ss)) (entries c (answered ts)) = Panic)
  | Ok (agg', ss') =>
      (forall o, In o (with_stats (answered ts)) -> length (f_Bucketing o) = length b) /\ f_Bucketing ss' = b /\ no_nil (f_Categories ss') /\
      (forall c, steps (ours c (f_Categories ss)) (entries c (answered ts)) = Ok (ours c (f_Categories ss'))) /\
      fr_Sources agg' = fr_Sources agg ++ flat_map fr_Sources (answered ts) /\
      fr_TotalCount agg' = fr_TotalCount agg + total (map fr_TotalCount (answered ts)) /\
      fr_MatchCount agg' = fr_MatchCount agg + total (map fr_MatchCount (answered ts)) /\
      fr_Traces agg' = fr_Traces agg ++ flat_map fr_Traces (answered ts) /\
      fr_Problems agg' = fr_Problems agg ++ flat_map goes_wrong ts
  end.
Proof.
  intros Hb Ho. induction ts as [|t ts IH]; intros n agg ss Hm Es Hn; cbn [f_gather].
  - cbn. rewrite !app_nil_r. split; [intros o []|]. repeat split; auto; lia.
  - unfold f_gather1. unfold answered in *. cbn [flat_map] in *. fold (answered ts) in *. destruct (ft_res t) as [r|] eqn:Er.
    + assert (Hm' : maps (answered ts)).
      { intros o H. apply Hm. unfold with_stats in *. cbn [app flat_map]. apply in_or_app. right. exact H. }
      cbn [app] in *.
      assert (Hcase : (with_stats (r :: answered ts) = with_stats (answered ts) /\ (forall c, entries c (r :: answered ts) = entries c (answered ts)) /\ f_ss_Merge (orders n) ss (fr_Stats r) = Ok ss) \/
                      (exists o, fr_Stats r = Some o /\ f_Bucketing o <> [] /\ with_stats (r :: answered ts) = o :: with_stats (answered ts) /\
                         forall c, entries c (r :: answered ts) = match map_get c (f_Categories o) with Some e => [e] | None => [] end ++ entries c (answered ts))).
      { unfold entries, with_stats. cbn [flat_map]. destruct (fr_Stats r) as [o|]; [|left; repeat split].
        destruct (f_Bucketing o) as [|b0 bs] eqn:Eo.
        - left. repeat split. unfold f_ss_Merge, f_ss_IsZero. rewrite Eo. reflexivity.
        - right. exists o. split; [reflexivity|]. split; [congruence|]. split; reflexivity. }
      destruct Hcase as [(C1 & C2 & C3)|(o & C1 & C2 & C3 & C4)].
      * rewrite C3. cbn [bind]. match goal with |- context [f_gather orders (S n) ?a ss ts] => specialize (IH (S n) a ss Hm' Es Hn) end.
        rewrite C1. destruct (f_gather orders (S n) _ ss ts) as [[agg' ss']|].
        -- destruct IH as (I1 & I2 & I3 & I4 & I5 & I6 & I7 & I8 & I9). cbn in I5, I6, I7, I8, I9. split; [exact I1|]. split; [exact I2|]. split; [exact I3|].
           split; [intros c; rewrite C2; apply I4|]. cbn [map flat_map]. rewrite !total_cons, I5, I6, I7, I8, I9, <- !app_assoc. unfold goes_wrong at 2. rewrite Er.
           repeat split; try lia. destruct (ft_err t); rewrite <- ?app_assoc; reflexivity.
        -- destruct IH as [I|(c & I)]; [left; exact I|right; exists c; rewrite C2; exact I].
      * rewrite C1. assert (Hno : NoDup (map fst (f_Categories o))) by (apply Hm; rewrite C3; left; reflexivity).
        pose proof (ss_merge_steps (orders n) ss o (Ho n) Hno C2 ltac:(congruence) Hn) as M. rewrite Es in M.
        destruct (f_ss_Merge (orders n) ss (Some o)) as [ss1|]; cbn [bind].
        -- destruct M as (M1 & M2 & M3 & M4). match goal with |- context [f_gather orders (S n) ?a ss1 ts] => specialize (IH (S n) a ss1 Hm' M2 M3) end.
           rewrite C3. assert (St : forall c, steps (ours c (f_Categories ss)) (entries c (r :: answered ts)) = steps (ours c (f_Categories ss1)) (entries c (answered ts))).
           { intros c. rewrite C4. specialize (M4 c). destruct (map_get c (f_Categories o)) as [e|]; cbn [app steps step'] in *.
             - rewrite M4. reflexivity.
             - injection M4 as ->. reflexivity. }
           destruct (f_gather orders (S n) _ ss1 ts) as [[agg' ss']|].
           ++ destruct IH as (I1 & I2 & I3 & I4 & I5 & I6 & I7 & I8 & I9). cbn in I5, I6, I7, I8, I9. split.
              { intros o' [<-|H]; [congruence|exact (I1 o' H)]. }
              split; [exact I2|]. split; [exact I3|]. split; [intros c; rewrite St; apply I4|].
              cbn [map flat_map]. rewrite !total_cons, I5, I6, I7, I8, I9, <- !app_assoc. unfold goes_wrong at 2. rewrite Er.
              repeat split; try lia. destruct (ft_err t); rewrite <- ?app_assoc; reflexivity.
           ++ destruct IH as [(o' & H1 & H2)|(c & I)]; [left; exists o'; split; [right; exact H1|exact H2]|right; exists c; rewrite St; exact I].
        -- rewrite C3. destruct M as [M|(c & M)]; [left; exists o; split; [left; reflexivity|exact M]|right; exists c; rewrite C4].
           destruct (map_get c (f_Categories o)) as [e|]; cbn [app steps step'] in *; [rewrite M; reflexivity|discriminate].
    + cbn [app]. destruct (ft_err t) as [err|] eqn:Ee; cbn [bind];
        (match goal with |- context [f_gather orders (S n) ?a ss ts] => specialize (IH (S n) a ss Hm Es Hn) end;
         destruct (f_gather orders (S n) _ ss ts) as [[agg' ss']|]; [|exact IH];
         destruct IH as (I1 & I2 & I3 & I4 & I5 & I6 & I7 & I8 & I9); cbn in I5, I6, I7, I8, I9;
         cbn [flat_map]; unfold goes_wrong at 1; rewrite Er, Ee, <- !app_assoc in *; auto 12).
Qed.

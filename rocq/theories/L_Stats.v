From Verif Require Import Go L_List M_Strings M_Types M_Stats S_Stats S_StatsView.
From Coq Require Import ZifyBool.
Open Scope string_scope.
Open Scope Z_scope.

(** counting *)
Lemma count_app {A} (p : A -> bool) l l' : count p (l ++ l') = count p l + count p l'.
Proof. unfold count, zlen. rewrite filter_app, app_length. lia. Qed.
Lemma count_nil {A} (p : A -> bool) : count p [] = 0. Proof. reflexivity. Qed.
Lemma count_cons {A} (p : A -> bool) x l : count p (x :: l) = (if p x then 1 else 0) + count p l.
Proof. unfold count, zlen. cbn [filter]. destruct (p x); cbn [length]; lia. Qed.
Lemma count_nonneg {A} (p : A -> bool) l : 0 <= count p l.
Proof. unfold count, zlen. lia. Qed.
Lemma count_perm {A} (p : A -> bool) l l' : Permutation l l' -> count p l = count p l'.
Proof. induction 1; rewrite ?count_cons in *; lia. Qed.
Lemma sum_app l l' : sum (l ++ l') = sum l + sum l'.
Proof. unfold sum. induction l as [|x l IH]; cbn [app fold_right]; [reflexivity|]. rewrite IH. lia. Qed.
Lemma sum_perm l l' : Permutation l l' -> sum l = sum l'.
Proof. unfold sum. induction 1; cbn [fold_right]; lia. Qed.

Lemma olderOf_0_r a : olderOf a 0 = a.
Proof. unfold olderOf. destruct (Z.eqb_spec a 0); cbn; lia. Qed.
Lemma olderOf_0_l a : olderOf 0 a = a.
Proof. unfold olderOf. destruct (Z.eqb_spec a 0); cbn; lia. Qed.
Lemma newerOf_0_r a : newerOf a 0 = a.
Proof. unfold newerOf. destruct (Z.eqb_spec a 0); cbn; lia. Qed.
Lemma newerOf_0_l a : newerOf 0 a = a.
Proof. unfold newerOf. destruct (Z.eqb_spec a 0); cbn; lia. Qed.
Lemma olderOf_min a b : a <> 0 -> b <> 0 -> olderOf a b = Z.min a b.
Proof. intros. unfold olderOf. destruct (Z.eqb_spec a 0), (Z.eqb_spec b 0); cbn; try lia. destruct (Z.ltb_spec a b); lia. Qed.
Lemma newerOf_max a b : a <> 0 -> b <> 0 -> newerOf a b = Z.max a b.
Proof. intros. unfold newerOf. destruct (Z.eqb_spec a 0), (Z.eqb_spec b 0); cbn; try lia. destruct (Z.ltb_spec b a); lia. Qed.
Lemma olderOf_comm a b : olderOf a b = olderOf b a.
Proof.
  destruct (Z.eq_dec a 0) as [->|]; [rewrite olderOf_0_l, olderOf_0_r; reflexivity|].
  destruct (Z.eq_dec b 0) as [->|]; [rewrite olderOf_0_l, olderOf_0_r; reflexivity|].
  rewrite !olderOf_min by assumption. lia.
Qed.
Lemma newerOf_comm a b : newerOf a b = newerOf b a.
Proof.
  destruct (Z.eq_dec a 0) as [->|]; [rewrite newerOf_0_l, newerOf_0_r; reflexivity|].
  destruct (Z.eq_dec b 0) as [->|]; [rewrite newerOf_0_l, newerOf_0_r; reflexivity|].
  rewrite !newerOf_max by assumption. lia.
Qed.
Lemma olderOf_nz a b : a <> 0 -> b <> 0 -> olderOf a b <> 0.
Proof. intros. rewrite olderOf_min by assumption. lia. Qed.
Lemma olderOf_assoc a b c : olderOf (olderOf a b) c = olderOf a (olderOf b c).
Proof.
  destruct (Z.eq_dec a 0) as [->|Ha]; [rewrite !olderOf_0_l; reflexivity|].
  destruct (Z.eq_dec b 0) as [->|Hb]; [rewrite olderOf_0_l, olderOf_0_r; reflexivity|].
  destruct (Z.eq_dec c 0) as [->|Hc]; [rewrite !olderOf_0_r; reflexivity|].
  rewrite !olderOf_min; auto; try (rewrite olderOf_min by assumption); lia.
Qed.
Lemma newerOf_assoc a b c : newerOf (newerOf a b) c = newerOf a (newerOf b c).
Proof.
  destruct (Z.eq_dec a 0) as [->|Ha]; [rewrite !newerOf_0_l; reflexivity|].
  destruct (Z.eq_dec b 0) as [->|Hb]; [rewrite newerOf_0_l, newerOf_0_r; reflexivity|].
  destruct (Z.eq_dec c 0) as [->|Hc]; [rewrite !newerOf_0_r; reflexivity|].
  rewrite !newerOf_max; auto; try (rewrite newerOf_max by assumption); lia.
Qed.

Lemma fold_olderOf_min ts t : t <> 0 -> Forall (fun x => x <> 0) ts -> fold_left olderOf ts t = fold_left Z.min ts t.
Proof.
  revert t; induction ts as [|x ts IH]; intros t Ht H; [reflexivity|]. inversion H; subst. cbn [fold_left].
  rewrite olderOf_min by assumption. apply IH; [lia|assumption].
Qed.
Lemma fold_newerOf_max ts t : t <> 0 -> Forall (fun x => x <> 0) ts -> fold_left newerOf ts t = fold_left Z.max ts t.
Proof.
  revert t; induction ts as [|x ts IH]; intros t Ht H; [reflexivity|]. inversion H; subst. cbn [fold_left].
  rewrite newerOf_max by assumption. apply IH; [lia|assumption].
Qed.
Definition isset (t : Z) : bool := negb (t =? 0).
Lemma isset_Forall l : Forall (fun x => x <> 0) (filter isset l).
Proof. apply Forall_forall. intros x Hx. apply filter_In in Hx as [_ Hx]. unfold isset in Hx. lia. Qed.
Lemma fold_olderOf_filter l : forall t, fold_left olderOf l t = fold_left olderOf (filter isset l) t.
Proof.
  induction l as [|x l IH]; intros t; [reflexivity|]. cbn [fold_left filter]. unfold isset at 1.
  destruct (Z.eqb_spec x 0) as [->|]; cbn [negb]; [rewrite olderOf_0_r; apply IH|]. cbn [fold_left]. apply IH.
Qed.
Lemma fold_newerOf_filter l : forall t, fold_left newerOf l t = fold_left newerOf (filter isset l) t.
Proof.
  induction l as [|x l IH]; intros t; [reflexivity|]. cbn [fold_left filter]. unfold isset at 1.
  destruct (Z.eqb_spec x 0) as [->|]; cbn [negb]; [rewrite newerOf_0_r; apply IH|]. cbn [fold_left]. apply IH.
Qed.
Lemma earliest_fold l : earliest l = fold_left olderOf l 0.
Proof.
  rewrite fold_olderOf_filter. unfold earliest. fold isset. pose proof (isset_Forall l) as H.
  change (fun t : Z => negb (t =? 0)) with isset.
  destruct (filter isset l) as [|t ts]; [reflexivity|]. inversion H; subst. cbn [fold_left]. rewrite olderOf_0_l.
  symmetry. apply fold_olderOf_min; assumption.
Qed.
Lemma latest_fold l : latest l = fold_left newerOf l 0.
Proof.
  rewrite fold_newerOf_filter. unfold latest. pose proof (isset_Forall l) as H.
  change (fun t : Z => negb (t =? 0)) with isset.
  destruct (filter isset l) as [|t ts]; [reflexivity|]. inversion H; subst. cbn [fold_left]. rewrite newerOf_0_l.
  symmetry. apply fold_newerOf_max; assumption.
Qed.
Lemma fold_olderOf_init l : forall a, fold_left olderOf l a = olderOf a (fold_left olderOf l 0).
Proof.
  induction l as [|x l IH]; intros a; cbn [fold_left]; [rewrite olderOf_0_r; reflexivity|].
  rewrite (IH (olderOf a x)), (IH (olderOf 0 x)), olderOf_0_l, olderOf_assoc. reflexivity.
Qed.
Lemma fold_newerOf_init l : forall a, fold_left newerOf l a = newerOf a (fold_left newerOf l 0).
Proof.
  induction l as [|x l IH]; intros a; cbn [fold_left]; [rewrite newerOf_0_r; reflexivity|].
  rewrite (IH (newerOf a x)), (IH (newerOf 0 x)), newerOf_0_l, newerOf_assoc. reflexivity.
Qed.
Lemma earliest_app l l' : earliest (l ++ l') = olderOf (earliest l) (earliest l').
Proof. rewrite !earliest_fold, fold_left_app. apply fold_olderOf_init. Qed.
Lemma latest_app l l' : latest (l ++ l') = newerOf (latest l) (latest l').
Proof. rewrite !latest_fold, fold_left_app. apply fold_newerOf_init. Qed.
Lemma earliest_one x : earliest [x] = x.
Proof. rewrite earliest_fold. cbn. apply olderOf_0_l. Qed.
Lemma latest_one x : latest [x] = x.
Proof. rewrite latest_fold. cbn. apply newerOf_0_l. Qed.
Lemma earliest_perm l l' : Permutation l l' -> earliest l = earliest l'.
Proof.
  induction 1 as [|x l l' _ IH|x y l|l1 l2 l3 _ IH1 _ IH2]; [reflexivity| | |congruence].
  - change (x :: l) with ([x] ++ l)%list. change (x :: l') with ([x] ++ l')%list. rewrite !earliest_app, IH. reflexivity.
  - change (y :: x :: l) with ([y] ++ [x] ++ l)%list. change (x :: y :: l) with ([x] ++ [y] ++ l)%list.
    rewrite !earliest_app, <- !olderOf_assoc, (olderOf_comm (earliest [y])). reflexivity.
Qed.
Lemma latest_perm l l' : Permutation l l' -> latest l = latest l'.
Proof.
  induction 1 as [|x l l' _ IH|x y l|l1 l2 l3 _ IH1 _ IH2]; [reflexivity| | |congruence].
  - change (x :: l) with ([x] ++ l)%list. change (x :: l') with ([x] ++ l')%list. rewrite !latest_app, IH. reflexivity.
  - change (y :: x :: l) with ([y] ++ [x] ++ l)%list. change (x :: y :: l) with ([x] ++ [y] ++ l)%list.
    rewrite !latest_app, <- !newerOf_assoc, (newerOf_comm (latest [y])). reflexivity.
Qed.

(** earliest is what its name says *)
Lemma fold_min_le l : forall a, fold_left Z.min l a <= a /\ (forall x, In x l -> fold_left Z.min l a <= x) /\
  (fold_left Z.min l a = a \/ In (fold_left Z.min l a) l).
Proof.
  induction l as [|y l IH]; intros a; cbn [fold_left]; [repeat split; auto; [lia|intros ? []]|].
  destruct (IH (Z.min a y)) as (H1 & H2 & H3). split; [lia|]. split.
  - intros x [<-|Hx]; [lia|]. apply H2. exact Hx.
  - destruct H3 as [H3|H3]; [|right; right; exact H3]. destruct (Z.min_spec a y) as [[_ E]|[_ E]]; rewrite E in *.
    + left. exact H3.
    + right. left. congruence.
Qed.

Lemma fold_max_ge l : forall a, a <= fold_left Z.max l a /\ (forall x, In x l -> x <= fold_left Z.max l a) /\
  (fold_left Z.max l a = a \/ In (fold_left Z.max l a) l).
Proof.
  induction l as [|y l IH]; intros a; cbn [fold_left]; [repeat split; auto; [lia|intros ? []]|].
  destruct (IH (Z.max a y)) as (H1 & H2 & H3). split; [lia|]. split.
  - intros x [<-|Hx]; [lia|]. apply H2. exact Hx.
  - destruct H3 as [H3|H3]; [|right; right; exact H3]. destruct (Z.max_spec a y) as [[_ E]|[_ E]]; rewrite E in *.
    + right. left. congruence.
    + left. exact H3.
Qed.
Lemma earliest_le l x : In x l -> x <> 0 -> earliest l <= x.
Proof.
  intros Hx Hz. unfold earliest. change (fun t : Z => negb (t =? 0)) with isset.
  assert (H : In x (filter isset l)) by (apply filter_In; split; [exact Hx|unfold isset; lia]).
  destruct (filter isset l) as [|t ts]; [destruct H|]. destruct (fold_min_le ts t) as (H1 & H2 & _).
  destruct H as [->|H]; [exact H1|exact (H2 x H)].
Qed.
Lemma latest_ge l x : In x l -> x <> 0 -> x <= latest l.
Proof.
  intros Hx Hz. unfold latest. change (fun t : Z => negb (t =? 0)) with isset.
  assert (H : In x (filter isset l)) by (apply filter_In; split; [exact Hx|unfold isset; lia]).
  destruct (filter isset l) as [|t ts]; [destruct H|]. destruct (fold_max_ge ts t) as (H1 & H2 & _).
  destruct H as [->|H]; [exact H1|exact (H2 x H)].
Qed.
Lemma earliest_in l x : In x l -> x <> 0 -> In (earliest l) l /\ earliest l <> 0.
Proof.
  intros Hx Hz. unfold earliest. change (fun t : Z => negb (t =? 0)) with isset.
  assert (H : In x (filter isset l)) by (apply filter_In; split; [exact Hx|unfold isset; lia]).
  assert (Hin : forall y, In y (filter isset l) -> In y l /\ y <> 0).
  { intros y Hy. apply filter_In in Hy as [Hy1 Hy2]. unfold isset in Hy2. split; [exact Hy1|lia]. }
  destruct (filter isset l) as [|t ts]; [destruct H|]. apply Hin.
  destruct (fold_min_le ts t) as (_ & _ & [E|E]); [left; congruence|right; exact E].
Qed.
Lemma latest_in l x : In x l -> x <> 0 -> In (latest l) l /\ latest l <> 0.
Proof.
  intros Hx Hz. unfold latest. change (fun t : Z => negb (t =? 0)) with isset.
  assert (H : In x (filter isset l)) by (apply filter_In; split; [exact Hx|unfold isset; lia]).
  assert (Hin : forall y, In y (filter isset l) -> In y l /\ y <> 0).
  { intros y Hy. apply filter_In in Hy as [Hy1 Hy2]. unfold isset in Hy2. split; [exact Hy1|lia]. }
  destruct (filter isset l) as [|t ts]; [destruct H|]. apply Hin.
  destruct (fold_max_ge ts t) as (_ & _ & [E|E]); [left; congruence|right; exact E].
Qed.

(** bump *)
Fixpoint bumped (bucketing : list Z) (duration : Z) (counts : list Z) : list Z :=
  match bucketing, counts with
  | b :: bs, c :: cs => if duration <? b then c :: cs else (c + 1) :: bumped bs duration cs
  | _, _ => counts
  end.
Lemma bump_spec bs : forall pre cs d, length bs = length cs ->
  bump_buckets bs (zlen pre) d (pre ++ cs) = Ok (pre ++ bumped bs d cs)%list.
Proof.
  induction bs as [|b bs IH]; intros pre cs d Hl; destruct cs as [|c cs]; try discriminate; cbn [bump_buckets bumped].
  - reflexivity.
  - destruct (d <? b); [reflexivity|].
    assert (Hg : slice_get (pre ++ c :: cs) (zlen pre) = Ok c).
    { unfold slice_get, zlen. destruct (Z.ltb_spec (Z.of_nat (length pre)) 0); [lia|].
      rewrite Nat2Z.id, nth_error_app2, Nat.sub_diag by lia. reflexivity. }
    assert (Hs : slice_set (pre ++ c :: cs) (zlen pre) (c + 1) = Ok (pre ++ (c + 1) :: cs)%list).
    { unfold slice_set, zlen. destruct (_ || _)%bool eqn:E.
      - rewrite app_length in E. cbn [length] in E. lia.
      - rewrite Nat2Z.id. f_equal. rewrite firstn_app, firstn_all, Nat.sub_diag. cbn [firstn]. rewrite app_nil_r. f_equal. f_equal.
        replace (S (length pre)) with (length pre + 1)%nat by lia.
        rewrite skipn_app, skipn_all2 by lia. cbn [app]. replace (length pre + 1 - length pre)%nat with 1%nat by lia. reflexivity. }
    rewrite Hg. cbn [bind]. rewrite Hs. cbn [bind].
    replace (pre ++ (c + 1) :: cs)%list with ((pre ++ [c + 1]) ++ cs)%list by (rewrite <- app_assoc; reflexivity).
    replace (zlen pre + 1) with (zlen (pre ++ [c + 1])) by (unfold zlen; rewrite app_length; cbn; lia).
    rewrite IH by (cbn in Hl; lia). rewrite <- app_assoc. reflexivity.
Qed.
Lemma bumped_length bs : forall d cs, length (bumped bs d cs) = length cs.
Proof.
  induction bs as [|b bs IH]; intros d [|c cs]; cbn; try reflexivity. destruct (d <? b); cbn; [reflexivity|]. rewrite IH. reflexivity.
Qed.
Lemma bumped_nth bs : forall d cs i, length bs = length cs ->
  nth i (bumped bs d cs) 0 = nth i cs 0 + (if (i <? length bs)%nat && forallb (fun b => b <=? d) (firstn (S i) bs) then 1 else 0).
Proof.
  induction bs as [|b bs IH]; intros d cs i Hl; destruct cs as [|c cs]; try discriminate.
  - cbn. destruct i; lia.
  - cbn [bumped]. cbn [firstn forallb length].
    destruct (Z.ltb_spec d b).
    + replace (b <=? d) with false by lia. cbn [andb]. rewrite andb_false_r. lia.
    + replace (b <=? d) with true by lia. cbn [andb]. destruct i as [|i]; [cbn; lia|].
      cbn [nth]. rewrite IH by (cbn in Hl; lia). cbn [length]. change (S i <? S (length bs))%nat with (i <? length bs)%nat. reflexivity.
Qed.

(** the counts of a category, apart from the event count, as a function of its traces *)
Definition bucket_spec (b : list Z) (trs : list StaticTrace) : list Z :=
  map (fun i => count (in_bucket b i) trs) (seq 0 (length b)).

Definition counts_spec (b : list Z) (trs : list StaticTrace) : Z * list Z * Z * Z * Z :=
  (count active trs, bucket_spec b trs, count failed trs, earliest (map TraceStarted trs), latest (map TraceStarted trs)).

Definition is_nil {A} (l : list A) : bool := match l with [] => true | _ => false end.

(** [ss] holds the statistics of [trs] under bucketing [b] *)
Definition represents (b : list Z) (ss : SearchStats) (trs : list StaticTrace) : Prop :=
  Bucketing ss = b /\ NoDup (map_keys (Categories ss)) /\
  forall c, match map_get c (Categories ss) with
            | None => of_category c trs = []
            | Some cs => of_category c trs <> [] /\ cs_Category cs = c /\ cs_counts cs = counts_spec b (of_category c trs)
            end.

Lemma bucket_spec_length b trs : length (bucket_spec b trs) = length b.
Proof. unfold bucket_spec. rewrite map_length, seq_length. reflexivity. Qed.
Lemma bucket_spec_nth b trs i : (i < length b)%nat -> nth i (bucket_spec b trs) 0 = count (in_bucket b i) trs.
Proof.
  intros H. unfold bucket_spec. rewrite (nth_indep _ 0 (count (in_bucket b 0%nat) trs)) by (rewrite map_length, seq_length; exact H).
  rewrite (map_nth (fun i => count (in_bucket b i) trs)). rewrite seq_nth by exact H. reflexivity.
Qed.
Lemma list_eq_nth (l l' : list Z) : length l = length l' -> (forall i, (i < length l)%nat -> nth i l 0 = nth i l' 0) -> l = l'.
Proof. intros Hl H. apply (nth_ext l l' 0 0 Hl H). Qed.

Lemma bumped_succ b tr trs : succeeded tr = true ->
  bumped b (TraceDuration tr) (bucket_spec b trs) = bucket_spec b (trs ++ [tr]).
Proof.
  intros Hs. apply list_eq_nth; [rewrite bumped_length, !bucket_spec_length; reflexivity|].
  intros i Hi. rewrite bumped_length, bucket_spec_length in Hi.
  rewrite bumped_nth by (rewrite bucket_spec_length; reflexivity).
  rewrite !bucket_spec_nth by exact Hi. rewrite count_app, count_cons, count_nil. unfold in_bucket at 3. rewrite Hs.
  replace (i <? length b)%nat with true by lia. cbn [andb]. lia.
Qed.
Lemma bucket_spec_not b tr trs : succeeded tr = false -> bucket_spec b (trs ++ [tr]) = bucket_spec b trs.
Proof.
  intros Hs. unfold bucket_spec. apply map_ext. intros i. rewrite count_app, count_cons, count_nil.
  unfold in_bucket at 2. rewrite Hs. cbn. lia.
Qed.
Lemma bucket_spec_nil b : bucket_spec b [] = repeat 0 (length b).
Proof.
  unfold bucket_spec. rewrite (map_ext _ (fun _ => 0)) by reflexivity. generalize 0%nat. induction b as [|x b IH]; intros n; cbn; [reflexivity|].
  f_equal. apply IH.
Qed.

Lemma of_category_app c l l' : of_category c (l ++ l') = (of_category c l ++ of_category c l')%list.
Proof. apply filter_app. Qed.
Lemma of_category_one c tr : of_category c [tr] = if String.eqb (TraceCategory tr) c then [tr] else [].
Proof. unfold of_category. cbn. reflexivity. Qed.

Lemma counts_nil b c : cs_counts (NewCategoryStats c b) = counts_spec b [].
Proof. unfold counts_spec. rewrite bucket_spec_nil. reflexivity. Qed.

Lemma observe1_spec b ss trs tr :
  represents b ss trs -> exists ss', observe1 ss tr = Ok ss' /\ represents b ss' (trs ++ [tr]) /\
  (forall c, match map_get c (Categories ss') with
             | Some cs => EventCount cs = match map_get c (Categories ss) with Some cs0 => EventCount cs0 | None => 0 end +
                            (if String.eqb (TraceCategory tr) c then zlen (TraceEvents tr) else 0)
             | None => True end).
Proof.
  intros (HB & HN & HC). set (c := TraceCategory tr).
  set (cs0 := match map_get c (Categories ss) with Some cs => cs | None => NewCategoryStats c (Bucketing ss) end).
  assert (H0 : cs_Category cs0 = c /\ cs_counts cs0 = counts_spec b (of_category c trs) /\
               EventCount cs0 = match map_get c (Categories ss) with Some cs0 => EventCount cs0 | None => 0 end).
  { unfold cs0. specialize (HC c). destruct (map_get c (Categories ss)) as [cs|]; [tauto|].
    rewrite HC, HB. rewrite counts_nil. auto. }
  destruct H0 as (Hcat & Hcnt & Hev). unfold cs_counts, counts_spec in Hcnt. injection Hcnt as HA HBk HE HO HNw.
  set (trs' := (of_category c trs ++ [tr])%list).
  assert (Hobs : exists cs1, observe1 ss tr = Ok (MkSS (Bucketing ss) (map_set c cs1 (Categories ss))) /\
                   cs_Category cs1 = c /\ cs_counts cs1 = counts_spec b trs' /\ EventCount cs1 = EventCount cs0 + zlen (TraceEvents tr)).
  { unfold observe1. fold c. fold cs0. cbn [cs_Category EventCount ActiveCount BucketCounts ErroredCount Oldest Newest].
    assert (HO' : olderOf (Oldest cs0) (TraceStarted tr) = earliest (map TraceStarted trs')).
    { unfold trs'. rewrite map_app, earliest_app, HO. cbn [map]. rewrite earliest_one. reflexivity. }
    assert (HN' : newerOf (Newest cs0) (TraceStarted tr) = latest (map TraceStarted trs')).
    { unfold trs'. rewrite map_app, latest_app, HNw. cbn [map]. rewrite latest_one. reflexivity. }
    assert (HAc : count active trs' = ActiveCount cs0 + (if active tr then 1 else 0)).
    { unfold trs'. rewrite count_app, count_cons, count_nil, HA. lia. }
    assert (HEc : count failed trs' = ErroredCount cs0 + (if failed tr then 1 else 0)).
    { unfold trs'. rewrite count_app, count_cons, count_nil, HE. lia. }
    destruct (TraceFinished tr) eqn:Ef; [destruct (TraceErrored tr) eqn:Ee|]; cbn [negb andb].
    - cbn [bind cs_Category EventCount ActiveCount BucketCounts ErroredCount Oldest Newest].
      eexists. split; [reflexivity|]. split; [exact Hcat|]. split; [|reflexivity].
      unfold cs_counts, counts_spec; cbn [ActiveCount BucketCounts ErroredCount Oldest Newest].
      rewrite HO', HN', HAc, HEc. unfold active, failed. rewrite Ef, Ee. cbn [negb andb].
      assert (Hbs : bucket_spec b trs' = BucketCounts cs0) by (unfold trs'; rewrite bucket_spec_not by (unfold succeeded; rewrite Ef, Ee; reflexivity); congruence).
      rewrite Hbs, Z.add_0_r. reflexivity.
    - assert (Hb : bump_buckets (Bucketing ss) 0 (TraceDuration tr) (BucketCounts cs0) = Ok (bucket_spec b trs')).
      { rewrite HB, HBk. pose proof (bump_spec b [] (bucket_spec b (of_category c trs)) (TraceDuration tr)) as H. cbn [app] in H.
        change (zlen []) with 0 in H. rewrite H by (rewrite bucket_spec_length; reflexivity). f_equal.
        apply bumped_succ. unfold succeeded. rewrite Ef, Ee. reflexivity. }
      rewrite Hb. cbn [bind cs_Category EventCount ActiveCount BucketCounts ErroredCount Oldest Newest].
      eexists. split; [reflexivity|]. split; [exact Hcat|]. split; [|reflexivity].
      unfold cs_counts, counts_spec; cbn [ActiveCount BucketCounts ErroredCount Oldest Newest].
      rewrite HO', HN', HAc, HEc. unfold active, failed. rewrite Ef, Ee. cbn [negb andb]. rewrite !Z.add_0_r. reflexivity.
    - cbn [bind cs_Category EventCount ActiveCount BucketCounts ErroredCount Oldest Newest].
      eexists. split; [reflexivity|]. split; [exact Hcat|]. split; [|reflexivity].
      unfold cs_counts, counts_spec; cbn [ActiveCount BucketCounts ErroredCount Oldest Newest].
      rewrite HO', HN', HAc, HEc. unfold active, failed. rewrite Ef. cbn [negb andb].
      assert (Hbs : bucket_spec b trs' = BucketCounts cs0) by (unfold trs'; rewrite bucket_spec_not by (unfold succeeded; rewrite Ef; reflexivity); congruence).
      rewrite Hbs, Z.add_0_r. reflexivity. }
  destruct Hobs as (cs1 & Hobs & Hc1 & Hk1 & He1). eexists. split; [exact Hobs|].
  split; [|].
  - split; [exact HB|]. cbn [Categories]. split; [apply map_keys_set_NoDup; exact HN|].
    intros c'. rewrite map_get_set, of_category_app, of_category_one. fold c.
    destruct (String.eqb_spec c' c) as [->|Hne].
    + rewrite String.eqb_refl. split; [destruct (of_category c trs); discriminate|]. split; [exact Hc1|exact Hk1].
    + assert (E : String.eqb c c' = false) by (apply String.eqb_neq; congruence). rewrite E, app_nil_r.
      exact (HC c').
  - cbn [Categories]. intros c'. rewrite map_get_set. fold c. destruct (String.eqb_spec c' c) as [->|Hne].
    + rewrite String.eqb_refl. rewrite He1, Hev. reflexivity.
    + assert (E : String.eqb c c' = false) by (apply String.eqb_neq; congruence). rewrite E.
      destruct (map_get c' (Categories ss)); [lia|exact I].
Qed.

Lemma Observe_spec b trs' : forall ss trs, represents b ss trs ->
  exists ss', Observe ss trs' = Ok ss' /\ represents b ss' (trs ++ trs') /\
  (forall c cs, map_get c (Categories ss') = Some cs ->
     EventCount cs = match map_get c (Categories ss) with Some cs0 => EventCount cs0 | None => 0 end +
                     sum (map (fun tr => zlen (TraceEvents tr)) (of_category c trs'))).
Proof.
  induction trs' as [|tr trs' IH]; intros ss trs H.
  - exists ss. cbn. split; [reflexivity|]. split; [rewrite app_nil_r; exact H|]. intros c cs ->. lia.
  - destruct (observe1_spec b ss trs tr H) as (ss1 & E1 & H1 & Hev1).
    destruct (IH ss1 _ H1) as (ss2 & E2 & H2 & Hev2). exists ss2. cbn [Observe]. rewrite E1. cbn [bind].
    split; [exact E2|]. split; [rewrite <- app_assoc in H2; exact H2|].
    intros c cs Hc. rewrite (Hev2 c cs Hc). specialize (Hev1 c).
    change (of_category c (tr :: trs')) with (of_category c ([tr] ++ trs')). rewrite of_category_app, map_app, sum_app, of_category_one.
    destruct (map_get c (Categories ss1)) as [cs1|] eqn:E.
    + rewrite Hev1. destruct (String.eqb (TraceCategory tr) c); cbn; lia.
    + destruct H1 as (_ & _ & HC). specialize (HC c). rewrite E in HC. rewrite of_category_app, of_category_one in HC.
      apply app_eq_nil in HC as [HC0 HC]. destruct (String.eqb (TraceCategory tr) c); [discriminate|].
      destruct H as (_ & _ & HC'). specialize (HC' c). destruct (map_get c (Categories ss)); [tauto|]. cbn. lia.
Qed.

Lemma represents_new b : represents b (NewSearchStats b) [].
Proof. split; [reflexivity|]. split; [constructor|]. intros c. reflexivity. Qed.

Lemma observe_new b trs :
  exists ss, Observe (NewSearchStats b) trs = Ok ss /\ represents b ss trs /\
  (forall c cs, map_get c (Categories ss) = Some cs -> EventCount cs = sum (map (fun tr => zlen (TraceEvents tr)) (of_category c trs))).
Proof.
  destruct (Observe_spec b trs _ _ (represents_new b)) as (ss & E & H & He). exists ss. split; [exact E|]. split; [exact H|].
  intros c cs Hc. rewrite (He c cs Hc). cbn. lia.
Qed.

(** ascending bucketings *)
Lemma ascending_prefix b : ascending b -> forall i x, nth_error b i = Some x -> forall y, In y (firstn (S i) b) -> y <= x.
Proof.
  induction b as [|z b IH]; intros Ha i x Hi y Hy; [destruct i; discriminate|].
  destruct i as [|i].
  - cbn in Hi, Hy. injection Hi as <-. destruct Hy as [<-|[]]. lia.
  - cbn [firstn In] in Hy. cbn [nth_error] in Hi. destruct b as [|w b]; [destruct i; discriminate|].
    cbn [ascending] in Ha. destruct Ha as [Hzw Ha]. destruct Hy as [<-|Hy]; [|apply (IH Ha i x Hi y Hy)].
    assert (w <= x); [|lia]. apply (IH Ha i x Hi). cbn [firstn]. left. reflexivity.
Qed.
Lemma in_bucket_ascending b i x tr : ascending b -> nth_error b i = Some x ->
  in_bucket b i tr = succeeded tr && (x <=? TraceDuration tr).
Proof.
  intros Ha Hx. unfold in_bucket. f_equal. apply eq_true_iff_eq. rewrite forallb_forall. split.
  - intros H. apply H. revert b Ha Hx H. induction i as [|i IH]; intros [|z b] Ha Hx H; try discriminate.
    + cbn in Hx. injection Hx as <-. left. reflexivity.
    + cbn [nth_error] in Hx. change (firstn (S (S i)) (z :: b)) with (z :: firstn (S i) b) in *. right.
      apply IH; [destruct b; [exact I|apply Ha]|exact Hx|]. intros y Hy. apply H. right. exact Hy.
  - intros Hle y Hy. pose proof (ascending_prefix b Ha i x Hx y Hy). lia.
Qed.
Lemma in_bucket_mono b i j tr : (i <= j)%nat -> in_bucket b j tr = true -> in_bucket b i tr = true.
Proof.
  unfold in_bucket. rewrite !andb_true_iff, !forallb_forall. intros Hij [Hs Hf]. split; [exact Hs|].
  intros y Hy. apply Hf. rewrite <- (firstn_skipn (S i) (firstn (S j) b)). apply in_or_app. left.
  rewrite firstn_firstn. replace (Nat.min (S i) (S j)) with (S i) by lia. exact Hy.
Qed.
Lemma count_mono {A} (p q : A -> bool) l : (forall x, p x = true -> q x = true) -> count p l <= count q l.
Proof.
  intros H. induction l as [|x l IH]; [cbn; lia|]. rewrite !count_cons. specialize (H x). destruct (p x); [rewrite H by reflexivity; lia|].
  destruct (q x); lia.
Qed.

(** total *)
Lemma total_spec b b0 rest trs cs : b = b0 :: rest ->
  cs_counts cs = counts_spec b trs -> (forall tr, In tr trs -> succeeded tr = true -> b0 <= TraceDuration tr) ->
  TotalCount cs = zlen trs.
Proof.
  intros Hb Hc Hd. unfold cs_counts, counts_spec in Hc. injection Hc as HA HB HE _ _.
  unfold TotalCount. rewrite HA, HB, HE. rewrite Hb. unfold bucket_spec. cbn [length seq map].
  assert (H : count active trs + count (in_bucket (b0 :: rest) 0) trs + count failed trs = zlen trs); [|exact H].
  clear -Hd. induction trs as [|tr trs IH]; [reflexivity|]. rewrite !count_cons.
  assert (IH' : count active trs + count (in_bucket (b0 :: rest) 0) trs + count failed trs = zlen trs).
  { apply IH. intros t Ht. apply Hd. right. exact Ht. }
  assert (Hz : zlen (tr :: trs) = 1 + zlen trs) by (unfold zlen; cbn [length]; lia). rewrite Hz.
  clear IH. revert IH'. generalize (count active trs) (count (in_bucket (b0 :: rest) 0) trs) (count failed trs). intros x y z IH'.
  specialize (Hd tr (or_introl eq_refl)). unfold active, failed, in_bucket, succeeded in *. cbn [firstn forallb].
  destruct (TraceFinished tr) eqn:E1, (TraceErrored tr) eqn:E2; cbn [negb andb] in *; try lia.
  specialize (Hd eq_refl). replace (b0 <=? TraceDuration tr) with true by lia. cbn [andb]. lia.
Qed.

(** merging *)
Lemma add_buckets_spec l : forall l', length l = length l' ->
  exists r, add_buckets l l' = Ok r /\ length r = length l /\ forall i, nth i r 0 = nth i l 0 + nth i l' 0.
Proof.
  induction l as [|x l IH]; intros [|y l'] Hl; try discriminate; cbn [add_buckets].
  - exists []. repeat split. intros [|i]; reflexivity.
  - destruct (IH l') as (r & E & Hr & Hn); [cbn in Hl; lia|]. rewrite E. cbn [bind]. exists ((x + y) :: r).
    repeat split; [cbn; congruence|]. intros [|i]; cbn; [reflexivity|apply Hn].
Qed.
Lemma bucket_spec_app b l l' r : length r = length b ->
  (forall i, nth i r 0 = nth i (bucket_spec b l) 0 + nth i (bucket_spec b l') 0) -> r = bucket_spec b (l ++ l').
Proof.
  intros Hl Hn. apply list_eq_nth; [rewrite bucket_spec_length; exact Hl|]. intros i Hi. rewrite Hn.
  rewrite !bucket_spec_nth by congruence. rewrite count_app. reflexivity.
Qed.

Lemma fold_add_sum l : forall a, fold_left Z.add l a = a + sum l.
Proof. unfold sum. induction l as [|x l IH]; intros a; cbn [fold_left fold_right]; [lia|]. rewrite IH. lia. Qed.
Lemma sum_nonneg_zero l : (forall x, In x l -> 0 <= x) -> sum l = 0 -> l = repeat 0 (length l).
Proof.
  unfold sum. induction l as [|x l IH]; intros H Hs; [reflexivity|]. cbn [fold_right length repeat] in *.
  assert (0 <= x) by (apply H; left; reflexivity).
  assert (0 <= fold_right Z.add 0 l).
  { clear -H. induction l as [|y l IH]; cbn; [lia|]. assert (0 <= y) by (apply H; right; left; reflexivity).
    assert (0 <= fold_right Z.add 0 l); [|lia]. apply IH. intros z [<-|Hz]; apply H; [left; reflexivity|right; right; exact Hz]. }
  assert (x = 0) by lia. subst x. f_equal. apply IH; [intros y Hy; apply H; right; exact Hy|lia].
Qed.
Lemma bucket_spec_nonneg b trs x : In x (bucket_spec b trs) -> 0 <= x.
Proof. unfold bucket_spec. rewrite in_map_iff. intros (i & <- & _). apply count_nonneg. Qed.

(** counts as values: a commutative monoid *)
Definition counts := (Z * list Z * Z * Z * Z)%type.
Definition zero_counts (b : list Z) : counts := (0, repeat 0 (length b), 0, 0, 0).

Lemma cs_IsZero_counts b cs trs : cs_counts cs = counts_spec b trs -> cs_IsZero cs = true -> cs_counts cs = zero_counts b.
Proof.
  intros Hc Hz. unfold cs_IsZero in Hz. rewrite !andb_true_iff in Hz. destruct Hz as (((((_ & HA) & HB) & HE) & HO) & HN).
  unfold cs_counts, zero_counts, counts_spec in *. injection Hc as EA EB EE EO EN.
  rewrite fold_add_sum in HB.
  assert (Hbz : BucketCounts cs = repeat 0 (length b)).
  { rewrite <- (bucket_spec_length b trs), <- EB. apply sum_nonneg_zero; [rewrite EB; apply bucket_spec_nonneg|lia]. }
  rewrite Hbz. f_equal; [f_equal; [f_equal; [f_equal|]|]|]; lia.
Qed.

Lemma counts_spec_app b l l' : counts_spec b (l ++ l') =
  (count active l + count active l', bucket_spec b (l ++ l'), count failed l + count failed l',
   olderOf (earliest (map TraceStarted l)) (earliest (map TraceStarted l')),
   newerOf (latest (map TraceStarted l)) (latest (map TraceStarted l'))).
Proof. unfold counts_spec. rewrite !count_app, !map_app, earliest_app, latest_app. reflexivity. Qed.

Lemma zip_zero_r b l l' : bucket_spec b l' = repeat 0 (length b) -> bucket_spec b (l ++ l') = bucket_spec b l.
Proof.
  intros H. symmetry. apply bucket_spec_app; [apply bucket_spec_length|]. intros i. rewrite H, nth_repeat. lia.
Qed.
Lemma zip_zero_l b l l' : bucket_spec b l = repeat 0 (length b) -> bucket_spec b (l ++ l') = bucket_spec b l'.
Proof.
  intros H. symmetry. apply bucket_spec_app; [apply bucket_spec_length|]. intros i. rewrite H, nth_repeat. lia.
Qed.

Lemma counts_zero_r b l l' : counts_spec b l' = zero_counts b -> counts_spec b (l ++ l') = counts_spec b l.
Proof.
  intros H. rewrite counts_spec_app. unfold counts_spec, zero_counts in *. injection H as HA HB HE HO HN.
  rewrite HA, HE, HO, HN, olderOf_0_r, newerOf_0_r, zip_zero_r by exact HB. rewrite !Z.add_0_r. reflexivity.
Qed.
Lemma counts_zero_l b l l' : counts_spec b l = zero_counts b -> counts_spec b (l ++ l') = counts_spec b l'.
Proof.
  intros H. rewrite counts_spec_app. unfold counts_spec, zero_counts in *. injection H as HA HB HE HO HN.
  rewrite HA, HE, HO, HN, olderOf_0_l, newerOf_0_l, zip_zero_l by exact HB. reflexivity.
Qed.

Lemma cs_Merge_spec b cs other l l' :
  cs_counts cs = counts_spec b l -> cs_counts other = counts_spec b l' ->
  exists cs', cs_Merge cs other = Ok cs' /\ cs_counts cs' = counts_spec b (l ++ l') /\
    (cs_Category cs' = cs_Category cs \/ cs_Category cs' = cs_Category other /\ cs_Category cs = "") /\
    (EventCount cs' = EventCount cs \/ (cs_IsZero cs = true /\ EventCount cs' = EventCount other)).
Proof.
  intros H H'. unfold cs_Merge. destruct (cs_IsZero other) eqn:Ez'.
  { exists cs. split; [reflexivity|]. split; [|auto]. rewrite H. symmetry. apply counts_zero_r. rewrite <- H'. eapply cs_IsZero_counts; eassumption. }
  destruct (cs_IsZero cs) eqn:Ez.
  { exists other. split; [reflexivity|]. split; [|split; [right; split; [reflexivity|]|right; auto]].
    - rewrite H'. symmetry. apply counts_zero_l. rewrite <- H. eapply cs_IsZero_counts; eassumption.
    - unfold cs_IsZero in Ez. rewrite !andb_true_iff in Ez. destruct Ez as (((((Ec & _) & _) & _) & _) & _). apply String.eqb_eq. exact Ec. }
  unfold cs_counts, counts_spec in H, H'. injection H as HA HB HE HO HN. injection H' as HA' HB' HE' HO' HN'.
  assert (Hl : length (BucketCounts cs) = length (BucketCounts other)) by (rewrite HB, HB', !bucket_spec_length; reflexivity).
  unfold zlen. rewrite Hl, Z.eqb_refl. cbn [negb].
  destruct (add_buckets_spec _ _ Hl) as (r & Er & Hr & Hn). rewrite Er. cbn [bind].
  eexists. split; [reflexivity|]. split; [|cbn; auto].
  unfold cs_counts; cbn [ActiveCount BucketCounts ErroredCount Oldest Newest]. rewrite counts_spec_app.
  rewrite HA, HA', HE, HE', HO, HO', HN, HN'. f_equal. f_equal. f_equal. f_equal.
  apply bucket_spec_app; [rewrite Hr, HB, bucket_spec_length; reflexivity|]. intros i. rewrite Hn, HB, HB'. reflexivity.
Qed.

(** merging category maps: range over [names] *)
Lemma merge_categories_spec b other names : forall ours (m : string -> list StaticTrace) l',
  NoDup names -> NoDup (map_keys ours) ->
  (forall n, In n names -> exists cs, map_get n other = Some cs /\ cs_Category cs = n /\
     cs_counts cs = counts_spec b (of_category n l') /\ of_category n l' <> []) ->
  (forall c, match map_get c ours with
             | None => m c = []
             | Some cs => m c <> [] /\ cs_Category cs = c /\ cs_counts cs = counts_spec b (m c)
             end) ->
  exists res, merge_categories names other ours = Ok res /\ NoDup (map_keys res) /\
    forall c, let m' := if in_dec string_dec c names then (m c ++ of_category c l')%list else m c in
      match map_get c res with
      | None => m' = []
      | Some cs => m' <> [] /\ cs_Category cs = c /\ cs_counts cs = counts_spec b m'
      end.
Proof.
  induction names as [|n names IH]; intros ours m l' Hnd Hno Hother Hours; cbn [merge_categories].
  - exists ours. split; [reflexivity|]. split; [exact Hno|]. intros c. cbn. exact (Hours c).
  - inversion Hnd as [|? ? Hni Hnd']; subst.
    destruct (Hother n (or_introl eq_refl)) as (theirs & Et & Hct & Hkt & Hnt). rewrite Et.
    assert (Hstep : exists cs, (match map_get n ours with
              | Some cs0 => exists cs', cs_Merge cs0 theirs = Ok cs' /\ cs = cs'
              | None => cs = theirs end) /\ cs_Category cs = n /\ cs_counts cs = counts_spec b (m n ++ of_category n l')).
    { specialize (Hours n). destruct (map_get n ours) as [cs0|].
      - destruct Hours as (_ & Hc0 & Hk0). destruct (cs_Merge_spec b cs0 theirs _ _ Hk0 Hkt) as (cs' & E & Hk & Hc & _).
        exists cs'. split; [eauto|]. split; [|exact Hk]. destruct Hc as [Hc|[Hc _]]; congruence.
      - exists theirs. split; [reflexivity|]. split; [exact Hct|]. rewrite Hours. exact Hkt. }
    destruct Hstep as (cs & Hm & Hcc & Hkk).
    destruct (IH (map_set n cs ours) (fun c => if string_dec c n then m n ++ of_category n l' else m c)%list l' Hnd') as (res & Er & Hnr & Hr).
    + apply map_keys_set_NoDup. exact Hno.
    + intros k Hk. apply Hother. right. exact Hk.
    + intros c. rewrite map_get_set. destruct (String.eqb_spec c n) as [->|Hne].
      * destruct (string_dec n n); [|congruence]. split; [|auto]. intros Hn. apply app_eq_nil in Hn. apply Hnt. apply Hn.
      * destruct (string_dec c n); [contradiction|]. exact (Hours c).
    + exists res. split.
      { destruct (map_get n ours) as [cs0|].
        - destruct Hm as (cs' & E & ->). rewrite E. cbn [bind]. exact Er.
        - rewrite Hm in *. exact Er. }
      split; [exact Hnr|]. intros c. specialize (Hr c). cbn zeta in *.
      destruct (string_dec c n) as [->|Hne].
      * destruct (in_dec string_dec n (n :: names)) as [_|Hx]; [|exfalso; apply Hx; left; reflexivity].
        destruct (in_dec string_dec n names); [contradiction|]. exact Hr.
      * destruct (in_dec string_dec c (n :: names)) as [Hi|Hi], (in_dec string_dec c names) as [Hi'|Hi']; try exact Hr.
        -- destruct Hi; [congruence|contradiction].
        -- exfalso. apply Hi. right. exact Hi'.
Qed.

Lemma ss_Merge_spec b order ss other l l' :
  is_order order -> b <> [] -> represents b ss l -> represents b other l' ->
  exists ss', ss_Merge order ss (Some other) = Ok ss' /\ represents b ss' (l ++ l').
Proof.
  intros Ho Hb (HB & HN & HC) (HB' & HN' & HC'). unfold ss_Merge, ss_IsZero.
  assert (Hz : zlen b <=? 0 = false) by (destruct b; [contradiction|unfold zlen; cbn [length]; lia]).
  rewrite HB, HB', Hz, Z.eqb_refl. cbn [negb].
  assert (Hkeys : forall n, In n (order (map_keys (Categories other))) <-> In n (map_keys (Categories other))).
  { intros n. split; apply Permutation_in; [apply Ho|symmetry; apply Ho]. }
  destruct (merge_categories_spec b (Categories other) (order (map_keys (Categories other))) (Categories ss) (fun c => of_category c l) l') as (res & E & Hn & Hr).
  - eapply Permutation_NoDup; [symmetry; apply Ho|exact HN'].
  - exact HN.
  - intros n Hin. apply Hkeys in Hin. apply map_get_in in Hin. specialize (HC' n).
    destruct (map_get n (Categories other)) as [cs|]; [|congruence]. exists cs. tauto.
  - exact HC.
  - rewrite E. cbn [bind]. eexists. split; [reflexivity|]. split; [reflexivity|]. split; [exact Hn|].
    intros c. specialize (Hr c). cbn zeta in Hr. cbn [Categories]. rewrite of_category_app.
    destruct (in_dec string_dec c (order (map_keys (Categories other)))) as [Hi|Hi]; [exact Hr|].
    assert (Hnil : of_category c l' = []).
    { specialize (HC' c). destruct (map_get c (Categories other)) eqn:Eg; [|exact HC'].
      exfalso. apply Hi. apply Hkeys. apply map_get_in. congruence. }
    rewrite Hnil, app_nil_r. exact Hr.
Qed.

Lemma counts_spec_perm b l l' : Permutation l l' -> counts_spec b l = counts_spec b l'.
Proof.
  intros H. unfold counts_spec, bucket_spec.
  rewrite (count_perm active _ _ H), (count_perm failed _ _ H).
  rewrite (earliest_perm _ _ (Permutation_map TraceStarted H)), (latest_perm _ _ (Permutation_map TraceStarted H)).
  rewrite (map_ext _ (fun i => count (in_bucket b i) l')) by (intros i; apply count_perm; exact H). reflexivity.
Qed.
Lemma of_category_perm c l l' : Permutation l l' -> Permutation (of_category c l) (of_category c l').
Proof.
  unfold of_category. induction 1; cbn [filter]; [constructor| | |etransitivity; eassumption].
  - destruct (String.eqb (TraceCategory x) c); [constructor|]; assumption.
  - destruct (String.eqb (TraceCategory x) c), (String.eqb (TraceCategory y) c); try apply perm_swap; reflexivity.
Qed.
Lemma represents_perm b ss l l' : Permutation l l' -> represents b ss l -> represents b ss l'.
Proof.
  intros H (HB & HN & HC). split; [exact HB|]. split; [exact HN|]. intros c. specialize (HC c).
  pose proof (of_category_perm c _ _ H) as Hp. destruct (map_get c (Categories ss)).
  - destruct HC as (Hne & Hc & Hk). split; [|split; [exact Hc|]].
    + intros Hn. rewrite Hn in Hp. symmetry in Hp. apply Hne. apply Permutation_nil. exact Hp.
    + rewrite Hk. apply counts_spec_perm. exact Hp.
  - rewrite HC in Hp. apply Permutation_nil. exact Hp.
Qed.

Lemma represents_same b ss ss' l l' : Permutation l l' -> represents b ss l -> represents b ss' l' -> same_counts ss ss'.
Proof.
  intros H H1 H2. apply (represents_perm _ _ _ _ H) in H1. destruct H1 as (HB & _ & HC), H2 as (HB' & _ & HC').
  split; [congruence|]. intros c. specialize (HC c). specialize (HC' c).
  destruct (map_get c (Categories ss)) as [x|], (map_get c (Categories ss')) as [y|]; cbn.
  - destruct HC as (_ & A & B), HC' as (_ & A' & B'). congruence.
  - destruct HC as (A & _). contradiction.
  - destruct HC' as (A & _). contradiction.
  - reflexivity.
Qed.

(** Overall *)
Lemma overall_loop_spec b cats names : forall overall (l : list StaticTrace) (f : string -> list StaticTrace),
  cs_Category overall = "overall" -> EventCount overall = 0 ->
  cs_counts overall = counts_spec b l ->
  (forall n, In n names -> exists cs, map_get n cats = Some cs /\ cs_counts cs = counts_spec b (f n)) ->
  exists o, overall_loop names cats overall = Ok o /\ EventCount o = 0 /\ cs_Category o = "overall" /\
    cs_counts o = counts_spec b (l ++ flat_map f names).
Proof.
  induction names as [|n names IH]; intros overall l f Hc He Hk Hn; cbn [overall_loop flat_map].
  - exists overall. rewrite app_nil_r. auto.
  - destruct (Hn n (or_introl eq_refl)) as (cs & Ec & Hcs). rewrite Ec.
    destruct (cs_Merge_spec b overall cs l (f n) Hk Hcs) as (o & Eo & Ho & Hoc & Hoe). rewrite Eo. cbn [bind].
    assert (Hz : cs_IsZero overall = false) by (unfold cs_IsZero; rewrite Hc; reflexivity).
    destruct (IH o (l ++ f n)%list f) as (o' & E & H1 & H2 & H3).
    + destruct Hoc as [Hoc|[_ Hx]]; congruence.
    + destruct Hoe as [Hoe|[Hx _]]; congruence.
    + exact Ho.
    + intros k Hk'. apply Hn. right. exact Hk'.
    + exists o'. rewrite app_assoc. auto.
Qed.

Lemma flat_map_of_category l names : NoDup names -> (forall tr, In tr l -> In (TraceCategory tr) names) ->
  Permutation (flat_map (fun n => of_category n l) names) l.
Proof.
  revert l; induction names as [|n names IH]; intros l Hnd Hall.
  - destruct l as [|tr l]; [constructor|]. destruct (Hall tr (or_introl eq_refl)).
  - inversion Hnd as [|? ? Hni Hnd']; subst. cbn [flat_map].
    set (rest := filter (fun tr => negb (String.eqb (TraceCategory tr) n)) l).
    assert (Hp : Permutation l (of_category n l ++ rest)).
    { unfold of_category, rest. clear. induction l as [|x l IH]; cbn [filter]; [constructor|].
      destruct (String.eqb (TraceCategory x) n); cbn [negb app]; [constructor; exact IH|].
      etransitivity; [apply perm_skip, IH|]. apply Permutation_middle. }
    transitivity (of_category n l ++ rest)%list; [|symmetry; exact Hp]. apply Permutation_app_head.
    transitivity (flat_map (fun k => of_category k rest) names).
    + assert (Hext : forall ns, ~ In n ns -> flat_map (fun k => of_category k l) ns = flat_map (fun k => of_category k rest) ns).
      { induction ns as [|k ns IHn]; intros Hk; [reflexivity|]. cbn [flat_map]. rewrite IHn by (intros ?; apply Hk; right; assumption). f_equal.
        unfold of_category, rest. clear -Hk. induction l as [|x l IHl]; [reflexivity|]. cbn [filter].
        destruct (String.eqb_spec (TraceCategory x) n) as [E|E]; cbn [negb filter].
        - destruct (String.eqb_spec (TraceCategory x) k) as [E'|E']; [exfalso; apply Hk; left; congruence|exact IHl].
        - destruct (String.eqb (TraceCategory x) k); [f_equal|]; exact IHl. }
      rewrite Hext by exact Hni. reflexivity.
    + apply IH; [exact Hnd'|]. intros tr Hin. unfold rest in Hin. apply filter_In in Hin as [Hin Hneq].
      destruct (Hall tr Hin) as [E|E]; [|exact E]. rewrite E, String.eqb_refl in Hneq. discriminate.
Qed.

Lemma Overall_spec b order ss l : is_order order -> represents b ss l ->
  exists o, Overall order ss = Ok o /\ cs_Category o = "overall" /\ EventCount o = 0 /\ cs_counts o = counts_spec b l.
Proof.
  intros Ho (HB & HN & HC). unfold Overall. rewrite HB.
  set (names := order (map_keys (Categories ss))).
  assert (Hkeys : forall n, In n names <-> In n (map_keys (Categories ss))).
  { intros n. split; apply Permutation_in; [apply Ho|symmetry; apply Ho]. }
  destruct (overall_loop_spec b (Categories ss) names (NewCategoryStats "overall" b) [] (fun n => of_category n l)) as (o & E & H1 & H2 & H3).
  - reflexivity.
  - reflexivity.
  - apply counts_nil.
  - intros n Hn. apply Hkeys, map_get_in in Hn. specialize (HC n). destruct (map_get n (Categories ss)) as [cs|]; [|congruence]. exists cs. tauto.
  - exists o. split; [exact E|]. split; [exact H2|]. split; [exact H1|]. rewrite H3. cbn [app]. apply counts_spec_perm.
    apply flat_map_of_category; [eapply Permutation_NoDup; [symmetry; apply Ho|exact HN]|].
    intros tr Hin. apply Hkeys, map_get_in. specialize (HC (TraceCategory tr)). destruct (map_get _ _); [discriminate|].
    assert (Hx : In tr (of_category (TraceCategory tr) l)) by (apply filter_In; split; [exact Hin|apply String.eqb_refl]).
    rewrite HC in Hx. destruct Hx.
Qed.

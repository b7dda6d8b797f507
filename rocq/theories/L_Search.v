From Verif Require Import Go L_List M_Strings M_Types M_Frame M_Filter S_Filter L_Filter S_RingBuf M_RingBuf L_RingBuf
  S_Collector M_RingBufs L_RingBufs M_Stats S_Stats S_StatsView L_Stats S_Order L_Order M_Search S_Search.
From Coq Require Import Sorted ZifyBool.
Open Scope list_scope.
Open Scope Z_scope.

(** TrimStacks *)
Definition cut (depth : Z) (ev : Event) : Event := MkEvent (When ev) (What ev) (firstn (Z.to_nat depth) (Stack ev)) (IsError ev).
Lemma slice_get_mid {A} (pre : list A) x post : slice_get (pre ++ x :: post) (zlen pre) = Ok x.
Proof.
  unfold slice_get, zlen. destruct (Z.ltb_spec (Z.of_nat (length pre)) 0); [lia|].
  rewrite Nat2Z.id, nth_error_app2, Nat.sub_diag by lia. reflexivity.
Qed.
Lemma slice_set_mid {A} (pre : list A) x y post : slice_set (pre ++ x :: post) (zlen pre) y = Ok (pre ++ y :: post).
Proof.
  unfold slice_set, zlen. destruct (_ || _)%bool eqn:E; [rewrite app_length in E; cbn [length] in E; lia|].
  rewrite Nat2Z.id. f_equal. rewrite firstn_app, firstn_all, Nat.sub_diag. cbn [firstn]. rewrite app_nil_r. f_equal. f_equal.
  replace (S (length pre)) with (length pre + 1)%nat by lia.
  rewrite skipn_app, skipn_all2 by lia. cbn [app]. replace (length pre + 1 - length pre)%nat with 1%nat by lia. reflexivity.
Qed.
Lemma trim_loop_spec depth evs : 0 <= depth -> forall pre,
  trim_loop (length evs) (zlen pre) depth (pre ++ evs) = Ok (pre ++ map (cut depth) evs).
Proof.
  intros Hd. induction evs as [|ev evs IH]; intros pre; [reflexivity|]. cbn [length trim_loop map].
  rewrite slice_get_mid. cbn [bind].
  assert (Hstep : (if depth <? zlen (Stack ev)
           then slice_set (pre ++ ev :: evs) (zlen pre) (MkEvent (When ev) (What ev) (firstn (Z.to_nat depth) (Stack ev)) (IsError ev))
           else Ok (pre ++ ev :: evs)) = Ok (pre ++ cut depth ev :: evs)).
  { destruct (Z.ltb_spec depth (zlen (Stack ev))) as [|Hle].
    - rewrite slice_set_mid. reflexivity.
    - unfold cut. rewrite firstn_all2 by (unfold zlen in Hle; lia). destruct ev; reflexivity. }
  rewrite Hstep. cbn [bind]. replace (pre ++ cut depth ev :: evs) with ((pre ++ [cut depth ev]) ++ evs) by (rewrite <- app_assoc; reflexivity).
  replace (zlen pre + 1) with (zlen (pre ++ [cut depth ev])) by (unfold zlen; rewrite app_length; cbn [length]; lia).
  rewrite IH, <- app_assoc. reflexivity.
Qed.
Lemma TrimStacks_spec st depth : TrimStacks st depth =
  Ok (MkStatic (TraceSource st) (TraceID st) (TraceCategory st) (TraceStarted st) (TraceDuration st) (TraceDurationStr st)
        (TraceFinished st) (TraceErrored st)
        (map (fun ev => MkEvent (When ev) (What ev) (keep_frames depth (Stack ev)) (IsError ev)) (TraceEvents st))).
Proof.
  unfold TrimStacks, keep_frames. destruct (Z.eqb_spec depth 0) as [|Hne].
  - f_equal. destruct st as [x1 x2 x3 x4 x5 x6 x7 x8 evs]; cbn. f_equal. rewrite <- (map_id evs) at 1. apply map_ext. intros []; reflexivity.
  - pose proof (trim_loop_spec (if depth <? 0 then 0 else depth) (TraceEvents st) ltac:(destruct (Z.ltb_spec depth 0); lia) []) as H.
    cbn [app] in H. change (zlen []) with 0 in H. cbn zeta. rewrite H. cbn [bind]. f_equal. f_equal. apply map_ext. intros ev. unfold cut.
    destruct (Z.ltb_spec depth 0); [|reflexivity]. replace (Z.to_nat depth) with 0%nat by lia. reflexivity.
Qed.
Lemma snapshot_spec tr depth : TrimStacks (NewSearchTrace tr) depth = Ok (shown depth tr).
Proof. rewrite TrimStacks_spec. reflexivity. Qed.

(** order *)
Lemma str_compare_refl s : String.compare s s = Eq.
Proof. induction s as [|c s IH]; [reflexivity|]. cbn. unfold Ascii.compare. rewrite N.compare_refl. exact IH. Qed.
Lemma str_lt_irrefl s : String.ltb s s = false.
Proof. unfold String.ltb. rewrite str_compare_refl. reflexivity. Qed.
Lemma str_lt_trans a : forall b c, String.ltb a b = true -> String.ltb b c = true -> String.ltb a c = true.
Proof.
  unfold String.ltb. induction a as [|x a IH]; intros [|y b] [|z c]; cbn; try discriminate; try reflexivity.
  unfold Ascii.compare. destruct (N.compare_spec (N_of_ascii x) (N_of_ascii y)), (N.compare_spec (N_of_ascii y) (N_of_ascii z)),
    (N.compare_spec (N_of_ascii x) (N_of_ascii z)); try discriminate; try reflexivity; try lia.
  apply IH.
Qed.
Lemma str_lt_total a b : String.ltb a b = true \/ a = b \/ String.ltb b a = true.
Proof.
  unfold String.ltb. rewrite (String.compare_antisym b a). destruct (String.compare a b) eqn:E; cbn; auto.
  right. left. apply String.compare_eq_iff. exact E.
Qed.
Lemma str_lt_asym a b : String.ltb a b = true -> String.ltb b a = false.
Proof.
  intros H. destruct (String.ltb b a) eqn:E; [|reflexivity]. rewrite <- (str_lt_irrefl a). symmetry. eapply str_lt_trans; eassumption.
Qed.

Lemma Less_newer a b : Less a b = newer a b.
Proof.
  unfold Less, newer. destruct (Z.ltb_spec (TraceStarted b) (TraceStarted a)); [reflexivity|].
  destruct (Z.ltb_spec (TraceStarted a) (TraceStarted b)), (Z.eqb_spec (TraceStarted a) (TraceStarted b)); try lia; reflexivity.
Qed.
Lemma newer_iff a b : newer a b = true <->
  TraceStarted b < TraceStarted a \/ (TraceStarted a = TraceStarted b /\ String.ltb (TraceID b) (TraceID a) = true).
Proof. unfold newer. rewrite orb_true_iff, andb_true_iff, Z.ltb_lt, Z.eqb_eq. reflexivity. Qed.
Lemma newer_strict_weak : strict_weak newer.
Proof.
  split; [|split].
  - intros x. apply not_true_iff_false. rewrite newer_iff, str_lt_irrefl. intros [H|[_ H]]; [lia|discriminate].
  - intros x y z. rewrite !newer_iff. intros [H|[H1 H2]] [H'|[H1' H2']]; try (left; lia).
    right. split; [lia|]. eapply str_lt_trans; eassumption.
  - intros x y z. rewrite !newer_iff. intros [H|[H1 H2]].
    + destruct (Z.lt_trichotomy (TraceStarted y) (TraceStarted z)) as [|[|]]; lia.
    + destruct (Z.lt_trichotomy (TraceStarted y) (TraceStarted x)) as [|[E|]]; [lia| |lia].
      destruct (str_lt_total (TraceID z) (TraceID y)) as [Hs|[Hs|Hs]].
      * right. right. split; [lia|exact Hs].
      * left. right. split; [lia|]. rewrite <- Hs. exact H2.
      * left. right. split; [lia|]. eapply str_lt_trans; eassumption.
Qed.
Lemma later_strict_weak : strict_weak started_later.
Proof. unfold started_later. split; [|split]; intros; lia. Qed.
Lemma later_newer a b : started_later a b = true -> newer a b = true.
Proof. intros H. apply newer_iff. left. unfold started_later in H. lia. Qed.
Lemma newer_ext a b a' b' : TraceStarted a = TraceStarted a' -> TraceID a = TraceID a' -> TraceStarted b = TraceStarted b' -> TraceID b = TraceID b' ->
  newer a b = newer a' b'.
Proof. intros. unfold newer. congruence. Qed.
Lemma newer_incomparable a b : newer a b = false -> newer b a = false -> TraceStarted a = TraceStarted b /\ TraceID a = TraceID b.
Proof.
  intros H H'. apply not_true_iff_false in H, H'. rewrite newer_iff in H, H'.
  assert (E : TraceStarted a = TraceStarted b) by lia. split; [exact E|].
  destruct (str_lt_total (TraceID a) (TraceID b)) as [Hs|[Hs|Hs]]; [|exact Hs|]; exfalso.
  - apply H'. right. auto.
  - apply H. right. auto.
Qed.

(** Normalize *)
Definition norm_bucketing (b : list Z) : list Z :=
  let b := sort_durations (match b with [] => DefaultBucketing | _ => b end) in
  match b with b0 :: _ => if b0 =? 0 then b else 0 :: b | [] => b end.
Lemma zltb_strict_weak : strict_weak Z.ltb.
Proof. split; [|split]; intros; lia. Qed.
Lemma sort_durations_perm b : Permutation (sort_durations b) b.
Proof. apply isort_perm. Qed.
Lemma clamp_limit_spec l : clamp_limit l = effective_limit l.
Proof. unfold clamp_limit, effective_limit, SearchLimitDefault, SearchLimitMin, SearchLimitMax. destruct (Z.leb_spec l 0), (Z.ltb_spec l 1), (Z.ltb_spec 250 l); lia. Qed.

Section WithRE.
Context {RE : Type}.
Variable Compile : string -> RE + string.
Variable MatchString : RE -> string -> bool.

Lemma Normalize_spec (req : SearchRequest RE) :
  Normalize Compile req = Ok (MkReq (norm_bucketing (req_Bucketing req)) (fst (FilterNormalize Compile (req_Filter req)))
                                   (effective_limit (req_Limit req)) (req_StackDepth req),
                             map (fun err => "filter: " ++ err)%string (snd (FilterNormalize Compile (req_Filter req)))).
Proof.
  unfold Normalize, norm_bucketing. rewrite clamp_limit_spec.
  assert (Hb : (if zlen (req_Bucketing req) <=? 0 then DefaultBucketing else req_Bucketing req) =
               match req_Bucketing req with [] => DefaultBucketing | _ => req_Bucketing req end).
  { destruct (req_Bucketing req) as [|x l]; [reflexivity|]. unfold zlen. cbn [length]. destruct (Z.leb_spec (Z.of_nat (S (length l))) 0); [lia|reflexivity]. }
  rewrite Hb. set (b := match req_Bucketing req with [] => DefaultBucketing | _ => req_Bucketing req end). cbn zeta.
  assert (Hne : sort_durations b <> []).
  { intros E. pose proof (sort_durations_perm b) as Hp. rewrite E in Hp. apply Permutation_nil in Hp.
    unfold b in Hp. destruct (req_Bucketing req); discriminate. }
  destruct (sort_durations b) as [|b0 b'] eqn:E; [congruence|]. cbn [slice_get Z.ltb Z.compare Z.to_nat nth_error bind].
  destruct (FilterNormalize Compile (req_Filter req)) as [f errs]. cbn [fst snd]. destruct (b0 =? 0); reflexivity.
Qed.

Section OverStorage.
Context {T : Type}.
Variable zero : T.
Variable view : T -> StaticTrace.

(** The verdict of a filter is not changed by using it. *)
Definition same_verdict (f g : Filter RE) : Prop := forall tr, snd (Allow Compile MatchString f tr) = snd (Allow Compile MatchString g tr).
Lemma Allow_same_verdict f tr : same_verdict (fst (Allow Compile MatchString f tr)) f.
Proof.
  intros tr'. destruct (uses_keep Compile MatchString [UAllow tr] f) as [H1 H2]. cbn [fold_left] in *. apply Allow_bool; assumption.
Qed.
Lemma Normalize_same_verdict f : same_verdict (fst (FilterNormalize Compile f)) f.
Proof.
  intros tr'. destruct (uses_keep Compile MatchString [UNormalize] f) as [H1 H2]. cbn [fold_left] in *. apply Allow_bool; assumption.
Qed.

Variables (limit depth : Z).
Let k := Z.to_nat limit.

Lemma search_visit f acc l : (forall t, acc t = snd (Allow Compile MatchString f (view t))) -> forall st stats,
  same_verdict (st_filter st) f -> (length (st_cat st) <= k)%nat ->
  Observe (st_stats st) (map view l) = Ok stats ->
  exists st', visit (search_fn Compile MatchString view limit depth) l (Ok st) = (Ok st', None) /\
    st_stats st' = stats /\ st_total st' = st_total st + zlen l /\
    st_cat st' = firstn k (st_cat st ++ map (fun t => shown depth (view t)) (filter acc l)) /\
    st_match st' = st_match st + zlen (st_cat st') - zlen (st_cat st) /\
    same_verdict (st_filter st') f.
Proof.
  intros Hacc. induction l as [|t l IH]; intros st stats Hv Hk Ho.
  - exists st. cbn [visit]. cbn [map Observe] in Ho. injection Ho as <-. cbn [filter map]. rewrite app_nil_r, firstn_all2 by lia.
    change (zlen []) with 0. repeat split; try lia. exact Hv.
  - cbn [map Observe] in Ho. destruct (observe1 (st_stats st) (view t)) as [ss|] eqn:E1; [|discriminate]. cbn [bind] in Ho.
    cbn [visit]. unfold search_fn at 1. cbn [bind]. cbn [Observe]. rewrite E1. cbn [bind st_cat st_filter st_stats st_total st_match].
    assert (Hz : zlen (t :: l) = 1 + zlen l) by (unfold zlen; cbn [length]; lia).
    destruct (Z.leb_spec limit (zlen (st_cat st))) as [Hfull|Hroom].
    + destruct (IH (MkSt ss (st_total st + 1) (st_match st) (st_cat st) (st_filter st)) stats Hv Hk Ho) as (st' & E & H1 & H2 & H3 & H4 & H5).
      cbn [st_cat st_filter st_stats st_total st_match] in *. exists st'. split; [exact E|]. split; [exact H1|]. split; [lia|].
      split; [|split; assumption]. rewrite H3. unfold k, zlen in *. rewrite !firstn_app. replace (Z.to_nat limit - length (st_cat st))%nat with 0%nat by lia. reflexivity.
    + destruct (Allow Compile MatchString (st_filter st) (view t)) as [f' allowed] eqn:EA.
      assert (Hall : allowed = acc t) by (rewrite Hacc, <- (Hv (view t)), EA; reflexivity).
      assert (Hv' : same_verdict f' f).
      { intros tr. rewrite <- (Hv tr). pose proof (Allow_same_verdict (st_filter st) (view t) tr) as H. rewrite EA in H. exact H. }
      cbn [filter]. rewrite <- Hall. destruct allowed; cbn [negb].
      * rewrite snapshot_spec. cbn [bind].
        destruct (IH (MkSt ss (st_total st + 1) (st_match st + 1) (st_cat st ++ [shown depth (view t)]) f') stats Hv') as (st' & E & H1 & H2 & H3 & H4 & H5).
        { cbn [st_cat]. rewrite app_length. cbn [length]. unfold k, zlen in *. lia. }
        { exact Ho. }
        cbn [st_cat st_filter st_stats st_total st_match] in *. exists st'. split; [exact E|]. split; [exact H1|]. split; [lia|].
        split; [|split; [|exact H5]].
        -- rewrite H3. cbn [map]. rewrite <- app_assoc. reflexivity.
        -- rewrite H4. unfold zlen in *. rewrite app_length. cbn [length]. lia.
      * destruct (IH (MkSt ss (st_total st + 1) (st_match st) (st_cat st) f') stats Hv' Hk Ho) as (st' & E & H1 & H2 & H3 & H4 & H5).
        cbn [st_cat st_filter st_stats st_total st_match] in *. exists st'. split; [exact E|]. split; [exact H1|]. split; [lia|]. auto.
Qed.

Lemma Observe_app ss l l' : Observe ss (l ++ l') = (ss <- Observe ss l ;; Observe ss l').
Proof.
  revert ss; induction l as [|x l IH]; intros ss; [reflexivity|]. cbn [app Observe]. destruct (observe1 ss x); cbn [bind]; [apply IH|reflexivity].
Qed.

Definition selected (acc : T -> bool) (l : list T) : list StaticTrace := firstn k (map (fun t => shown depth (view t)) (filter acc l)).

Lemma categories_spec s cap g f acc names : CRep s cap g -> (forall t, acc t = snd (Allow Compile MatchString f (view t))) ->
  (forall n, In n names -> g n <> None) -> forall st traces stats,
  same_verdict (st_filter st) f ->
  Observe (st_stats st) (map view (flat_map (fun n => olist (g n)) names)) = Ok stats ->
  exists st', search_categories Compile MatchString view limit depth names s st traces =
      Ok (st', traces ++ flat_map (fun n => selected acc (olist (g n))) names) /\
    st_stats st' = stats /\ st_total st' = st_total st + zlen (flat_map (fun n => olist (g n)) names) /\
    st_match st' = st_match st + zlen (flat_map (fun n => selected acc (olist (g n))) names) /\
    same_verdict (st_filter st') f.
Proof.
  intros HC Hacc. induction names as [|n names IH]; intros Hn st traces stats Hv Ho.
  - cbn [search_categories flat_map]. exists st. rewrite app_nil_r. cbn in Ho. injection Ho as <-. change (zlen []) with 0. repeat split; try lia. exact Hv.
  - cbn [search_categories flat_map]. cbn [flat_map] in Ho. rewrite map_app, Observe_app in Ho.
    pose proof (Hn n (or_introl eq_refl)) as Hgn. destruct HC as (Hc1 & Hc2 & Hc3 & HC). pose proof (HC n) as HCn.
    destruct (map_get n (rbs_bufs s)) as [r|]; [|destruct (g n); [tauto|congruence]].
    destruct (g n) as [l|]; [|tauto]. destruct HCn as [HR _]. cbn [olist] in *.
    destruct (Observe (st_stats st) (map view l)) as [ss1|] eqn:E1; [|discriminate]. cbn [bind] in Ho.
    rewrite (Walk_spec zero _ r l _ HR).
    destruct (search_visit f acc l Hacc (MkSt (st_stats st) (st_total st) (st_match st) [] (st_filter st)) ss1 Hv) as (st1 & Ev & H1 & H2 & H3 & H4 & H5).
    { cbn [st_cat length]. lia. }
    { exact E1. }
    rewrite Ev. cbn [bind]. cbn [st_cat st_filter st_stats st_total st_match app] in *.
    destruct (IH ltac:(intros m Hm; apply Hn; right; exact Hm) st1 (traces ++ st_cat st1) stats H5) as (st2 & E2 & G1 & G2 & G3 & G4).
    { rewrite H1. exact Ho. }
    exists st2. rewrite E2. fold k in H3. change (firstn k (map (fun t => shown depth (view t)) (filter acc l))) with (selected acc l) in H3.
    rewrite H3, <- app_assoc. split; [reflexivity|]. split; [exact G1|]. unfold zlen in *. rewrite !app_length. rewrite H3 in H4. cbn [length] in *.
    split; [lia|]. split; [lia|exact G4].
Qed.
End OverStorage.

Lemma limit_traces_spec limit trs : 0 <= limit -> limit_traces limit trs = firstn (Z.to_nat limit) trs.
Proof.
  intros H. unfold limit_traces. destruct (Z.ltb_spec limit (zlen trs)); [reflexivity|]. rewrite firstn_all2; [reflexivity|]. unfold zlen in *. lia.
Qed.
Lemma effective_limit_bounds l : 1 <= effective_limit l <= 250.
Proof. unfold effective_limit. destruct (Z.leb_spec l 0); lia. Qed.

Lemma categories_In {T} (ops : list (coll_op T)) c : In c (categories ops) <-> mentioned c ops.
Proof.
  unfold categories, mentioned. rewrite nodup_In, in_flat_map. split.
  - intros (o & Ho & Hc). destruct o as [c' t|]; [|destruct Hc]. destruct Hc as [<-|[]]. eauto.
  - intros (t & Ht). exists (CNew c t). split; [exact Ht|left; reflexivity].
Qed.
Lemma categories_NoDup {T} (ops : list (coll_op T)) : NoDup (categories ops).
Proof. apply NoDup_nodup. Qed.

(** All of it together. *)
Lemma Search_spec {T} (zero : T) (view : T -> StaticTrace) sort order source ops s freed (req : SearchRequest RE) (acc : T -> bool) :
  Forall valid_op ops -> coll_run zero new_collector_storage ops = Ok (s, freed) -> is_order order ->
  (forall t, acc t = snd (Allow Compile MatchString (req_Filter req) (view t))) ->
  exists req' resp names stats,
    Search Compile MatchString view sort order source s req = Ok (req', resp) /\
    Permutation names (categories ops) /\
    Observe (NewSearchStats (norm_bucketing (req_Bucketing req))) (map view (flat_map (fun c => held c ops) names)) = Ok stats /\
    resp_Stats resp = Some stats /\
    resp_TotalCount resp = zlen (flat_map (fun c => held c ops) names) /\
    resp_MatchCount resp = zlen (flat_map (fun c => selected view (effective_limit (req_Limit req)) (req_StackDepth req) acc (held c ops)) names) /\
    resp_Traces resp = firstn (Z.to_nat (effective_limit (req_Limit req)))
       (sort (flat_map (fun c => selected view (effective_limit (req_Limit req)) (req_StackDepth req) acc (held c ops)) names)) /\
    resp_Sources resp = [source] /\
    resp_Problems resp = map (fun err => "filter: " ++ err)%string (snd (FilterNormalize Compile (req_Filter req))) /\
    same_verdict (req_Filter req') (req_Filter req) /\
    req_Bucketing req' = norm_bucketing (req_Bucketing req) /\ req_Limit req' = effective_limit (req_Limit req) /\
    req_StackDepth req' = req_StackDepth req.
Proof.
  intros Hops Hrun Hord Hacc. destruct (coll_run_spec zero ops _ [] (CRep_init) Hops) as (s' & freed' & E & HC).
  rewrite Hrun in E. injection E as <- <-. cbn [app] in HC.
  set (names := order (map_keys (rbs_bufs s))).
  pose proof HC as (_ & _ & Hnd & HCc).
  assert (Hmem : forall n, In n (map_keys (rbs_bufs s)) <-> fspec ops n <> None).
  { intros n. rewrite <- map_get_in. specialize (HCc n). destruct (map_get n (rbs_bufs s)), (fspec ops n); split; try tauto; congruence. }
  assert (Hnames : Permutation names (categories ops)).
  { unfold names. rewrite (Hord _). apply NoDup_Permutation; [exact Hnd|apply categories_NoDup|].
    intros n. rewrite Hmem, fspec_mentioned, categories_In. reflexivity. }
  pose proof (effective_limit_bounds (req_Limit req)) as Hlim.
  assert (Hin : forall n, In n names -> fspec ops n <> None).
  { intros n Hn. apply Hmem. eapply Permutation_in; [apply Hord|exact Hn]. }
  assert (Hfl : forall {B} (h : list T -> list B), flat_map (fun n => h (olist (fspec ops n))) names = flat_map (fun c => h (held c ops)) names).
  { intros B h. apply flat_map_ext. intros n. rewrite olist_fspec. reflexivity. }
  destruct (observe_new (norm_bucketing (req_Bucketing req)) (map view (flat_map (fun c => held c ops) names))) as (stats & Eo & _ & _).
  destruct (categories_spec zero view (effective_limit (req_Limit req)) (req_StackDepth req) s _ _ (req_Filter req) acc names HC Hacc Hin
             (MkSt (NewSearchStats (norm_bucketing (req_Bucketing req))) 0 0 [] (fst (FilterNormalize Compile (req_Filter req)))) [] stats)
    as (st' & Es & H1 & H2 & H3 & H4).
  { cbn [st_filter]. apply Normalize_same_verdict. }
  { cbn [st_stats]. rewrite (Hfl _ (fun l => l)). exact Eo. }
  unfold Search. rewrite Normalize_spec. cbn [bind req_Bucketing req_Filter req_Limit req_StackDepth]. unfold GetAll. fold names. rewrite Es. cbn [bind app].
  rewrite limit_traces_spec by lia.
  eexists _, _, names, stats. split; [reflexivity|]. cbn [resp_Stats resp_TotalCount resp_MatchCount resp_Traces resp_Sources resp_Problems req_Filter req_Bucketing req_Limit req_StackDepth].
  cbn [st_total st_match] in *.
  split; [exact Hnames|]. split; [exact Eo|]. split; [congruence|].
  rewrite (Hfl _ (fun l => l)) in H2. rewrite (Hfl _ (selected view (effective_limit (req_Limit req)) (req_StackDepth req) acc)) in *.
  repeat split; try lia; try exact H4; try reflexivity.
Qed.
End WithRE.

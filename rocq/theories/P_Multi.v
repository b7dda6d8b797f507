(** C29-C31: multi-searches, for every arrival order, map iteration order and sort. *)
From Verif Require Import Go L_List M_Strings M_Types M_Frame M_Filter S_Filter L_Filter S_RingBuf M_RingBuf L_RingBuf
  S_Collector M_RingBufs L_RingBufs M_Stats S_Stats S_StatsView L_Stats S_Order L_Order M_Search S_Search L_Search S_Multi P_Filter P_Stats P_Search.
From Coq Require Import Sorted ZifyBool.
Open Scope string_scope.
Open Scope list_scope.
Open Scope Z_scope.

Lemma describes_represents b ss trs : describes b ss trs <-> represents b ss trs.
Proof.
  unfold describes, represents. split; intros (H1 & H2 & H3); (split; [exact H1|]; split; [exact H2|]; intros c; specialize (H3 c);
    destruct (map_get c (Categories ss)) as [cs|]; [|exact H3]; destruct H3 as (A & B & C); split; [exact A|split; [exact B|apply counts_exactly_spec; exact C]]).
Qed.

(** *** Gathering *)
Definition tuple_problems (t : tuple) : list string :=
  match t_res t, t_err t with
  | Some r, None => resp_Problems r
  | Some r, Some err => resp_Problems r ++ ["got valid search response with error (" ++ err ++ ") -- weird"]%string
  | None, Some err => [err]
  | None, None => [t_id t ++ ": weird: empty response"]%string
  end.
Definition tuple_answers (ts : list tuple) : list SearchResponse :=
  flat_map (fun t => match t_res t with Some r => [r] | None => [] end) ts.

Lemma gather_ok orders ts : forall n agg res, gather orders n agg ts = Ok res ->
  resp_Sources res = resp_Sources agg ++ flat_map resp_Sources (tuple_answers ts) /\
  resp_TotalCount res = resp_TotalCount agg + sum (map resp_TotalCount (tuple_answers ts)) /\
  resp_MatchCount res = resp_MatchCount agg + sum (map resp_MatchCount (tuple_answers ts)) /\
  resp_Traces res = resp_Traces agg ++ flat_map resp_Traces (tuple_answers ts) /\
  resp_Problems res = resp_Problems agg ++ flat_map tuple_problems ts.
Proof.
  induction ts as [|t ts IH]; intros n agg res H; cbn [gather] in H.
  - injection H as <-. cbn. rewrite !app_nil_r. repeat split; lia.
  - destruct (gather1 (orders n) agg t) as [agg'|] eqn:E; [|discriminate]. cbn [bind] in H.
    destruct (IH _ _ _ H) as (H1 & H2 & H3 & H4 & H5). unfold gather1 in E. unfold tuple_answers in *. cbn [flat_map].
    unfold tuple_problems at 1. destruct (t_res t) as [r|].
    + destruct (resp_Stats agg) as [ss|]; [|discriminate]. destruct (ss_Merge (orders n) ss (resp_Stats r)) as [ss'|]; [|discriminate].
      cbn [bind] in E. injection E as <-. cbn in H1, H2, H3, H4, H5. cbn [app flat_map map]. rewrite H1, H2, H3, H4, H5, <- !app_assoc.
      assert (Hs : forall x l, sum (x :: l) = x + sum l) by reflexivity. rewrite !Hs.
      repeat split; try lia. destruct (t_err t); rewrite <- ?app_assoc, ?app_nil_l; reflexivity.
    + destruct (t_err t) as [err|]; injection E as <-; cbn in H1, H2, H3, H4, H5; rewrite H1, H2, H3, H4, H5; cbn [app]; rewrite <- ?app_assoc; repeat split.
Qed.

(** Every answer's statistics are absent or describe some traces under the bucketing [b]. *)
Definition stats_of (b : list Z) (r : SearchResponse) (trs : list StaticTrace) : Prop :=
  match resp_Stats r with
  | None => trs = []
  | Some ss => describes b ss trs
  end.

Lemma gather_stats orders b ts : b <> [] -> (forall n, is_order (orders n)) -> forall trss, Forall2 (stats_of b) (tuple_answers ts) trss ->
  forall n agg ss trs, resp_Stats agg = Some ss -> represents b ss trs ->
  exists res ss', gather orders n agg ts = Ok res /\ resp_Stats res = Some ss' /\ represents b ss' (trs ++ concat trss).
Proof.
  intros Hb Ho. induction ts as [|t ts IH]; intros trss HF n agg ss trs Ha Hr.
  - inversion HF; subst. cbn. rewrite app_nil_r. eauto.
  - unfold tuple_answers in *. cbn [flat_map gather] in *. unfold gather1. destruct (t_res t) as [r|].
    + cbn [app] in HF. inversion HF as [|? x ? trss' Hx HF']; subst. rewrite Ha. unfold stats_of in Hx.
      assert (HM : exists ss', ss_Merge (orders n) ss (resp_Stats r) = Ok ss' /\ represents b ss' (trs ++ x)).
      { destruct (resp_Stats r) as [o|].
        - apply ss_Merge_spec; [apply Ho|exact Hb|exact Hr|apply describes_represents; exact Hx].
        - subst x. rewrite app_nil_r. exists ss. split; [reflexivity|exact Hr]. }
      destruct HM as (ss' & EM & Hr'). rewrite EM. cbn [bind concat]. rewrite (app_assoc trs x).
      eapply IH; [exact HF'|reflexivity|exact Hr'].
    + destruct (t_err t); cbn [bind]; (eapply IH; [exact HF|exact Ha|exact Hr]).
Qed.

Lemma number_answers i outs : tuple_answers (number i outs) = answers outs.
Proof.
  revert i. unfold tuple_answers, answers. induction outs as [|[r e] outs IH]; intros i; [reflexivity|]. cbn [number flat_map t_res fst]. rewrite IH. reflexivity.
Qed.
Lemma number_problems i outs : flat_map tuple_problems (number i outs) = all_problems (i + 1) outs.
Proof.
  revert i. induction outs as [|[r e] outs IH]; intros i; [reflexivity|]. cbn [number flat_map all_problems]. rewrite IH. f_equal.
Qed.
Lemma flat_map_perm' {A B} (f : A -> list B) l l' : Permutation l l' -> Permutation (flat_map f l) (flat_map f l').
Proof. apply flat_map_perm. Qed.

(** *** Sources *)
Lemma fold_keys (l : list string) : forall m, NoDup (map_keys m) ->
  NoDup (map_keys (fold_left (fun m s => map_set s tt m) l m)) /\
  forall x, In x (map_keys (fold_left (fun m s => map_set s tt m) l m)) <-> In x l \/ In x (map_keys m).
Proof.
  induction l as [|s l IH]; intros m Hm; cbn [fold_left].
  - split; [exact Hm|]. intros x. cbn. tauto.
  - destruct (IH (map_set s tt m)) as [H1 H2]; [apply map_keys_set_NoDup; exact Hm|]. split; [exact H1|]. intros x. rewrite H2, <- !map_get_in, map_get_set.
    destruct (String.eqb_spec x s) as [->|Hn]; cbn; intuition congruence.
Qed.
Lemma str_strict_weak : strict_weak String.ltb.
Proof.
  split; [apply str_lt_irrefl|]. split; [apply str_lt_trans|]. intros x y z H.
  destruct (str_lt_total x y) as [E|[->|E]]; [left; exact E|right; exact H|]. right. eapply str_lt_trans; eassumption.
Qed.
Lemma fix_sources_spec order l : is_order order -> alphabetical (fix_sources order l) /\ forall x, In x (fix_sources order l) <-> In x l.
Proof.
  intros Ho. unfold fix_sources. set (m := fold_left (fun m s => map_set s tt m) l []).
  destruct (fold_keys l [] (NoDup_nil _)) as [HN HI]. fold m in HN, HI.
  assert (Hp : Permutation (sort_strings (order (map_keys m))) (map_keys m)) by (etransitivity; [apply isort_perm|apply Ho]).
  pose proof (isort_in_order String.ltb (order (map_keys m)) str_strict_weak) as Hs. change (isort String.ltb) with sort_strings in Hs.
  split.
  - assert (Hnd : NoDup (sort_strings (order (map_keys m)))) by (eapply Permutation_NoDup; [symmetry; exact Hp|exact HN]).
    revert Hs Hnd. generalize (sort_strings (order (map_keys m))) as r. intros r Hs Hnd i j x y Hij Hi Hj.
    revert i j Hij Hi Hj. induction r as [|a r IH]; intros i j Hij Hi Hj; [destruct i; discriminate|].
    inversion Hs as [|? ? Hs' Hf]; inversion Hnd as [|? ? Hni Hnd']; subst. destruct j as [|j]; [lia|]. cbn in Hj.
    destruct i as [|i]; [|cbn in Hi; apply (IH Hs' Hnd' i j); auto; lia].
    cbn in Hi. injection Hi as ->. apply nth_error_In in Hj. rewrite Forall_forall in Hf. specialize (Hf y Hj).
    destruct (str_lt_total x y) as [E|[E|E]]; [exact E|subst; contradiction|congruence].
  - intros x. split; intros H.
    + apply (Permutation_in _ Hp) in H. apply HI in H as [H|[]]. exact H.
    + eapply Permutation_in; [symmetry; exact Hp|]. apply HI. left. exact H.
Qed.
Lemma alphabetical_unique l : forall l', alphabetical l -> alphabetical l' -> (forall x, In x l <-> In x l') -> l = l'.
Proof.
  assert (Hnd : forall l, alphabetical l -> NoDup l).
  { intros m H. apply NoDup_nth_error. intros i j Hi E. destruct (Nat.lt_trichotomy i j) as [L|[L|L]]; [|exact L|].
    - destruct (nth_error m i) as [x|] eqn:Ei; [|apply nth_error_Some in Hi; congruence]. specialize (H i j x x L Ei (eq_sym E)). rewrite str_lt_irrefl in H. discriminate.
    - destruct (nth_error m i) as [x|] eqn:Ei; [|apply nth_error_Some in Hi; congruence]. specialize (H j i x x L (eq_sym E) Ei). rewrite str_lt_irrefl in H. discriminate. }
  assert (Hio : forall l, alphabetical l -> in_order String.ltb l).
  { intros m. induction m as [|a m IH]; intros H; constructor.
    - apply IH. intros i j x y Hij Hi Hj. apply (H (S i) (S j)); [lia|exact Hi|exact Hj].
    - apply Forall_forall. intros y Hy. apply In_nth_error in Hy as (j & Hj). apply str_lt_asym. apply (H 0%nat (S j)); [lia|reflexivity|exact Hj]. }
  intros l' H H' HI. apply (in_order_unique String.ltb); auto using str_strict_weak.
  - apply NoDup_Permutation; auto.
  - intros x y _ _ E1 E2. destruct (str_lt_total x y) as [E|[E|E]]; congruence.
Qed.

(** ** C29 *)
Section Multi.
Context {RE : Type}.
Variable Compile : string -> RE + string.

Theorem C29_multi_search_merges_everything :
  forall sort orders outcomes arrivals (req req' : SearchRequest RE) resp,
    is_sort Less sort -> (forall n, is_order (orders n)) -> Permutation arrivals (number 0 outcomes) ->
    MultiSearch Compile sort orders arrivals req = Ok (req', resp) ->
    resp_TotalCount resp = sum (map resp_TotalCount (answers outcomes)) /\
    resp_MatchCount resp = sum (map resp_MatchCount (answers outcomes)) /\
    highest newer (Z.to_nat (effective_limit (req_Limit req))) (flat_map resp_Traces (answers outcomes)) (resp_Traces resp) /\
    alphabetical (resp_Sources resp) /\
    (forall src, In src (resp_Sources resp) <-> exists r, In r (answers outcomes) /\ In src (resp_Sources r)) /\
    exists own, Normalize Compile req = Ok (req', own) /\ Permutation (resp_Problems resp) (own ++ all_problems 1 outcomes).
Proof.
  intros sort orders outs arr req req' resp Hs Ho Hp H. unfold MultiSearch in H. rewrite Normalize_spec in H.
  cbn [bind req_Bucketing req_Limit] in H.
  set (errs := map _ _) in H. set (agg0 := MkResp [] 0 0 [] _ errs) in H.
  destruct (gather orders 1 agg0 arr) as [res|] eqn:E; [|discriminate]. cbn [bind] in H. injection H as <- <-.
  destruct (gather_ok orders arr 1 agg0 res E) as (H1 & H2 & H3 & H4 & H5). cbn [resp_Sources resp_TotalCount resp_MatchCount resp_Traces resp_Problems agg0] in *.
  assert (Ha : Permutation (tuple_answers arr) (answers outs)).
  { rewrite <- (number_answers 0 outs). apply flat_map_perm'. exact Hp. }
  split; [rewrite H2; apply sum_perm, Permutation_map; exact Ha|]. split; [rewrite H3; apply sum_perm, Permutation_map; exact Ha|].
  split. { rewrite limit_traces_spec by (pose proof (effective_limit_bounds (req_Limit req)); lia).
    eapply highest_perm; [|apply highest_sort, is_sort_newer; exact Hs]. rewrite H4. cbn [app]. apply flat_map_perm'. exact Ha. }
  destruct (fix_sources_spec (orders 0%nat) (resp_Sources res) (Ho 0%nat)) as [F1 F2]. split; [exact F1|].
  split. { intros src. rewrite F2, H1. cbn [app]. rewrite in_flat_map. split; intros (r & Hr & Hi); exists r; (split; [|exact Hi]);
    eapply Permutation_in; [exact Ha|exact Hr|symmetry; exact Ha|exact Hr]. }
  exists errs. split; [rewrite Normalize_spec; reflexivity|]. rewrite H5. cbn [app]. apply Permutation_app_head.
  change 1 with (0 + 1). rewrite <- (number_problems 0 outs). apply flat_map_perm'. exact Hp.
Qed.

(** It answers whenever the statistics it gets are statistics of some traces (under the
    normalized request's buckets) or absent, and then describes all of those. *)
Theorem C29_multi_search_answers :
  forall sort orders outcomes arrivals (req req' : SearchRequest RE) own trss,
    (forall n, is_order (orders n)) -> Permutation arrivals (number 0 outcomes) ->
    Normalize Compile req = Ok (req', own) ->
    Forall2 (stats_of (req_Bucketing req')) (answers outcomes) trss ->
    exists resp ss, MultiSearch Compile sort orders arrivals req = Ok (req', resp) /\
      resp_Stats resp = Some ss /\ describes (req_Bucketing req') ss (concat trss).
Proof.
  intros sort orders outs arr req req' own trss Ho Hp HN HF. unfold MultiSearch. rewrite HN. cbn [bind].
  rewrite Normalize_spec in HN. injection HN as <- <-. cbn [req_Bucketing req_Limit] in *.
  destruct (norm_cases (req_Bucketing req)) as (_ & (rest & Eb) & _).
  assert (Ha : Permutation (answers outs) (tuple_answers arr)).
  { rewrite <- (number_answers 0 outs). apply flat_map_perm'. symmetry. exact Hp. }
  destruct (Permutation_Forall2 Ha HF) as (trss' & Hp' & HF').
  set (errs := map _ _).
  destruct (gather_stats orders (norm_bucketing (req_Bucketing req)) arr ltac:(rewrite Eb; discriminate) Ho trss' HF' 1%nat
    (MkResp [] 0 0 [] (Some (NewSearchStats (norm_bucketing (req_Bucketing req)))) errs) _ [] eq_refl (represents_new _)) as (res & ss & E & Es & Hr).
  rewrite E. cbn [bind]. eexists _, ss. split; [reflexivity|]. split; [exact Es|]. apply describes_represents.
  eapply represents_perm; [|exact Hr]. cbn [app]. clear -Hp'. induction Hp'; cbn [concat]; [constructor|apply Permutation_app_head; assumption| |etransitivity; eassumption].
  rewrite !app_assoc. apply Permutation_app_tail, Permutation_app_comm.
Qed.

(** Arrival order, map order and sorting algorithm do not matter. *)
Theorem C29_arrival_order_is_irrelevant :
  forall sort sort' orders orders' outcomes arrivals arrivals' (req r1 r2 : SearchRequest RE) resp1 resp2,
    is_sort Less sort -> is_sort Less sort' -> (forall n, is_order (orders n)) -> (forall n, is_order (orders' n)) ->
    Permutation arrivals (number 0 outcomes) -> Permutation arrivals' (number 0 outcomes) ->
    distinct_keys (flat_map resp_Traces (answers outcomes)) ->
    MultiSearch Compile sort orders arrivals req = Ok (r1, resp1) ->
    MultiSearch Compile sort' orders' arrivals' req = Ok (r2, resp2) ->
    resp_Traces resp1 = resp_Traces resp2 /\ resp_TotalCount resp1 = resp_TotalCount resp2 /\
    resp_MatchCount resp1 = resp_MatchCount resp2 /\ resp_Sources resp1 = resp_Sources resp2 /\
    Permutation (resp_Problems resp1) (resp_Problems resp2) /\
    (forall own trss, Normalize Compile req = Ok (r1, own) -> Forall2 (stats_of (req_Bucketing r1)) (answers outcomes) trss ->
       exists s1 s2, resp_Stats resp1 = Some s1 /\ resp_Stats resp2 = Some s2 /\ same_counts s1 s2).
Proof.
  intros sort sort' orders orders' outs arr arr' req r1 r2 resp1 resp2 Hs Hs' Ho Ho' Hp Hp' Hk E1 E2.
  destruct (C29_multi_search_merges_everything sort orders outs arr req r1 resp1 Hs Ho Hp E1) as (T1 & M1 & H1 & A1 & S1 & own1 & N1 & P1).
  destruct (C29_multi_search_merges_everything sort' orders' outs arr' req r2 resp2 Hs' Ho' Hp' E2) as (T2 & M2 & H2 & A2 & S2 & own2 & N2 & P2).
  rewrite N1 in N2. injection N2 as <- <-.
  split. { eapply highest_unique; [apply newer_strict_weak|exact H1|exact H2|]. intros x y Hx Hy K1 K2.
    destruct (newer_incomparable x y K1 K2) as [Q1 Q2]. eapply distinct_keys_inj; eassumption. }
  split; [congruence|]. split; [congruence|].
  split. { apply alphabetical_unique; auto. intros x. rewrite S1, S2. reflexivity. }
  split; [rewrite P1, P2; reflexivity|]. intros own trss N HF.
  destruct (C29_multi_search_answers sort orders outs arr req r1 own1 trss Ho Hp N1 HF) as (x & s1 & Ex & Es1 & D1). rewrite E1 in Ex. injection Ex as <-.
  destruct (C29_multi_search_answers sort' orders' outs arr' req r1 own1 trss Ho' Hp' N1 HF) as (y & s2 & Ey & Es2 & D2). rewrite E2 in Ey. injection Ey as <-.
  exists s1, s2. split; [exact Es1|]. split; [exact Es2|]. eapply represents_same; [reflexivity|apply describes_represents; exact D1|apply describes_represents; exact D2].
Qed.

(** ** C30, C31: searchers that are collectors *)
Variable MatchString : RE -> string -> bool.
Context {T : Type}.
Variable zero : T.
Variable view : T -> StaticTrace.

(** A collector with its history, and what it answers to [req] under some map order and
    sorting algorithm. *)
Definition collector_answers (req : SearchRequest RE) (ops : list (coll_op T)) (o : outcome) : Prop :=
  exists s freed source sort order req' resp,
    Forall valid_op ops /\ coll_run zero new_collector_storage ops = Ok (s, freed) /\ is_sort Less sort /\ is_order order /\
    Search Compile MatchString view sort order source s req = Ok (req', resp) /\ o = (Some resp, None).

Lemma collector_stats req ops o : collector_answers req ops o ->
  exists resp, o = (Some resp, None) /\ stats_of (norm_bucketing (req_Bucketing req)) resp (map view (all_held ops)) /\
    resp_TotalCount resp = zlen (all_held ops).
Proof.
  intros (s & freed & source & sort & order & req' & resp & Hops & Hrun & Hs & Ho & E & ->). exists resp. split; [reflexivity|].
  destruct (Search_spec Compile MatchString zero view sort order source ops s freed req _ Hops Hrun Ho (fun t => eq_refl)) as
    (req1 & resp1 & names & stats & E1 & Hn & Hobs & Hst & Htot & _).
  rewrite E in E1. injection E1 as <- <-. unfold stats_of. rewrite Hst. split.
  - apply describes_represents. destruct (observe_new (norm_bucketing (req_Bucketing req)) (map view (flat_map (fun c => held c ops) names))) as (st & E' & Hr & _).
    rewrite Hobs in E'. injection E' as <-. eapply represents_perm; [|exact Hr]. apply Permutation_map, all_held_perm. exact Hn.
  - rewrite Htot. unfold zlen. rewrite (Permutation_length (all_held_perm ops names Hn)). reflexivity.
Qed.

Lemma norm_norm req : (forall b, In b (req_Bucketing req) -> 0 <= b) ->
  norm_bucketing (norm_bucketing (@req_Bucketing RE req)) = norm_bucketing (req_Bucketing req).
Proof. intros H. destruct (norm_cases (req_Bucketing req)) as (_ & (rest & E) & Ha). apply (norm_sorted _ rest); auto. Qed.

(** C31.  With no negative bucket a multi-search over collectors always answers, and its
    statistics and total count cover everything the collectors hold. *)
Theorem C31_multi_search_of_collectors_answers :
  forall sort orders opss outcomes arrivals (req req' : SearchRequest RE) own,
    (forall n, is_order (orders n)) -> (forall b, In b (req_Bucketing req) -> 0 <= b) ->
    Normalize Compile req = Ok (req', own) ->
    Forall2 (collector_answers req') opss outcomes -> Permutation arrivals (number 0 outcomes) ->
    exists resp ss, MultiSearch Compile sort orders arrivals req = Ok (req', resp) /\
      resp_Stats resp = Some ss /\ describes (req_Bucketing req') ss (map view (flat_map all_held opss)).
Proof.
  intros sort orders opss outs arr req req' own Ho Hnn HN HF Hp.
  assert (Hb : req_Bucketing req' = norm_bucketing (req_Bucketing req)) by (rewrite Normalize_spec in HN; injection HN as <- _; reflexivity).
  assert (Hst : Forall2 (stats_of (req_Bucketing req')) (answers outs) (map (fun ops => map view (all_held ops)) opss)).
  { clear -HF Hb Hnn. induction HF as [|ops o opss outs H HF IH]; [constructor|].
    destruct (collector_stats _ _ _ H) as (resp & -> & Hs & _). cbn. constructor; [|exact IH].
    rewrite Hb, norm_norm in Hs by exact Hnn. rewrite Hb. exact Hs. }
  destruct (C29_multi_search_answers sort orders outs arr req req' own _ Ho Hp HN Hst) as (resp & ss & E & Es & D).
  exists resp, ss. split; [exact E|]. split; [exact Es|].
  replace (map view (flat_map all_held opss)) with (concat (map (fun ops : list (coll_op T) => map view (all_held ops)) opss)); [exact D|].
  clear. induction opss as [|a l IH]; [reflexivity|]. cbn [map concat flat_map]. rewrite map_app, IH. reflexivity.
Qed.

(** Finding: with a negative bucket every multi-search of at least one collector panics. *)
Theorem C31_negative_bucket_refuted :
  forall sort orders opss outcomes arrivals (req req' : SearchRequest RE) own,
    (forall n, is_order (orders n)) -> (exists b, In b (req_Bucketing req) /\ b < 0) ->
    Normalize Compile req = Ok (req', own) ->
    opss <> [] -> Forall2 (collector_answers req') opss outcomes -> Permutation arrivals (number 0 outcomes) ->
    MultiSearch Compile sort orders arrivals req = Panic.
Proof.
  intros sort orders opss outs arr req req' own Ho (b & Hin & Hneg) HN Hne HF Hp. unfold MultiSearch. rewrite HN. cbn [bind].
  assert (Hb : req_Bucketing req' = norm_bucketing (req_Bucketing req)) by (rewrite Normalize_spec in HN; injection HN as <- _; reflexivity).
  assert (Hgrow : forall l, In b l -> length (norm_bucketing l) = S (length l) /\ In b (norm_bucketing l)).
  { clear -Hneg. intros l Hl. unfold norm_bucketing. fold (asked l). assert (asked l = l) as -> by (destruct l; [destruct Hl|reflexivity]).
    pose proof (sort_durations_perm l) as Hp. pose proof (isort_in_order Z.ltb l zltb_strict_weak) as Hs. fold sort_durations in Hs. change (isort Z.ltb l) with (sort_durations l) in Hs.
    assert (Hi : In b (sort_durations l)) by (eapply Permutation_in; [symmetry; exact Hp|exact Hl]).
    apply Permutation_length in Hp. destruct (sort_durations l) as [|x m]; [destruct Hi|]. cbn zeta.
    assert (Hx : x < 0). { destruct Hi as [->|Hi]; [exact Hneg|]. inversion Hs as [|? ? _ Hf]; subst. rewrite Forall_forall in Hf. specialize (Hf b Hi). lia. }
    destruct (Z.eqb_spec x 0); [lia|]. cbn in Hp |- *. split; [lia|right; exact Hi]. }
  destruct (Hgrow _ Hin) as [L1 I1]. destruct (Hgrow _ I1) as [L2 _].
  assert (Hall : forall t, In t arr -> exists r ss, t_res t = Some r /\ resp_Stats r = Some ss /\ length (Bucketing ss) = S (length (req_Bucketing req'))).
  { intros t Ht. apply (Permutation_in _ Hp) in Ht. clear -HF Ht Hb L2. revert Ht. generalize 0.
    induction HF as [|ops o opss outs H HF IH]; intros i Ht; [destruct Ht|]. destruct (collector_stats _ _ _ H) as (resp & -> & Hs & _).
    cbn [number] in Ht. destruct Ht as [<-|Ht]; [|eapply IH; exact Ht]. exists resp. unfold stats_of in Hs.
    assert (Hsome : exists ss, resp_Stats resp = Some ss).
    { destruct H as (s & freed & source & sort & order & r' & resp' & Hops & Hrun & _ & Ho & E & Eo). injection Eo as <-.
      destruct (Search_spec Compile MatchString zero view sort order source ops s freed req' _ Hops Hrun Ho (fun t => eq_refl)) as
        (req1 & resp1 & names & stats & E1 & _ & _ & Hst & _). rewrite E in E1. injection E1 as <- <-. eauto. }
    destruct Hsome as (ss & Es). rewrite Es in Hs. exists ss. split; [reflexivity|]. split; [exact Es|]. destruct Hs as (HB & _). rewrite HB, Hb. exact L2. }
  destruct arr as [|t arr].
  { exfalso. apply Permutation_nil in Hp. inversion HF; subst; [contradiction|]. destruct y; discriminate. }
  destruct (Hall t (or_introl eq_refl)) as (r & ss & Er & Es & El). cbn [gather]. unfold gather1. rewrite Er. cbn [resp_Stats]. rewrite Es.
  rewrite C27_inconsistent_buckets_panic; [reflexivity| | |]; cbn [Bucketing NewSearchStats].
  - rewrite Hb. intros E. rewrite E in L1. discriminate.
  - intros E. rewrite E in El. discriminate.
  - rewrite El. lia.
Qed.

Lemma matching_flat_map depth acc (opss : list (list (coll_op T))) :
  matching view depth acc (flat_map all_held opss) = concat (map (fun ops => matching view depth acc (all_held ops)) opss).
Proof. induction opss as [|a l IH]; [reflexivity|]. cbn [flat_map map concat]. rewrite matching_app, IH. reflexivity. Qed.

(** C30.  Several collectors answer like one collector that holds all their traces. *)
Theorem C30_multi_equals_single :
  forall sort orders opss outcomes arrivals (req req' : SearchRequest RE) own ops s freed sort1 order1 source1 acc,
    is_sort Less sort -> (forall n, is_order (orders n)) -> (forall b, In b (req_Bucketing req) -> 0 <= b) ->
    unused (req_Filter req) -> decides Compile MatchString (req_Filter req) acc ->
    Normalize Compile req = Ok (req', own) ->
    Forall2 (collector_answers req') opss outcomes -> Permutation arrivals (number 0 outcomes) ->
    Forall (added_in_order newer view) opss ->
    (* the one collector *)
    Forall valid_op ops -> coll_run zero new_collector_storage ops = Ok (s, freed) -> is_sort Less sort1 -> is_order order1 ->
    added_in_order newer view ops ->
    Permutation (all_held ops) (flat_map all_held opss) -> distinct_keys (map view (all_held ops)) ->
    exists multi r single sm ss,
      MultiSearch Compile sort orders arrivals req = Ok (req', multi) /\
      Search Compile MatchString view sort1 order1 source1 s req = Ok (r, single) /\
      resp_Traces multi = resp_Traces single /\ resp_TotalCount multi = resp_TotalCount single /\
      resp_Stats multi = Some sm /\ resp_Stats single = Some ss /\ same_counts sm ss.
Proof.
  intros sort orders opss outs arr req req' own ops s freed sort1 order1 source1 acc Hs Ho Hnn Hu Hd HN HF Hp Hins Hops Hrun Hs1 Ho1 Hin Hperm Hk.
  destruct (C31_multi_search_of_collectors_answers sort orders opss outs arr req req' own Ho Hnn HN HF Hp) as (multi & sm & EM & Esm & Dm).
  destruct (C29_multi_search_merges_everything sort orders outs arr req req' multi Hs Ho Hp EM) as (HT & _ & HH & _).
  destruct (C23_search_returns_newest_by_key Compile MatchString T zero view sort1 order1 source1 ops s freed req acc Hops Hrun Ho1 Hs1 Hu Hd Hin) as (r & single & ES & H1).
  assert (HE : req' = MkReq (norm_bucketing (req_Bucketing req)) (fst (FilterNormalize Compile (req_Filter req))) (effective_limit (req_Limit req)) (req_StackDepth req))
    by (rewrite Normalize_spec in HN; injection HN as <- _; reflexivity).
  assert (Hb : req_Bucketing req' = norm_bucketing (req_Bucketing req)) by (rewrite HE; reflexivity).
  destruct (collector_stats req ops (Some single, None)) as (single' & Esi & Dsi & Tsi).
  { exists s, freed, source1, sort1, order1, r, single. repeat split; auto; try (apply Hs1); apply Ho1. }
  injection Esi as <-. unfold stats_of in Dsi.
  assert (Hsome : exists ss, resp_Stats single = Some ss).
  { destruct (Search_spec Compile MatchString zero view sort1 order1 source1 ops s freed req _ Hops Hrun Ho1 (fun t => eq_refl)) as
        (req1 & resp1 & names & stats & E1 & _ & _ & Hst & _). rewrite ES in E1. injection E1 as <- <-. eauto. }
  destruct Hsome as (ss & Ess). rewrite Ess in Dsi.
  exists multi, r, single, sm, ss. split; [exact EM|]. split; [exact ES|].
  split; [|split; [|split; [exact Esm|split; [exact Ess|]]]].
  - eapply highest_unique; [apply newer_strict_weak| |exact H1|].
    + eapply highest_perm; [symmetry; apply matching_perm; exact Hperm|]. rewrite matching_flat_map.
      apply (highest_concat newer _ _ newer_strict_weak (map resp_Traces (answers outs))); [|rewrite <- flat_map_concat_map'; exact HH].
      clear -HF Hins HE Hu Hd. induction HF as [|o out opss outs H HF IH]; [constructor|]. inversion Hins as [|? ? Hi Hins']; subst.
      cbn [map]. destruct H as (s & freed & source & sort & order & r' & resp & Hops & Hrun & Hs & Ho & E & ->). unfold answers. cbn [flat_map fst app map].
      constructor; [|apply IH; exact Hins'].
      set (req1 := MkReq _ _ _ _) in *.
      destruct (search_newest Compile MatchString newer newer_strict_weak (fun x y H => H) (fun d x y => eq_refl) T zero view sort order source o s freed
                  req1 acc Hops Hrun Ho Hs) as (a & b & Eab & Hh); [|exact Hi|].
      { intros t. cbn [req1 req_Filter]. rewrite (Normalize_same_verdict Compile MatchString (req_Filter req) (view t)). apply decides_Allow; assumption. }
      rewrite E in Eab. injection Eab as <- <-. cbn [req1 req_Limit req_StackDepth] in Hh. rewrite effective_limit_idem in Hh. exact Hh.
    + intros x y Hx Hy N1 N2. destruct (newer_incomparable x y N1 N2) as [K1 K2]. unfold matching in Hx, Hy.
      apply in_map_iff in Hx as (tx & <- & Hx). apply in_map_iff in Hy as (ty & <- & Hy).
      apply filter_In in Hx as [Hx _]. apply filter_In in Hy as [Hy _]. cbn in K1, K2.
      f_equal. apply (distinct_keys_inj _ _ _ Hk); auto using in_map.
  - rewrite HT, Tsi. unfold zlen. rewrite (Permutation_length Hperm). clear -HF.
    induction HF as [|o out opss outs H HF IH]; [reflexivity|]. destruct (collector_stats _ _ _ H) as (resp & -> & _ & Ht).
    unfold answers in *. cbn [flat_map fst app map]. rewrite app_length, Nat2Z.inj_add, <- IH. unfold zlen in Ht. rewrite <- Ht. reflexivity.
  - eapply represents_same; [|apply describes_represents; exact Dm|apply describes_represents; rewrite Hb; exact Dsi]. symmetry. apply Permutation_map. exact Hperm.
Qed.
End Multi.
Print Assumptions C29_multi_search_merges_everything.
Print Assumptions C29_multi_search_answers.
Print Assumptions C29_arrival_order_is_irrelevant.
Print Assumptions C30_multi_equals_single.
Print Assumptions C31_multi_search_of_collectors_answers.
Print Assumptions C31_negative_bucket_refuted.

(** Examples: the stored values are the static traces themselves. *)
Definition demo_out (ops : list (coll_op StaticTrace)) (source : string) (req : SearchRequest string) : outcome :=
  match coll_run (demo_key 0 "") new_collector_storage ops with
  | Ok (s, _) =>
      match Search demo_compile demo_match (fun t => t) (isort Less) (fun l => l) source s req with
      | Ok (_, r) => (Some r, None)
      | Panic => (None, None)
      end
  | Panic => (None, None)
  end.
Lemma demo_out_answers ops source req : Forall valid_op ops ->
  collector_answers demo_compile demo_match (demo_key 0 "") (fun t => t) req ops (demo_out ops source req).
Proof.
  intros Hops. destruct (coll_run_spec (demo_key 0 "") ops _ [] CRep_init Hops) as (s & freed & E & _).
  destruct (Search_spec demo_compile demo_match (demo_key 0 "") (fun t => t) (isort Less) (fun l => l) source ops s freed req _ Hops E (fun l => Permutation_refl l) (fun t => eq_refl))
    as (req' & resp & _ & _ & ES & _).
  exists s, freed, source, (isort Less), (fun l => l), req', resp. unfold demo_out. rewrite E, ES.
  split; [exact Hops|]. split; [reflexivity|]. split; [exact (proj1 C25_instance)|]. split; [intros l; reflexivity|]. split; [first [exact ES|reflexivity]|reflexivity].
Qed.

Definition demo_ops1 := [demo_tr "a" "1" 1 "x"; demo_tr "b" "4" 4 "y"].
Definition demo_ops2 := [demo_tr "a" "2" 2 "x"; demo_tr "a" "3" 3 "x"].
Definition demo_all := [demo_tr "a" "1" 1 "x"; demo_tr "a" "2" 2 "x"; demo_tr "a" "3" 3 "x"; demo_tr "b" "4" 4 "y"].
Definition demo_req : SearchRequest string := MkReq [5] no_filter 2 0.
Definition demo_req' : SearchRequest string := MkReq [0; 5] no_filter 2 0.
Definition demo_outs : list outcome :=
  [demo_out demo_ops1 "one" demo_req'; (None, Some "boom"); demo_out demo_ops2 "two" demo_req'; (None, None)].

Example C29_instance :
  Normalize demo_compile demo_req = Ok (demo_req', []) /\
  Permutation (rev (number 0 demo_outs)) (number 0 demo_outs) /\ distinct_keys (flat_map resp_Traces (answers demo_outs)) /\
  exists resp, MultiSearch demo_compile (isort Less) (fun _ l => l) (rev (number 0 demo_outs)) demo_req = Ok (demo_req', resp) /\
    map TraceID (resp_Traces resp) = ["4"; "3"] /\ resp_Sources resp = ["one"; "two"] /\ resp_TotalCount resp = 4 /\
    resp_Problems resp = ["4: weird: empty response"; "boom"].
Proof.
  split; [vm_compute; reflexivity|]. split; [symmetry; apply Permutation_rev|].
  split; [unfold distinct_keys; vm_compute; repeat constructor; cbn; intuition congruence|].
  eexists. split; [vm_compute; reflexivity|]. repeat split.
Qed.

Example C30_C31_instance :
  let outs := [demo_out demo_ops1 "one" demo_req'; demo_out demo_ops2 "two" demo_req'] in
  Forall2 (collector_answers demo_compile demo_match (demo_key 0 "") (fun t => t) demo_req') [demo_ops1; demo_ops2] outs /\
  Forall (added_in_order newer (fun t => t)) [demo_ops1; demo_ops2] /\ added_in_order newer (fun t => t) demo_all /\
  Permutation (all_held demo_all) (flat_map all_held [demo_ops1; demo_ops2]) /\ distinct_keys (map (fun t => t) (all_held demo_all)).
Proof.
  assert (Hord : forall ops, (forall c, in_order newer (held c ops)) -> added_in_order newer (fun t => t) ops).
  { intros ops H c. rewrite map_id. apply H. }
  assert (Hc : forall ops : list (coll_op StaticTrace), (forall c, c = "a" \/ c = "b" -> in_order newer (held c ops)) ->
    Forall (fun o => match o with CNew c _ => c = "a" \/ c = "b" | _ => True end) ops -> forall c, in_order newer (held c ops)).
  { intros ops H HF c. destruct (in_dec string_dec c (categories ops)) as [Hi|Hi].
    - apply H. rewrite categories_In in Hi. unfold mentioned in Hi. destruct Hi as (t & Hi). rewrite Forall_forall in HF. apply (HF _ Hi).
    - replace (held c ops) with (@nil StaticTrace); [constructor|]. symmetry. apply held_unmentioned. apply not_true_is_false. intros C.
      apply existsb_exists in C as (o & Ho & Hc). apply Hi. apply categories_In. destruct o as [c' t|]; [|discriminate].
      apply String.eqb_eq in Hc. subst c'. exists t. exact Ho. }
  cbn zeta. split; [repeat constructor; apply demo_out_answers; repeat constructor|].
  split; [constructor; [|constructor; [|constructor]]|split]; [| | |split].
  1-3: apply Hord, Hc; [intros c [->|E]; [|subst c]; vm_compute; repeat constructor|repeat (apply Forall_cons || apply Forall_nil); cbn; auto].
  - vm_compute. apply NoDup_Permutation.
    + repeat constructor; cbn; intuition congruence.
    + repeat constructor; cbn; intuition congruence.
    + intros x. cbn. intuition.
  - unfold distinct_keys. vm_compute. repeat constructor; cbn; intuition congruence.
Qed.

(** Finding: the match count does depend on how traces are spread over collectors. *)
Theorem C30_match_count_refuted :
  exists ops1 ops2 ops, Permutation (all_held ops) (all_held ops1 ++ all_held ops2) /\
    (exists multi, MultiSearch demo_compile (isort Less) (fun _ l => l) (number 0 [demo_out ops1 "one" demo_req'; demo_out ops2 "two" demo_req']) demo_req
        = Ok (demo_req', multi) /\
       resp_MatchCount multi = 4) /\
    exists single, fst (demo_out ops "one" demo_req) = Some single /\ resp_MatchCount single = 2.
Proof.
  exists [demo_tr "a" "1" 1 "x"; demo_tr "a" "2" 2 "x"], [demo_tr "a" "3" 3 "x"; demo_tr "a" "4" 4 "x"],
    [demo_tr "a" "3" 3 "x"; demo_tr "a" "4" 4 "x"; demo_tr "a" "1" 1 "x"; demo_tr "a" "2" 2 "x"].
  split; [vm_compute; reflexivity|]. split; (eexists; split; [vm_compute; reflexivity|reflexivity]).
Qed.
Print Assumptions C30_match_count_refuted.

(** Finding: so does any searcher that answers with a different number of buckets. *)
Theorem C31_different_buckets_refuted :
  forall (RE : Type) (Compile : string -> RE + string) sort orders (req req' : SearchRequest RE) own r ss,
    Normalize Compile req = Ok (req', own) -> resp_Stats r = Some ss -> Bucketing ss <> [] ->
    length (Bucketing ss) <> length (req_Bucketing req') ->
    MultiSearch Compile sort orders (number 0 [(Some r, None)]) req = Panic.
Proof.
  intros RE C sort orders req req' own r ss HN Er Hne Hl. unfold MultiSearch. rewrite HN. cbn [bind number gather]. unfold gather1. cbn [t_res resp_Stats]. rewrite Er.
  rewrite C27_inconsistent_buckets_panic; [reflexivity| |exact Hne|]; cbn [Bucketing NewSearchStats]; [|congruence].
  rewrite Normalize_spec in HN. injection HN as <- _. destruct (norm_cases (req_Bucketing req)) as (_ & (rest & E) & _). cbn [req_Bucketing]. rewrite E. discriminate.
Qed.
Print Assumptions C31_different_buckets_refuted.

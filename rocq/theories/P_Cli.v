(** C72: trc search, from the flags to what is printed. *)
From Verif Require Import Go L_List M_Strings M_Types M_Frame M_RingBuf M_RingBufs M_Filter M_Stats M_Search M_Humanize M_Text M_Url M_Trace
     M_Web S_Web S_Trace S_Filter S_Order L_Order S_Search S_Collector S_Stats S_StatsView L_RingBufs L_Filter L_Trace L_Stats L_Search L_Url P_Url P_Filter P_Stats P_Search P_Web
     D_Demo M_Json S_Json P_Json S_Multi P_Multi M_Decor M_Cli S_Cli.
From Verif Require L_Text P_Space.
Open Scope string_scope.
Open Scope list_scope.
Open Scope Z_scope.

Lemma map_get_some_in {V} k (v : V) : forall m, map_get k m = Some v -> In (k, v) m.
Proof.
  induction m as [|[k' v'] m IH]; cbn; [discriminate|]. destruct (String.eqb_spec k k') as [->|N]; [intros [= ->]; left; reflexivity|intros E; right; apply IH; exact E].
Qed.
Lemma map_get_in_some {V} k (v : V) : forall m, NoDup (map fst m) -> In (k, v) m -> map_get k m = Some v.
Proof.
  induction m as [|[k' v'] m IH]; cbn; [intros _ []|]. intros N. inversion N as [|? ? N1 N2]; subst. intros [E|I].
  - injection E as -> ->. rewrite String.eqb_refl. reflexivity.
  - destruct (String.eqb_spec k k') as [->|_]; [exfalso; apply N1; apply (in_map fst) in I; exact I|apply IH; assumption].
Qed.
Lemma map_get_permuted {V} k (m m' : list (string * V)) : NoDup (map fst m) -> Permutation m m' -> map_get k m = map_get k m'.
Proof.
  intros N P. assert (N' : NoDup (map fst m')) by (eapply Permutation_NoDup; [apply Permutation_map; exact P|exact N]).
  destruct (map_get k m) as [v|] eqn:E.
  - symmetry. apply map_get_in_some; [exact N'|]. eapply Permutation_in; [exact P|]. apply map_get_some_in. exact E.
  - destruct (map_get k m') as [v|] eqn:E'; [|reflexivity]. apply map_get_some_in in E'. apply (Permutation_in _ (Permutation_sym P)) in E'.
    apply (map_get_in_some _ _ _ N) in E'. congruence.
Qed.
Lemma describes_same b s s' trs : same_stats s s' -> describes b s trs -> describes b s' trs.
Proof.
  intros [B P] (H1 & H2 & H3). split; [congruence|]. unfold map_keys in *. split; [eapply Permutation_NoDup; [apply Permutation_map; exact P|exact H2]|].
  intros c. rewrite <- (map_get_permuted c _ _ H2 P). apply H3.
Qed.

(** The request as it is sent: without the compiled expression. *)
Definition forget {RE} (f : Filter RE) : Filter RE :=
  MkFilter (Sources f) (IDs f) (FCategory f) (IsActive f) (IsFinished f) (MinDuration f) (IsSuccess f) (IsErrored f) (Query f) None.
Definition forget_req {RE} (r : SearchRequest RE) : SearchRequest RE := MkReq (req_Bucketing r) (forget (req_Filter r)) (req_Limit r) (req_StackDepth r).
Lemma remote_forget {RE} tt pt (C : string -> RE + string) fp Search req w :
  remote tt pt C fp Search req w <-> remote tt pt C fp Search (forget_req req) w.
Proof. reflexivity. Qed.

Lemma valid_shown d t : valid_trace t -> valid_trace (shown d t).
Proof.
  intros (V1 & V2 & V3 & V4 & V5). unfold valid_trace, shown. cbn [TraceSource TraceID TraceCategory TraceDurationStr TraceEvents].
  split; [exact V1|]. split; [exact V2|]. split; [exact V3|]. split; [constructor|]. apply Forall_map. eapply Forall_impl; [|exact V5].
  intros e [E1 E2]. split; [exact E1|]. cbn [Stack]. unfold keep_frames. destruct (d =? 0); [exact E2|].
  apply Forall_forall. intros f I. eapply Forall_forall; [exact E2|]. rewrite <- (firstn_skipn (Z.to_nat d) (Stack e)). apply in_or_app. left. exact I.
Qed.

Section Cli.
Context {RE T : Type}.
Variable Compile : string -> RE + string.
Variable MatchString : RE -> string -> bool.
Variable float_part : Z -> Z -> Z -> Z.
Variable time_text : Z -> option string.
Variable parse_time : string -> option Z.
Hypothesis times_ok : times_read_back time_text parse_time.
Variable zero : T.
Variable view : T -> StaticTrace.
Notation server_answers := (server_answers Compile MatchString float_part time_text parse_time zero view).
Notation exchange := (exchange Compile MatchString float_part time_text parse_time zero view).

Lemma valid_forget (f : Filter RE) : valid_filter f -> unused f -> valid_filter (forget (fst (FilterNormalize Compile f))).
Proof.
  intros (V1 & V2 & V3 & V4) U. unfold FilterNormalize, initializeQueryRegexp. rewrite U. destruct (String.eqb (Query f) "").
  - cbn [fst]. repeat split; assumption.
  - destruct (Compile (Query f)); cbn [fst]; (split; [exact V1|]; split; [exact V2|]; split; [exact V3|]); cbn [forget Query set_regexp set_query]; [exact V4|constructor].
Qed.
Lemma forget_verdict (f : Filter RE) tr : unused f ->
  snd (Allow Compile MatchString (forget (fst (FilterNormalize Compile f))) tr) = snd (Allow Compile MatchString f tr).
Proof.
  intros U. apply Bool.eq_iff_eq_true. rewrite !Allow_unused by (exact U || reflexivity). unfold FilterNormalize, initializeQueryRegexp. rewrite U.
  destruct (String.eqb_spec (Query f) "") as [E|N]; [reflexivity|]. destruct (Compile (Query f)) as [re|err] eqn:EC; [reflexivity|].
  unfold accepts, query_condition. cbn [fst forget set_query Query]. rewrite EC.
  assert (X : match Compile "" with inl re => "" <> "" -> re_condition MatchString (Some re) tr | inr _ => True end) by (destruct (Compile ""); [congruence|exact I]).
  unfold field_conditions. cbn [forget set_query Sources IDs FCategory IsActive IsFinished MinDuration IsSuccess IsErrored]. tauto.
Qed.

Lemma forget_no_problem (f : Filter RE) : unused f -> snd (FilterNormalize Compile (forget (fst (FilterNormalize Compile f)))) = [].
Proof.
  destruct f as [a b c d e g h i q re]. intros U. unfold unused in U. cbn [f_regexp] in U. subst re. unfold FilterNormalize, initializeQueryRegexp. cbn [f_regexp Query].
  destruct (String.eqb q "") eqn:E; [|destruct (Compile q) as [re|err] eqn:EC]; cbn [fst snd forget f_regexp Query set_regexp set_query]; rewrite ?E, ?EC; reflexivity.
Qed.

Lemma earliest_is_one mine : mine <> [] -> In (earliest (map TraceStarted mine)) (map TraceStarted mine) /\ In (latest (map TraceStarted mine)) (map TraceStarted mine).
Proof.
  intros N. destruct (existsb (fun tr => negb (TraceStarted tr =? 0)) mine) eqn:E.
  - apply existsb_exists in E as (tr & I & Z0). destruct (Z.eqb_spec (TraceStarted tr) 0); [discriminate|].
    split; [apply (earliest_in (map TraceStarted mine) (TraceStarted tr))|apply (latest_in (map TraceStarted mine) (TraceStarted tr))]; auto using in_map.
  - assert (F : filter (fun t => negb (t =? 0)) (map TraceStarted mine) = [] /\ forall tr, In tr mine -> TraceStarted tr = 0).
    { clear N. induction mine as [|x l IH]; [split; [reflexivity|intros tr []]|]. cbn [existsb] in E. apply Bool.orb_false_iff in E as [E1 E2]. destruct (IH E2) as [F1 F2].
      cbn [map filter]. rewrite E1, F1. split; [reflexivity|]. intros tr [<-|I]; [|auto]. destruct (Z.eqb_spec (TraceStarted x) 0); [assumption|discriminate]. }
    destruct F as [F1 F2]. unfold earliest, latest. rewrite F1. destruct mine as [|x l]; [contradiction|]. cbn [map]. rewrite (F2 x) by (left; reflexivity). split; left; reflexivity.
Qed.

(** One server: what it finds, and what is made of it by an exchange. *)
Lemma server_local (req req' : SearchRequest RE) own srv acc :
  (forall b, In b (req_Bucketing req) -> 0 <= b) -> valid_filter (req_Filter req) -> unused (req_Filter req) ->
  (forall tr, acc tr = snd (Allow Compile MatchString (req_Filter req) tr)) ->
  Normalize Compile req = Ok (req', own) -> good_server view srv ->
  exists r,
  resp_TotalCount r = zlen (all_held (srv_ops srv)) /\ resp_Problems r = [] /\ resp_Sources r = [srv_source srv] /\
  stats_of (req_Bucketing req') r (map view (all_held (srv_ops srv))) /\
  highest newer (Z.to_nat (effective_limit (req_Limit req))) (matching view (req_StackDepth req) acc (all_held (srv_ops srv))) (resp_Traces r) /\
  valid_response r /\
  (forall r', server_answers req' srv r' -> same_response r r') /\
  (writable_response (fun t => time_text t <> None) r -> exists r', server_answers req' srv r').
Proof.
  intros Hnn Hv Hu Hacc HN (G1 & G2 & G3 & G4 & G5 & G6).
  destruct (coll_run_spec zero (srv_ops srv) _ [] CRep_init G1) as (s & freed & Hrun & _).
  pose proof HN as HN0. rewrite Normalize_spec in HN0. injection HN0 as HE _.
  assert (Hb : norm_bucketing (req_Bucketing (forget_req req')) = req_Bucketing req').
  { cbn [forget_req req_Bucketing]. rewrite <- HE. cbn [req_Bucketing]. apply (norm_norm req). exact Hnn. }
  assert (Hnn' : forall b, In b (req_Bucketing (forget_req req')) -> 0 <= b).
  { cbn [forget_req req_Bucketing]. destruct (C21_normalize RE Compile MatchString req) as (r1 & e1 & N1 & _ & _ & P & _ & _). rewrite HN in N1. injection N1 as <- <-.
    assert (Ha : forall b, In b (asked (req_Bucketing req)) -> 0 <= b).
    { intros b. unfold asked. destruct (req_Bucketing req) as [|x l]; [|intros I; apply Hnn; exact I]. cbn. intuition lia. }
    intros b I. destruct P as [P|P]; apply (Permutation_in _ P) in I; [apply Ha; exact I|]. destruct I as [<-|I]; [lia|apply Ha; exact I]. }
  assert (Hvf : valid_filter (req_Filter (forget_req req'))) by (rewrite <- HE; apply valid_forget; assumption).
  destruct (C56_remote_equals_local RE Compile MatchString float_part time_text parse_time times_ok T zero view (srv_sort srv) (srv_order srv) (srv_source srv)
              (srv_ops srv) s freed (forget_req req') G1 Hrun G3 Hnn' Hvf eq_refl) as (rq & local & EL & Hrem).
  assert (HT : highest newer (Z.to_nat (effective_limit (req_Limit req))) (matching view (req_StackDepth req) acc (all_held (srv_ops srv))) (resp_Traces local)).
  { destruct (search_newest Compile MatchString newer newer_strict_weak (fun x y H => H) (fun d x y => eq_refl) T zero view (srv_sort srv) (srv_order srv) (srv_source srv)
        (srv_ops srv) s freed (forget_req req') acc G1 Hrun G3 G2) as (a & b & Eab & Hh); [|exact G6|].
    - intros t. rewrite Hacc, <- HE. cbn [forget_req req_Filter]. symmetry. apply forget_verdict. exact Hu.
    - rewrite EL in Eab. injection Eab as <- <-. rewrite <- HE in Hh. cbn [forget_req req_Limit req_StackDepth] in Hh. rewrite effective_limit_idem in Hh. exact Hh. }
  destruct (Search_spec Compile MatchString zero view (srv_sort srv) (srv_order srv) (srv_source srv) (srv_ops srv) s freed (forget_req req') (fun t => acc (view t)) G1 Hrun G3) as
    (req1 & resp1 & names & stats & E1 & Hn & _ & Hst & _ & _ & _ & Hsrc & Hperr0 & _).
  { intros t. rewrite Hacc, <- HE. cbn [forget_req req_Filter]. symmetry. apply forget_verdict. exact Hu. }
  rewrite EL in E1. injection E1 as <- <-.
  destruct (collector_stats Compile MatchString zero view (forget_req req') (srv_ops srv) (Some local, None)) as (l' & El & Hss & Htot).
  { exists s, freed, (srv_source srv), (srv_sort srv), (srv_order srv), rq, local. repeat split; auto; try apply G2; apply G3. }
  injection El as <-. rewrite Hb in Hss. unfold stats_of in Hss. rewrite Hst in Hss.
  assert (Hperr : resp_Problems local = []).
  { rewrite Hperr0, <- HE. cbn [forget_req req_Filter]. rewrite forget_no_problem by exact Hu. reflexivity. }
  assert (Hval : valid_response local).
  { split; [rewrite Hsrc; repeat constructor; exact G4|]. split; [|split; [rewrite Hperr; constructor|]].
    - destruct HT as (_ & _ & rest & HP & _). apply Forall_forall. intros t I.
      assert (I' : In t (matching view (req_StackDepth req) acc (all_held (srv_ops srv)))) by (eapply Permutation_in; [exact HP|apply in_or_app; left; exact I]).
      unfold matching in I'. apply in_map_iff in I' as (x & <- & Ix). apply filter_In in Ix as [Ix _]. apply valid_shown, G5. exact Ix.
    - rewrite Hst. destruct Hss as (_ & N & D). apply Forall_forall. intros [c cs] I. specialize (D c). rewrite (map_get_in_some c cs _ N I) in D.
      destruct D as (D1 & D2 & _). cbn [fst snd]. assert (U : utf8 c).
      { destruct (of_category c (map view (all_held (srv_ops srv)))) as [|t ts] eqn:Eo; [contradiction|].
        assert (It : In t (of_category c (map view (all_held (srv_ops srv))))) by (rewrite Eo; left; reflexivity).
        apply filter_In in It as [It Ec]. apply String.eqb_eq in Ec. apply in_map_iff in It as (x & <- & Ix). rewrite <- Ec. apply (G5 x Ix). }
      split; [exact U|rewrite D2; exact U]. }
  exists local. split; [exact Htot|]. split; [exact Hperr|]. split; [exact Hsrc|]. split; [unfold stats_of; rewrite Hst; exact Hss|]. split; [exact HT|]. split; [exact Hval|].
  destruct (Hrem Hval) as [Q1 Q2]. split.
  - intros r' (s' & freed' & w & Hrun' & HR & ->). rewrite Hrun in Hrun'. injection Hrun' as <- <-. apply remote_forget in HR.
    specialize (Q1 w HR). unfold same_response in *. cbn [without_problems resp_Sources resp_TotalCount resp_MatchCount resp_Traces resp_Problems resp_Stats] in Q1. rewrite Hperr. exact Q1.
  - intros W. destruct (Q2 W) as [w HR]. exists (wr_Response w), s, freed, w. split; [exact Hrun|]. split; [apply remote_forget; exact HR|reflexivity].
Qed.
Lemma server_answer (req req' : SearchRequest RE) own srv r acc :
  (forall b, In b (req_Bucketing req) -> 0 <= b) -> valid_filter (req_Filter req) -> unused (req_Filter req) ->
  (forall tr, acc tr = snd (Allow Compile MatchString (req_Filter req) tr)) ->
  Normalize Compile req = Ok (req', own) -> good_server view srv -> server_answers req' srv r ->
  resp_TotalCount r = zlen (all_held (srv_ops srv)) /\ resp_Problems r = [] /\ resp_Sources r = [srv_source srv] /\
  stats_of (req_Bucketing req') r (map view (all_held (srv_ops srv))) /\
  highest newer (Z.to_nat (effective_limit (req_Limit req))) (matching view (req_StackDepth req) acc (all_held (srv_ops srv))) (resp_Traces r).
Proof.
  intros Hnn Hv Hu Hacc HN G HA. destruct (server_local req req' own srv acc Hnn Hv Hu Hacc HN G) as (l & L1 & L2 & L3 & L4 & L5 & _ & L6 & _).
  destruct (L6 r HA) as (S1 & S2 & _ & S4 & S5 & S6). split; [congruence|]. split; [congruence|]. split; [congruence|]. split; [|rewrite S4; exact L5].
  unfold stats_of in *. destruct (resp_Stats l) as [s|], (resp_Stats r) as [s'|]; try contradiction; [|exact L4]. eapply describes_same; eassumption.
Qed.

(** A server always answers if the times it holds can be written. *)
Theorem C72_servers_answer :
  forall (cfg : search_config) (req' : SearchRequest RE) own srv,
    valid_filter (cli_filter (RE := RE) (sc_flags cfg)) -> good_server view srv ->
    (forall t, In t (all_held (srv_ops srv)) -> writable_trace (fun t => time_text t <> None) (view t)) ->
    Normalize Compile (cli_search_request (sc_flags cfg) (sc_limit cfg) (sc_depth cfg)) = Ok (req', own) ->
    exists r, server_answers req' srv r.
Proof.
  intros cfg req' own srv Hv G W HN. set (req := cli_search_request (sc_flags cfg) (sc_limit cfg) (sc_depth cfg)) in *.
  destruct (server_local req req' own srv (fun tr => snd (Allow Compile MatchString (req_Filter req) tr)) (fun b (I : In b []) => match I with end) Hv eq_refl (fun tr => eq_refl) HN G)
    as (l & _ & _ & _ & L4 & L5 & _ & _ & L7). apply L7. clear L7. split.
  - destruct L5 as (_ & _ & rest & HP & _). apply Forall_forall. intros t I.
    assert (I' : In t (matching view (req_StackDepth req) (fun tr => snd (Allow Compile MatchString (req_Filter req) tr)) (all_held (srv_ops srv)))) by (eapply Permutation_in; [exact HP|apply in_or_app; left; exact I]).
    unfold matching in I'. apply in_map_iff in I' as (x & <- & Ix). apply filter_In in Ix as [Ix _]. destruct (W x Ix) as [W1 W2].
    split; [exact W1|]. cbn [shown TraceEvents]. apply Forall_map. exact W2.
  - unfold stats_of in L4. destruct (resp_Stats l) as [ss|]; [|exact I]. destruct L4 as (_ & N & D). apply Forall_forall. intros [c cs] I. specialize (D c). rewrite (map_get_in_some c cs _ N I) in D.
    destruct D as (D1 & _ & _ & _ & _ & _ & D2 & D3). cbn [snd]. rewrite D2, D3. destruct (earliest_is_one _ D1) as [E1 E2].
    assert (F : forall z, In z (map TraceStarted (of_category c (map view (all_held (srv_ops srv))))) -> time_text z <> None).
    { intros z Iz. apply in_map_iff in Iz as (t & <- & It). apply filter_In in It as [It _]. apply in_map_iff in It as (x & <- & Ix). apply (W x Ix). }
    split; apply F; assumption.
Qed.

Lemma exchange_answers (req req' : SearchRequest RE) own acc :
  (forall b, In b (req_Bucketing req) -> 0 <= b) -> valid_filter (req_Filter req) -> unused (req_Filter req) ->
  (forall tr, acc tr = snd (Allow Compile MatchString (req_Filter req) tr)) ->
  Normalize Compile req = Ok (req', own) ->
  forall servers outcomes, Forall (good_server view) servers -> Forall2 (exchange req') servers outcomes -> forall i,
    all_problems i outcomes = failures outcomes /\
    sum (map resp_TotalCount (answers outcomes)) = zlen (held_by (answering servers outcomes)) /\
    Forall2 (stats_of (req_Bucketing req')) (answers outcomes) (map (fun srv => map view (all_held (srv_ops srv))) (answering servers outcomes)) /\
    Forall2 (highest newer (Z.to_nat (effective_limit (req_Limit req))))
            (map (fun srv => matching view (req_StackDepth req) acc (all_held (srv_ops srv))) (answering servers outcomes)) (map resp_Traces (answers outcomes)) /\
    map resp_Sources (answers outcomes) = map (fun srv => [srv_source srv]) (answering servers outcomes).
Proof.
  intros Hnn Hv Hu Hacc HN servers outcomes HG HF. induction HF as [|srv o servers outcomes HX HF IH]; intros i; [repeat split; constructor|].
  inversion HG as [|? ? G HG']; subst. destruct (IH HG' (i + 1)) as (I1 & I2 & I3 & I4 & I5).
  destruct o as [[r|] [err|]]; cbn in HX; try contradiction.
  - destruct (server_answer req req' own srv r acc Hnn Hv Hu Hacc HN G HX) as (A1 & A2 & A3 & A4 & A5).
    cbn [all_problems problems_of answering]. unfold failures, answers, held_by in *. cbn [flat_map fst app map]. rewrite A2, I1, A3, I5.
    split; [reflexivity|]. split; [|split; [constructor; assumption|split; [constructor; assumption|reflexivity]]].
    assert (Hs : forall x l, sum (x :: l) = x + sum l) by reflexivity. rewrite Hs, I2, A1. unfold zlen. rewrite app_length. lia.
  - cbn [all_problems problems_of answering]. unfold failures, answers, held_by in *. cbn [flat_map fst app map]. rewrite I1. repeat split; assumption.
Qed.

(** ** C72 *)
Theorem C72_search_prints :
  forall sort orders servers outcomes arrivals duration (cfg : search_config) (req' : SearchRequest RE) own acc,
    is_sort Less sort -> (forall n, is_order (orders n)) -> valid_filter (cli_filter (RE := RE) (sc_flags cfg)) ->
    Forall (good_server view) servers ->
    Normalize Compile (cli_search_request (sc_flags cfg) (sc_limit cfg) (sc_depth cfg)) = Ok (req', own) ->
    Forall2 (exchange req') servers outcomes -> Permutation arrivals (number 0 outcomes) ->
    (* what the flags ask for *)
    (forall tr, acc tr = true <->
       (flag_active (sc_flags cfg) = true -> TraceFinished tr = false) /\ (flag_finished (sc_flags cfg) = true -> TraceFinished tr = true) /\
       other_conditions Compile MatchString (sc_flags cfg) tr) ->
    let held := held_by (answering servers outcomes) in
    exists out, cli_search Compile sort orders arrivals duration cfg = Ok out /\
      (* the newest of the matching traces of all servers that answered *)
      highest newer (Z.to_nat (effective_limit (sc_limit cfg)))
              (matching view (if sc_depth cfg =? 0 then -1 else sc_depth cfg) acc held) (resp_Traces (wr_Response out)) /\
      resp_TotalCount (wr_Response out) = zlen held /\
      alphabetical (resp_Sources (wr_Response out)) /\
      (forall src, In src (resp_Sources (wr_Response out)) <-> exists srv, In srv (answering servers outcomes) /\ srv_source srv = src) /\
      (* a problem for each server that did not answer *)
      Permutation (resp_Problems (wr_Response out)) (own ++ failures outcomes) /\
      wr_Request out = (if sc_include_request cfg then Some req' else None) /\
      (if sc_include_stats cfg
       then exists ss, resp_Stats (wr_Response out) = Some ss /\ describes (req_Bucketing req') ss (map view held)
       else resp_Stats (wr_Response out) = None).
Proof.
  intros sort orders servers outcomes arrivals duration cfg req' own acc Hs Ho Hv HG HN HF Hp Hacc held.
  set (req := cli_search_request (sc_flags cfg) (sc_limit cfg) (sc_depth cfg)) in *.
  assert (Hacc' : forall tr, acc tr = snd (Allow Compile MatchString (req_Filter req) tr)).
  { intros tr. apply Bool.eq_iff_eq_true. rewrite Hacc. unfold req. rewrite C64_search_filter. reflexivity. }
  assert (Hnn : forall b, In b (req_Bucketing req) -> 0 <= b) by (intros b []).
  destruct (exchange_answers req req' own acc Hnn Hv eq_refl Hacc' HN servers outcomes HG HF 1) as (E1 & E2 & E3 & E4 & E5).
  destruct (C29_multi_search_answers Compile sort orders outcomes arrivals req req' own _ Ho Hp HN E3) as (resp & ss & EM & Es & D).
  destruct (C29_multi_search_merges_everything Compile sort orders outcomes arrivals req req' resp Hs Ho Hp EM) as (M1 & _ & M2 & M3 & M4 & own' & M5 & M6).
  rewrite HN in M5. injection M5 as <-.
  unfold cli_search. fold req. rewrite EM. cbn [bind]. eexists. split; [reflexivity|]. cbn [wr_Response wr_Request resp_Traces resp_TotalCount resp_Sources resp_Problems resp_Stats].
  split; [|split; [|split; [|split; [|split; [|split]]]]].
  - assert (Hm : forall l, matching view (req_StackDepth req) acc (held_by l) = concat (map (fun srv : server T => matching view (req_StackDepth req) acc (all_held (srv_ops srv))) l)).
    { clear. induction l as [|a l IH]; [reflexivity|]. unfold held_by in *. cbn [flat_map map concat]. rewrite matching_app, IH. reflexivity. }
    unfold held. change (if sc_depth cfg =? 0 then -1 else sc_depth cfg) with (req_StackDepth req). rewrite Hm.
    apply (highest_concat newer _ _ newer_strict_weak (map resp_Traces (answers outcomes))); [exact E4|]. rewrite <- flat_map_concat_map'. exact M2.
  - rewrite M1, E2. reflexivity.
  - exact M3.
  - intros src. rewrite M4. split.
    + intros (r & Ir & Is). apply (in_map resp_Sources) in Ir. rewrite E5 in Ir. apply in_map_iff in Ir as (srv & Q & Isrv). rewrite <- Q in Is. destruct Is as [<-|[]]. eauto.
    + intros (srv & Isrv & <-). apply (in_map (fun srv => [srv_source srv])) in Isrv. rewrite <- E5 in Isrv. apply in_map_iff in Isrv as (r & Q & Ir). exists r. split; [exact Ir|rewrite Q; left; reflexivity].
  - rewrite M6, E1. reflexivity.
  - destruct (sc_include_request cfg); reflexivity.
  - destruct (sc_include_stats cfg); cbn [negb]; [|reflexivity]. exists ss. split; [exact Es|].
    replace (map view held) with (concat (map (fun srv : server T => map view (all_held (srv_ops srv))) (answering servers outcomes))); [exact D|].
    unfold held. clear. induction (answering servers outcomes) as [|a l IH]; [reflexivity|]. unfold held_by in *. cbn [map concat flat_map]. rewrite map_app, IH. reflexivity.
Qed.

(** If all servers answer, the traces are those that one collector with all their traces
    finds when it is searched for the same thing. *)
Theorem C72_equals_one_collector :
  forall sort orders servers outcomes arrivals duration (cfg : search_config) (req' : SearchRequest RE) own ops s freed sort1 order1 source1,
    is_sort Less sort -> (forall n, is_order (orders n)) -> valid_filter (cli_filter (RE := RE) (sc_flags cfg)) ->
    Forall (good_server view) servers ->
    Normalize Compile (cli_search_request (sc_flags cfg) (sc_limit cfg) (sc_depth cfg)) = Ok (req', own) ->
    Forall2 (fun srv o => exists r, o = (Some r, None) /\ server_answers req' srv r) servers outcomes -> Permutation arrivals (number 0 outcomes) ->
    (* the one collector *)
    Forall valid_op ops -> coll_run zero new_collector_storage ops = Ok (s, freed) -> is_sort Less sort1 -> is_order order1 ->
    added_in_order newer view ops ->
    Permutation (all_held ops) (held_by servers) -> distinct_keys (map view (all_held ops)) ->
    exists out rq single,
      cli_search Compile sort orders arrivals duration cfg = Ok out /\
      Search Compile MatchString view sort1 order1 source1 s (cli_search_request (sc_flags cfg) (sc_limit cfg) (sc_depth cfg)) = Ok (rq, single) /\
      resp_Traces (wr_Response out) = resp_Traces single /\ resp_TotalCount (wr_Response out) = resp_TotalCount single /\
      resp_Problems (wr_Response out) = resp_Problems single.
Proof.
  intros sort orders servers outcomes arrivals duration cfg req' own ops s freed sort1 order1 source1 Hs Ho Hv HG HN HF Hp Hops Hrun Hs1 Ho1 Hin Hperm Hk.
  set (req := cli_search_request (sc_flags cfg) (sc_limit cfg) (sc_depth cfg)) in *.
  set (acc := fun tr => snd (Allow Compile MatchString (req_Filter req) tr)).
  assert (HF' : Forall2 (exchange req') servers outcomes).
  { clear -HF. induction HF as [|srv o servers outcomes (r & -> & A) HF IH]; constructor; [exact A|exact IH]. }
  assert (Han : answering servers outcomes = servers /\ failures outcomes = []).
  { clear -HF. induction HF as [|srv o servers outcomes (r & -> & _) HF [I1 I2]]; [split; reflexivity|]. cbn [answering]. unfold failures in *. cbn [flat_map app]. rewrite I1, I2. split; reflexivity. }
  destruct Han as [Han Hfl].
  destruct (C72_search_prints sort orders servers outcomes arrivals duration cfg req' own acc Hs Ho Hv HG HN HF' Hp) as (out & EO & H1 & H2 & _ & _ & H5 & _).
  { intros tr. unfold acc, req. apply C64_search_filter. }
  rewrite Han, Hfl, app_nil_r in *. fold req in EO.
  destruct (search_newest Compile MatchString newer newer_strict_weak (fun x y H => H) (fun d x y => eq_refl) T zero view sort1 order1 source1
              ops s freed req acc Hops Hrun Ho1 Hs1 (fun t => eq_refl) Hin) as (rq & single & ES & HS).
  destruct (Search_spec Compile MatchString zero view sort1 order1 source1 ops s freed req _ Hops Hrun Ho1 (fun t => eq_refl)) as
    (rq1 & single1 & names & stats & E1 & Hn & _ & _ & Htot & _ & _ & _ & Hpr & _). rewrite ES in E1. injection E1 as <- <-.
  exists out, rq, single. split; [exact EO|]. split; [exact ES|]. split; [|split].
  - eapply highest_unique; [apply newer_strict_weak| |exact HS|].
    + eapply highest_perm; [symmetry; apply matching_perm; exact Hperm|]. exact H1.
    + intros x y Hx Hy N1 N2. destruct (newer_incomparable x y N1 N2) as [K1 K2]. unfold matching in Hx, Hy.
      apply in_map_iff in Hx as (tx & <- & Hx). apply in_map_iff in Hy as (ty & <- & Hy).
      apply filter_In in Hx as [Hx _]. apply filter_In in Hy as [Hy _]. cbn in K1, K2.
      f_equal. apply (distinct_keys_inj _ _ _ Hk); auto using in_map.
  - rewrite H2, Htot. unfold zlen. rewrite <- (Permutation_length Hperm), (Permutation_length (all_held_perm ops names Hn)). reflexivity.
  - rewrite Hpr. rewrite Normalize_spec in HN. apply (f_equal (fun x => match x with Ok p => snd p | Panic => [] end)) in HN. cbn [snd] in HN. rename HN into Hown. rewrite Hown.
    assert (Ho1' : (length own <= 1)%nat).
    { rewrite <- Hown. rewrite map_length. unfold FilterNormalize. destruct (initializeQueryRegexp Compile (req_Filter req)) as [f [e|]]; cbn; lia. }
    destruct own as [|x [|y own]]; cbn in Ho1'; [|apply Permutation_sym, Permutation_length_1_inv in H5; exact H5|lia].
    apply Permutation_sym, Permutation_nil in H5. exact H5.
Qed.
End Cli.
Print Assumptions C72_servers_answer.
Print Assumptions C72_search_prints.
Print Assumptions C72_equals_one_collector.

(** ** Addresses *)
Section Uris.
Context {URL : Type}.
Variable ParseRequestURI : string -> option URL.
Variable with_path : URL -> string -> URL.
Variable url_string : URL -> string.
(** an address that is not blank, without surrounding space and with a scheme *)
Definition completed (uri : string) : string :=
  if HasPrefix (TrimSpace uri) "http" then TrimSpace uri else ("http://" ++ TrimSpace uri)%string.
(** what becomes of an address *)
Definition prepared (uriPath uri uri' : string) : Prop :=
  (TrimSpace uri = "" /\ uri' = uri) \/
  (TrimSpace uri <> "" /\ exists u, ParseRequestURI (completed uri) = Some u /\
     uri' = url_string (if String.eqb uriPath "" then u else with_path u uriPath)).

Lemma prepare_uri_spec uriPath uri uri' : prepare_uri ParseRequestURI with_path url_string uriPath uri = Some uri' <-> prepared uriPath uri uri'.
Proof.
  unfold prepare_uri, prepared, completed. destruct (String.eqb_spec (TrimSpace uri) "") as [E|N].
  - split; [intros [= <-]; left; split; [exact E|reflexivity]|intros [[_ ->]|[N _]]; [reflexivity|contradiction]].
  - destruct (HasPrefix (TrimSpace uri) "http"); cbn [negb];
      (destruct (ParseRequestURI _) as [u|]; [|split; [discriminate|intros [[E _]|(_ & u & E & _)]; [contradiction|discriminate]]]);
      (split; [intros [= <-]; right; split; [exact N|]; exists u; split; [reflexivity|]; destruct (String.eqb uriPath ""); reflexivity
              |intros [[E _]|(_ & u' & [= <-] & ->)]; [contradiction|]; destruct (String.eqb uriPath ""); reflexivity]).
Qed.

(** Every command asks exactly the addresses given, in that order, or fails before asking any. *)
Theorem C72_addresses :
  forall uriPath uris,
    (forall uris', prepare_uris ParseRequestURI with_path url_string uriPath uris = Some uris' <->
       uris <> [] /\ Forall2 (prepared uriPath) uris uris') /\
    (prepare_uris ParseRequestURI with_path url_string uriPath uris = None <->
       uris = [] \/ exists uri, In uri uris /\ TrimSpace uri <> "" /\ ParseRequestURI (completed uri) = None).
Proof.
  intros uriPath uris.
  assert (L : forall l l', prepare_loop ParseRequestURI with_path url_string uriPath l = Some l' <-> Forall2 (prepared uriPath) l l').
  { induction l as [|uri l IH]; intros l'; cbn [prepare_loop].
    - split; [intros [= <-]; constructor|intros F; inversion F; reflexivity].
    - split.
      + destruct (prepare_uri _ _ _ uriPath uri) as [u|] eqn:E; [|discriminate]. apply prepare_uri_spec in E.
        destruct (prepare_loop _ _ _ uriPath l) as [us|] eqn:EL; [|discriminate]. intros [= <-]. constructor; [exact E|apply IH; reflexivity].
      + intros F. inversion F as [|? u ? us P F']; subst. apply prepare_uri_spec in P. rewrite P. apply IH in F'. rewrite F'. reflexivity. }
  assert (P : prepare_uris ParseRequestURI with_path url_string uriPath uris = match uris with [] => None | _ => prepare_loop ParseRequestURI with_path url_string uriPath uris end).
  { unfold prepare_uris. destruct uris as [|u l]; [reflexivity|]. unfold zlen. cbn [length]. destruct (Z.leb_spec (Z.of_nat (S (length l))) 0); [lia|reflexivity]. }
  split.
  - intros uris'. rewrite P. destruct uris as [|u l]; [split; [discriminate|intros [N _]; contradiction]|]. rewrite L. split; [intros F; split; [discriminate|exact F]|tauto].
  - assert (Q : forall l, prepare_loop ParseRequestURI with_path url_string uriPath l = None <-> exists uri, In uri l /\ TrimSpace uri <> "" /\ ParseRequestURI (completed uri) = None).
    { clear. induction l as [|uri l IH]; cbn [prepare_loop]; [split; [discriminate|intros (u & [] & _)]|].
      destruct (prepare_uri ParseRequestURI with_path url_string uriPath uri) as [u|] eqn:E.
      - destruct (prepare_loop _ _ _ uriPath l) as [us|].
        + split; [discriminate|]. intros (x & [<-|I] & N & F).
          * apply prepare_uri_spec in E as [[E _]|(_ & u' & E & _)]; [contradiction|congruence].
          * exfalso. assert (X : Some us = None) by (apply IH; eauto). discriminate.
        + split; [|reflexivity]. intros _. destruct (proj1 IH eq_refl) as (x & I & R). exists x. split; [right; exact I|exact R].
      - split; [|reflexivity]. intros _. exists uri. split; [left; reflexivity|]. revert E. unfold prepare_uri, completed.
        destruct (String.eqb_spec (TrimSpace uri) "") as [E|N]; [discriminate|]. destruct (HasPrefix (TrimSpace uri) "http"); cbn [negb]; destruct (ParseRequestURI _); try discriminate; auto. }
    rewrite P. destruct uris as [|u0 l0]; [split; [left; reflexivity|reflexivity]|]. rewrite Q. split; [right; assumption|]. intros [E|H]; [discriminate|exact H].
Qed.

(** What is asked is the prepared address itself: the clients add nothing to it, because it names
    its scheme.  About net/url is assumed: a URL read from a text that begins with http is written as
    a text that begins with http, whatever its path. *)
Theorem C72_asked :
  (forall uri u, HasPrefix uri "http" = true -> ParseRequestURI uri = Some u ->
     HasPrefix (url_string u) "http" = true /\ forall p, HasPrefix (url_string (with_path u p)) "http" = true) ->
  forall uriPath uris uris', prepare_uris ParseRequestURI with_path url_string uriPath uris = Some uris' ->
    Forall2 (fun uri uri' => if String.eqb (TrimSpace uri) "" then uri' = uri /\ client_uri uri' = ("http://" ++ uri)%string
                             else client_uri uri' = uri') uris uris'.
Proof.
  intros Hurl uriPath uris uris' E. apply C72_addresses in E as [_ F]. induction F as [|uri uri' l l' P F IH]; constructor; [|exact IH].
  destruct P as [[E ->]|(N & u & EP & ->)].
  - rewrite E. cbn. split; [reflexivity|]. unfold client_uri. rewrite (P_Space.blank_no_http uri E). reflexivity.
  - destruct (String.eqb_spec (TrimSpace uri) "") as [X|_]; [contradiction|].
    assert (C : HasPrefix (completed uri) "http" = true) by (unfold completed; destruct (HasPrefix (TrimSpace uri) "http") eqn:H; [exact H|reflexivity]).
    destruct (Hurl _ _ C EP) as [H1 H2]. unfold client_uri. destruct (String.eqb uriPath ""); [rewrite H1|rewrite H2]; reflexivity.
Qed.

(** Finding: a blank address is not dropped but asked as it is. *)
Theorem C72_blank_address_refuted :
  forall uriPath, prepare_uris ParseRequestURI with_path url_string uriPath [" "; ""] = Some [" "; ""] /\
    client_uri "" = "http://" /\ client_uri " " = "http:// ".
Proof. intros uriPath. repeat split. Qed.
End Uris.

Print Assumptions C72_addresses.
Print Assumptions C72_asked.
Example C72_asked_instance :
  let parse uri := if HasPrefix uri "http" then Some uri else None in
  let path u p := (u ++ p)%string in
  (forall uri u, HasPrefix uri "http" = true -> parse uri = Some u ->
     HasPrefix u "http" = true /\ forall p, HasPrefix (path u p) "http" = true) /\
  prepare_uris parse path (fun u => u) "/traces" [" a:80 "; "https://b"; " "] = Some ["http://a:80/traces"; "https://b/traces"; " "] /\
  map client_uri ["http://a:80/traces"; "https://b/traces"; " "] = ["http://a:80/traces"; "https://b/traces"; "http:// "].
Proof.
  cbv zeta. split; [|split; reflexivity]. intros uri u H. rewrite H. intros [= <-]. split; [exact H|]. intros p. apply P_Space.prefix_split in H as [q ->]. rewrite <- L_Text.str_app_assoc. apply P_Space.prefix_join.
Qed.
Print Assumptions C72_blank_address_refuted.

(** An instance: three servers with two traces each, one of which does not answer. *)
Definition demo_srv (source : string) (ops : list (coll_op StaticTrace)) : server StaticTrace := MkServer source ops (isort Less) (fun l => l).
Definition demo_servers : list (server StaticTrace) := [demo_srv "one" demo_ops1; demo_srv "two" demo_ops2; demo_srv "three" demo_ops1].
Definition demo_cfg : search_config := MkSC (MkFlags [] [] "" false false None false false "") 2 0 false true.
Definition small_time (t : Z) : option string :=
  if (0 <=? t) && (t <=? 9) then Some (String (ascii_of_nat (48 + Z.to_nat t)) "") else None.
Definition parse_small (s : string) : option Z := match s with String a "" => Some (Z.of_nat (nat_of_ascii a - 48)) | _ => None end.
Lemma small_times : times_read_back small_time parse_small.
Proof.
  intros t s. unfold small_time. destruct (Z.leb_spec 0 t), (Z.leb_spec t 9); cbn [andb]; try discriminate. intros E. injection E as <-.
  unfold parse_small. rewrite nat_ascii_embedding by lia. f_equal. lia.
Qed.
Lemma ascii_utf8 s : forallb (fun a => Nat.leb (nat_of_ascii a) 127) (list_ascii_of_string s) = true -> utf8 s.
Proof. induction s as [|a s IH]; cbn; intros F; [constructor|]. apply Bool.andb_true_iff in F as [F1 F2]. apply Nat.leb_le in F1. apply utf8_1; [split; [lia|exact F1]|auto]. Qed.
Lemma demo_good : Forall (good_server (fun t => t)) demo_servers.
Proof.
  destruct C30_C31_instance as (_ & HA & _). inversion HA as [|? ? A1 HA']; subst. inversion HA' as [|? ? A2 _]; subst.
  assert (G : forall source ops, Forall valid_op ops -> utf8 source -> (forall t, In t (all_held ops) -> valid_trace t) -> added_in_order newer (fun t => t) ops ->
    good_server (fun t => t) (demo_srv source ops)).
  { intros source ops H1 H2 H3 H4. split; [exact H1|]. split; [exact (proj1 C25_instance)|]. split; [intros l; reflexivity|]. split; [exact H2|]. split; [exact H3|exact H4]. }
  assert (V : forall ops, forallb (fun t => forallb (fun s => forallb (fun a => Nat.leb (nat_of_ascii a) 127) (list_ascii_of_string s))
                [TraceSource t; TraceID t; TraceCategory t; TraceDurationStr t] &&
                forallb (fun e => forallb (fun a => Nat.leb (nat_of_ascii a) 127) (list_ascii_of_string (What e)) && match Stack e with [] => true | _ => false end) (TraceEvents t)) (all_held ops) = true ->
              forall t, In t (all_held ops) -> valid_trace t).
  { intros ops H t It. rewrite forallb_forall in H. specialize (H t It). apply Bool.andb_true_iff in H as [H E]. cbn [forallb] in H.
    apply Bool.andb_true_iff in H as [H1 H]. apply Bool.andb_true_iff in H as [H2 H]. apply Bool.andb_true_iff in H as [H3 H]. apply Bool.andb_true_iff in H as [H4 _].
    split; [apply ascii_utf8; exact H1|]. split; [apply ascii_utf8; exact H2|]. split; [apply ascii_utf8; exact H3|]. split; [apply ascii_utf8; exact H4|].
    rewrite forallb_forall in E. apply Forall_forall. intros e Ie. specialize (E e Ie). apply Bool.andb_true_iff in E as [E1 E2].
    split; [apply ascii_utf8; exact E1|]. destruct (Stack e); [constructor|discriminate]. }
  assert (U1 : forall t, In t (all_held demo_ops1) -> valid_trace t) by (apply V; vm_compute; reflexivity).
  assert (U2 : forall t, In t (all_held demo_ops2) -> valid_trace t) by (apply V; vm_compute; reflexivity).
  assert (O1 : Forall valid_op demo_ops1) by repeat constructor. assert (O2 : Forall valid_op demo_ops2) by repeat constructor.
  constructor; [|constructor; [|constructor; [|constructor]]]; apply G; try assumption; apply ascii_utf8; reflexivity.
Qed.
Example C72_instance :
  exists req' own r1 r2,
    Normalize demo_compile (cli_search_request (sc_flags demo_cfg) (sc_limit demo_cfg) (sc_depth demo_cfg)) = Ok (req', own) /\
    Forall (good_server (fun t => t)) demo_servers /\
    Forall2 (exchange demo_compile demo_match (fun _ _ _ => 0) small_time parse_small (demo_key 0 "") (fun t => t) req') demo_servers
            [(Some r1, None); (Some r2, None); (None, Some "connection refused")] /\
    exists out, cli_search demo_compile (isort Less) (fun _ l => l) (rev (number 0 [(Some r1, None); (Some r2, None); (None, Some "connection refused")])) 5 demo_cfg = Ok out /\
      map TraceID (resp_Traces (wr_Response out)) = ["4"; "3"] /\ resp_TotalCount (wr_Response out) = 4 /\ resp_Sources (wr_Response out) = ["one"; "two"] /\
      resp_Problems (wr_Response out) = ["connection refused"] /\ wr_Request out = None.
Proof.
  eexists _, _. pose proof demo_good as G. pose proof G as GF. inversion GF as [|? ? G1 GF']; subst. inversion GF' as [|? ? G2 _]; subst.
  assert (V : valid_filter (cli_filter (RE := string) (sc_flags demo_cfg))) by (repeat split; constructor).
  assert (N : Normalize demo_compile (cli_search_request (sc_flags demo_cfg) (sc_limit demo_cfg) (sc_depth demo_cfg)) = Ok (MkReq DefaultBucketing no_filter 2 (-1), [])) by (vm_compute; reflexivity).
  destruct (C72_servers_answer demo_compile demo_match (fun _ _ _ => 0) small_time parse_small small_times (demo_key 0 "") (fun t => t) demo_cfg (MkReq DefaultBucketing no_filter 2 (-1)) [] _ V G1) as (r1 & A1);
    [|exact N|].
  { vm_compute. intros t [<-|[<-|[]]]; (split; [|constructor; [|constructor]]); intros E; discriminate E. }
  destruct (C72_servers_answer demo_compile demo_match (fun _ _ _ => 0) small_time parse_small small_times (demo_key 0 "") (fun t => t) demo_cfg (MkReq DefaultBucketing no_filter 2 (-1)) [] _ V G2) as (r2 & A2);
    [|exact N|].
  { vm_compute. intros t [<-|[<-|[]]]; (split; [|constructor; [|constructor]]); intros E; discriminate E. }
  exists r1, r2. split; [exact N|]. split; [exact G|].
  assert (X : Forall2 (exchange demo_compile demo_match (fun _ _ _ => 0) small_time parse_small (demo_key 0 "") (fun t => t) (MkReq DefaultBucketing no_filter 2 (-1))) demo_servers
            [(Some r1, None); (Some r2, None); (None, Some "connection refused")]) by (repeat constructor; assumption).
  split; [exact X|]. set (outs := [(Some r1, None); (Some r2, None); (None, Some "connection refused")]) in *.
  destruct (C72_search_prints demo_compile demo_match (fun _ _ _ => 0) small_time parse_small small_times (demo_key 0 "") (fun t => t) (isort Less) (fun _ l => l)
    demo_servers outs (rev (number 0 outs)) 5 demo_cfg (MkReq DefaultBucketing no_filter 2 (-1)) []
    (fun tr => snd (Allow demo_compile demo_match (cli_filter (sc_flags demo_cfg)) tr)) (proj1 C25_instance) (fun n l => Permutation_refl l) V G N X
    (Permutation_sym (Permutation_rev _)) (C64_search_filter _ demo_compile demo_match (sc_flags demo_cfg) 2 0)) as (out & E & H1 & H2 & H3 & H4 & H5 & H6 & _).
  exists out. split; [exact E|]. cbn [outs answering demo_servers held_by] in H1, H2, H4, H5.
  split; [|split; [exact H2|split; [|split; [|exact H6]]]].
  - assert (Q : resp_Traces (wr_Response out) = firstn 2 (isort Less (matching (fun t => t) (-1) (fun tr => snd (Allow demo_compile demo_match (cli_filter (sc_flags demo_cfg)) tr))
        (flat_map (fun srv => all_held (srv_ops srv)) [demo_srv "one" demo_ops1; demo_srv "two" demo_ops2])))).
    { eapply highest_unique; [apply newer_strict_weak|exact H1|apply highest_sort, is_sort_newer; exact (proj1 C25_instance)|].
      vm_compute. intros x y [<-|[<-|[<-|[<-|[]]]]] [<-|[<-|[<-|[<-|[]]]]]; discriminate || reflexivity. }
    rewrite Q. vm_compute. reflexivity.
  - apply alphabetical_unique; [exact H3| |].
    + intros i j x y Hij. destruct i as [|[|[|i]]], j as [|[|[|j]]]; cbn; try lia; intros Ex Ey; try discriminate; injection Ex as <-; injection Ey as <-; reflexivity.
    + intros x. rewrite H4. cbn. split; [intros (srv & [<-|[<-|[]]] & <-); cbn; auto|intros [<-|[<-|[]]]; [exists (demo_srv "one" demo_ops1)|exists (demo_srv "two" demo_ops2)]; cbn; auto].
  - apply Permutation_sym, Permutation_length_1_inv in H5. exact H5.
Qed.

(** C95: searches over arbitrary servers. *)
From Verif Require Import Go L_List M_Strings M_Types M_Filter M_Stats S_Order L_Order M_Search S_Search L_Search P_Search S_Multi P_Multi
  M_Web M_Json S_Json P_Json M_JsonText S_JsonText L_JsonText L_JsonRead L_JsonWrite P_JsonText M_Foreign S_Foreign L_Foreign.
From Coq Require Import ZifyBool.
Open Scope string_scope.
Open Scope list_scope.
Open Scope Z_scope.

(** *** Lists with nil *)
Lemma has_nil_spec {A} (l : list (option A)) : has_nil l = true <-> In None l.
Proof.
  unfold has_nil. rewrite existsb_exists. split.
  - intros ([x|] & H1 & H2); [discriminate|exact H1].
  - intros H. exists None. split; [exact H|reflexivity].
Qed.
Lemma somes_map {A} (l : list A) : somes (map Some l) = l.
Proof. unfold somes. induction l as [|x l IH]; [reflexivity|]. cbn. cbn in IH. rewrite IH. reflexivity. Qed.
Lemma has_nil_map {A} (l : list A) : has_nil (map Some l) = false.
Proof. unfold has_nil. induction l as [|x l IH]; [reflexivity|exact IH]. Qed.
Lemma no_nil_somes {A} (l : list (option A)) : ~ In None l -> map Some (somes l) = l.
Proof. unfold somes. induction l as [|[x|] l IH]; intros H; cbn; [reflexivity| |destruct H; left; reflexivity]. cbn in IH. rewrite IH; [reflexivity|]. intros K. apply H. right. exact K. Qed.
Lemma in_somes {A} (x : A) l : In x (somes l) <-> In (Some x) l.
Proof. unfold somes. rewrite in_flat_map. split; [intros ([y|] & H & H'); [destruct H' as [->|[]]; exact H|destruct H']|intros H; exists (Some x); split; [exact H|left; reflexivity]]. Qed.
Lemma f_limit_map n l : f_limit n (map Some l) = map Some (limit_traces n l).
Proof. unfold f_limit, limit_traces, zlen. rewrite map_length. destruct (n <? Z.of_nat (length l)); [apply firstn_map|reflexivity]. Qed.

(** *** When a search panics *)
Section Multi.
Context {RE : Type}.
Variable Compile : string -> RE + string.
Variable sort : list StaticTrace -> list StaticTrace.

Lemma steps_none rs c : tidy rs ->
  match steps None (entries c rs) with
  | Panic => (exists rest, entries c rs = None :: rest) \/ disagree (somes (entries c rs))
  | Ok None => entries c rs = []
  | Ok (Some r) => entries c rs <> [] /\ (forall rest, entries c rs <> None :: rest) /\ ~ disagree (somes (entries c rs)) /\ adds_up r (somes (entries c rs))
  end.
Proof.
  intros Ht. specialize (Ht c). destruct (entries c rs) as [|[e|] es]; cbn [steps step bind]; [reflexivity| |left; exists es; reflexivity].
  pose proof (steps_some es e (Ht e (or_introl eq_refl)) (fun e' H => Ht e' (or_intror H))) as S.
  change (somes (Some e :: es)) with (e :: somes es). destruct (steps (Some e) es) as [st|]; [|right; exact S].
  destruct S as (S1 & r & -> & S2 & S3 & S4 & S5). split; [discriminate|]. split; [discriminate|]. split; [exact S1|]. split; [exact S3|]. split; [exact S4|].
  intros HF i. assert (E : nonblank (e :: somes es) = e :: somes es).
  { clear -HF. induction HF as [|x l Hx HF IH]; [reflexivity|]. rewrite nonblank_cons by exact Hx. rewrite IH. reflexivity. }
  rewrite E in S5. apply S5. discriminate.
Qed.
Lemma disagree_entries rs c : disagree (somes (entries c rs)) <->
  exists e e', In (Some e) (entries c rs) /\ In (Some e') (entries c rs) /\ ~ blank e /\ ~ blank e' /\ length (BucketCounts e) <> length (BucketCounts e').
Proof.
  unfold disagree. split.
  - intros (e & e' & H1 & H2 & H3). apply in_nonblank in H1 as [H1 B1]. apply in_nonblank in H2 as [H2 B2]. rewrite in_somes in H1, H2. exists e, e'. auto.
  - intros (e & e' & H1 & H2 & B1 & B2 & H3). exists e, e'. rewrite !in_nonblank, !in_somes. auto.
Qed.

(** Answers of servers make a search panic if they are bad, and only then. *)
Theorem C95_panics_exactly_if :
  forall orders arrivals (req req' : SearchRequest RE) own,
    (forall n, is_order (orders n)) -> maps (answered arrivals) -> tidy (answered arrivals) -> Normalize Compile req = Ok (req', own) ->
    (f_MultiSearch Compile sort orders arrivals req = Panic <-> bad_answers (length (req_Bucketing req')) (answered arrivals)).
Proof.
  intros orders arr req req' own Ho Hm Ht HN. unfold f_MultiSearch. rewrite HN. cbn [bind].
  rewrite Normalize_spec in HN. injection HN as <- <-. cbn [req_Bucketing req_Limit]. set (b := norm_bucketing (req_Bucketing req)). set (errs := map _ _).
  destruct (norm_cases (req_Bucketing req)) as (_ & (rest & Eb) & _). fold b in Eb. assert (Hb : b <> []) by (rewrite Eb; discriminate). clear Eb.
  pose proof (gather_steps orders b Hb Ho arr 1%nat (MkFResp [] 0 0 [] None errs) (MkFStats b []) Hm eq_refl ltac:(intros c; discriminate)) as G.
  cbn [f_Categories fr_Traces] in G. change (fun c => ours c []) with (fun _ : string => @None CategoryStats) in G.
  destruct (f_gather orders 1 _ _ arr) as [[agg ss]|]; cbn [bind].
  - destruct G as (G1 & _ & _ & G4 & _ & _ & _ & G8 & _). cbn [app] in G8. rewrite G8. unfold f_sort. unfold bad_answers.
    assert (HT : In None (flat_map fr_Traces (answered arr)) /\ (2 <= length (flat_map fr_Traces (answered arr)))%nat <->
                 bad_answers (length b) (answered arr)).
    { split; [intros H; right; right; right; exact H|]. intros [(o & H1 & H2)|[(c & rest' & H)|[(c & H)|H]]]; [|exfalso..|exact H].
      - destruct H2. apply G1. exact H1.
      - specialize (G4 c). change (ours c []) with (@None CategoryStats) in G4. rewrite H in G4. discriminate.
      - specialize (G4 c). change (ours c []) with (@None CategoryStats) in G4. pose proof (steps_none (answered arr) c Ht) as S. rewrite G4 in S.
        apply disagree_entries in H. destruct (ours c (f_Categories ss)); [destruct S as (_ & _ & S & _); exact (S H)|]. rewrite S in H.
        destruct H as (? & ? & [] & _). }
    unfold bad_answers in HT. rewrite <- HT. destruct (has_nil (flat_map fr_Traces (answered arr))) eqn:En.
    + apply has_nil_spec in En. unfold zlen. destruct (Z.leb_spec 2 (Z.of_nat (length (flat_map fr_Traces (answered arr))))) as [L|L]; cbn [bind].
      * split; [intros _; split; [exact En|lia]|reflexivity].
      * split; [discriminate|]. intros [_ L']. lia.
    + cbn [bind]. split; [discriminate|]. intros [H _]. apply has_nil_spec in H. congruence.
  - split; [intros _|reflexivity]. destruct G as [G|(c & G)]; [left; exact G|right]. change (ours c []) with (@None CategoryStats) in G.
    pose proof (steps_none (answered arr) c Ht) as S. rewrite G in S. destruct S as [(rest' & S)|S]; [left; exists c, rest'; exact S|right; left; exists c].
    apply disagree_entries. exact S.
Qed.

(** Otherwise everything they say is put together: the counts are sums, for every category too, and
    the traces are the newest of all. *)
Theorem C95_otherwise_adds_up :
  forall orders arrivals (req req' : SearchRequest RE) r,
    is_sort Less sort -> (forall n, is_order (orders n)) -> maps (answered arrivals) -> tidy (answered arrivals) ->
    f_MultiSearch Compile sort orders arrivals req = Ok (req', r) ->
    let rs := answered arrivals in
    fr_TotalCount r = total (map fr_TotalCount rs) /\ fr_MatchCount r = total (map fr_MatchCount rs) /\
    (forall src, In src (fr_Sources r) <-> exists a, In a rs /\ In src (fr_Sources a)) /\
    (exists own, Normalize Compile req = Ok (req', own) /\ fr_Problems r = own ++ flat_map goes_wrong arrivals) /\
    (flat_map fr_Traces rs = [None] /\ fr_Traces r = [None] \/
     exists all kept, flat_map fr_Traces rs = map Some all /\ fr_Traces r = map Some kept /\ highest newer (Z.to_nat (req_Limit req')) all kept) /\
    exists ss, fr_Stats r = Some ss /\ f_Bucketing ss = req_Bucketing req' /\
      forall c, match map_get c (f_Categories ss) with
                | None => entries c rs = []
                | Some None => False
                | Some (Some cs) => entries c rs <> [] /\ adds_up cs (somes (entries c rs))
                end.
Proof.
  intros orders arr req req' r Hs Ho Hm Ht H. unfold f_MultiSearch in H. rewrite Normalize_spec in H. cbn [bind req_Bucketing req_Limit] in H.
  set (b := norm_bucketing (req_Bucketing req)) in *. set (errs := map _ _) in *.
  destruct (norm_cases (req_Bucketing req)) as (_ & (rest & Eb) & _). fold b in Eb. assert (Hb : b <> []) by (rewrite Eb; discriminate). clear Eb.
  pose proof (gather_steps orders b Hb Ho arr 1%nat (MkFResp [] 0 0 [] None errs) (MkFStats b []) Hm eq_refl ltac:(intros c; discriminate)) as G.
  cbn [f_Categories] in G. destruct (f_gather orders 1 _ _ arr) as [[agg ss]|]; cbn [bind] in H; [|discriminate].
  destruct G as (_ & G2 & G3 & G4 & G5 & G6 & G7 & G8 & G9). cbn [app fr_Sources fr_TotalCount fr_MatchCount fr_Traces fr_Problems] in G5, G6, G7, G8, G9.
  rewrite G8 in H. destruct (f_sort sort (flat_map fr_Traces (answered arr))) as [trs|] eqn:Es; cbn [bind] in H; [|discriminate]. injection H as <- <-.
  cbn [fr_Sources fr_TotalCount fr_MatchCount fr_Traces fr_Problems fr_Stats req_Limit req_Bucketing].
  split; [exact G6|]. split; [exact G7|].
  split. { intros src. rewrite (proj2 (fix_sources_spec (orders 0%nat) (fr_Sources agg) (Ho 0%nat)) src), G5. apply in_flat_map. }
  split. { exists errs. split; [apply Normalize_spec|exact G9]. }
  split.
  { pose proof (effective_limit_bounds (req_Limit req)) as Hl. unfold f_sort in Es. destruct (has_nil (flat_map fr_Traces (answered arr))) eqn:En.
    - left. apply has_nil_spec in En. destruct (flat_map fr_Traces (answered arr)) as [|x [|y l]]; [destruct En| |].
      + destruct En as [->|[]]. injection Es as <-. split; [reflexivity|]. unfold f_limit, zlen. cbn [length]. destruct (Z.ltb_spec (effective_limit (req_Limit req)) (Z.of_nat 1)); [lia|reflexivity].
      + unfold zlen in Es. destruct (Z.leb_spec 2 (Z.of_nat (length (x :: y :: l)))) as [L|L]; [discriminate|cbn [length] in L; lia].
    - right. injection Es as <-. assert (Hn : ~ In None (flat_map fr_Traces (answered arr))) by (intros K; apply has_nil_spec in K; congruence).
      exists (somes (flat_map fr_Traces (answered arr))), (limit_traces (effective_limit (req_Limit req)) (sort (somes (flat_map fr_Traces (answered arr))))).
      split; [symmetry; apply no_nil_somes; exact Hn|]. split; [apply f_limit_map|]. rewrite limit_traces_spec by lia. apply highest_sort, is_sort_newer. exact Hs. }
  exists ss. split; [reflexivity|]. split; [exact G2|]. intros c. specialize (G4 c). change (ours c []) with (@None CategoryStats) in G4.
  pose proof (steps_none (answered arr) c Ht) as S. rewrite G4 in S. unfold ours in S. specialize (G3 c). destruct (map_get c (f_Categories ss)) as [[cs|]|]; [|congruence|exact S].
  destruct S as (S1 & _ & _ & S4). split; [exact S1|exact S4].
Qed.

(** *** Answers without null *)
Definition lift_tuple (t : tuple) : ftuple := MkFTuple (t_id t) (option_map lift (t_res t)) (t_err t).
Definition lift_cats (m : list (string * CategoryStats)) : list (string * option CategoryStats) := map (fun kc => (fst kc, Some (snd kc))) m.
Lemma get_lift c m : map_get c (lift_cats m) = option_map Some (map_get c m).
Proof. induction m as [|[k v] m IH]; [reflexivity|]. cbn. destruct (String.eqb c k); [reflexivity|exact IH]. Qed.
Lemma set_lift c v m : map_set c (Some v) (lift_cats m) = lift_cats (map_set c v m).
Proof. induction m as [|[k w] m IH]; [reflexivity|]. cbn. destruct (String.eqb c k); [reflexivity|]. cbn. unfold lift_cats in *. rewrite IH. reflexivity. Qed.
Lemma keys_lift m : map_keys (lift_cats m) = map_keys m.
Proof. unfold map_keys, lift_cats. rewrite map_map. reflexivity. Qed.
Lemma merge_categories_lift names other : forall m, f_merge_categories names (lift_cats other) (lift_cats m) =
  match merge_categories names other m with Ok m => Ok (lift_cats m) | Panic => Panic end.
Proof.
  induction names as [|c names IH]; intros m; cbn [f_merge_categories merge_categories]; [reflexivity|]. rewrite !get_lift.
  destruct (map_get c other) as [e|]; cbn [option_map]; [|reflexivity]. destruct (map_get c m) as [cs|]; cbn [option_map].
  - change (f_cs_Merge (Some cs) (Some e)) with (step (Some cs) (Some e)). rewrite step_some. destruct (cs_Merge cs e) as [r|]; cbn [bind]; [|reflexivity]. rewrite set_lift. apply IH.
  - rewrite set_lift. apply IH.
Qed.
Lemma ss_Merge_lift order ss o : f_ss_Merge order (lift_stats ss) (option_map lift_stats o) = match ss_Merge order ss o with Ok s => Ok (lift_stats s) | Panic => Panic end.
Proof.
  destruct o as [o|]; [|reflexivity]. cbn [option_map]. unfold f_ss_Merge, ss_Merge, f_ss_IsZero, ss_IsZero. cbn [f_Bucketing lift_stats].
  destruct (zlen (Bucketing o) <=? 0); [reflexivity|]. destruct (zlen (Bucketing ss) <=? 0); [reflexivity|]. destruct (negb (zlen (Bucketing ss) =? zlen (Bucketing o))); [reflexivity|].
  cbn [f_Categories lift_stats]. fold (lift_cats (Categories o)). fold (lift_cats (Categories ss)). rewrite keys_lift, merge_categories_lift.
  destruct (merge_categories _ _ _); reflexivity.
Qed.
Definition lift_agg (r : SearchResponse) : FResponse :=
  MkFResp (resp_Sources r) (resp_TotalCount r) (resp_MatchCount r) (map Some (resp_Traces r)) None (resp_Problems r).
Lemma gather_lift orders ts : forall n agg ss, resp_Stats agg = Some ss -> f_gather orders n (lift_agg agg) (lift_stats ss) (map lift_tuple ts) =
  match gather orders n agg ts with Ok agg' => match resp_Stats agg' with Some ss' => Ok (lift_agg agg', lift_stats ss') | None => Panic end | Panic => Panic end.
Proof.
  induction ts as [|t ts IH]; intros n agg ss Hss; cbn [map f_gather gather]; [rewrite Hss; reflexivity|].
  unfold f_gather1, gather1. destruct t as [id [r|] e]; unfold lift_tuple at 1 2; cbn [ft_res ft_err ft_id t_res t_err t_id option_map].
  - rewrite Hss. cbn [fr_Stats lift]. rewrite ss_Merge_lift. destruct (ss_Merge (orders n) ss (resp_Stats r)) as [ss'|]; cbn [bind]; [|reflexivity].
    match goal with |- context [gather orders (S n) ?a ts] => rewrite <- (IH (S n) a ss' eq_refl) end.
    unfold lift_agg. cbn [fr_Sources fr_TotalCount fr_MatchCount fr_Traces fr_Problems lift resp_Sources resp_TotalCount resp_MatchCount resp_Traces resp_Problems]. rewrite map_app. reflexivity.
  - destruct e as [err|]; cbn [ft_err lift_tuple t_err bind];
      (match goal with |- context [gather orders (S n) ?a ts] => rewrite <- (IH (S n) a ss Hss) end; reflexivity).
Qed.
(** Without null it is the search of C29. *)
Theorem C95_without_null :
  forall orders arrivals (req : SearchRequest RE),
    f_MultiSearch Compile sort orders (map lift_tuple arrivals) req =
    match MultiSearch Compile sort orders arrivals req with Ok (req', resp) => Ok (req', lift resp) | Panic => Panic end.
Proof.
  intros orders arr req. unfold f_MultiSearch, MultiSearch. rewrite Normalize_spec. cbn [bind req_Bucketing req_Limit].
  set (b := norm_bucketing _). set (errs := map _ _).
  pose proof (gather_lift orders arr 1%nat (MkResp [] 0 0 [] (Some (NewSearchStats b)) errs) _ eq_refl) as G.
  assert (S : forall ts n agg ss, resp_Stats agg = Some ss -> forall agg', gather orders n agg ts = Ok agg' -> exists ss', resp_Stats agg' = Some ss').
  { induction ts as [|t ts IH]; intros n agg ss Hs agg' H; cbn [gather] in H; [injection H as <-; eauto|]. unfold gather1 in H.
    destruct (t_res t) as [r|].
    - rewrite Hs in H. destruct (ss_Merge (orders n) ss (resp_Stats r)) as [ss1|]; cbn [bind] in H; [|discriminate]. eapply IH; [|exact H]. reflexivity.
    - destruct (t_err t); cbn [bind] in H; (eapply IH; [|exact H]; exact Hs). }
  change (MkFResp [] 0 0 [] None errs) with (lift_agg (MkResp [] 0 0 [] (Some (NewSearchStats b)) errs)). change (MkFStats b []) with (lift_stats (NewSearchStats b)).
  rewrite G. specialize (S arr 1%nat (MkResp [] 0 0 [] (Some (NewSearchStats b)) errs) _ eq_refl).
  destruct (gather orders 1 _ arr) as [agg|]; cbn [bind]; [|reflexivity]. destruct (S agg eq_refl) as (ss & Ess). rewrite Ess. cbn [bind fr_Traces lift_agg].
  unfold f_sort. rewrite has_nil_map, somes_map. cbn [bind]. rewrite f_limit_map. unfold lift. cbn [resp_Sources resp_TotalCount resp_MatchCount resp_Traces resp_Stats resp_Problems fr_Sources fr_TotalCount fr_MatchCount fr_Problems option_map lift_agg]. reflexivity.
Qed.
End Multi.

(** *** The client *)
Section Client.
Context {RE : Type}.
Variable parse_time : string -> option Z.
Variable StatusText : Z -> string.
Variable json_error : string -> string.
Notation client := (client_search (RE:=RE) parse_time StatusText json_error).
Notation dec_answer := (f_dec_data (RE:=RE) parse_time).

(** An answer with status 200 whose body starts with JSON that decodes is returned; anything else is
    an error that says what was wrong.  There is never both, and never neither. *)
Theorem C95_client :
  (forall err, client (HFailed err) = (None, Some ("execute HTTP request: " ++ err)%string)) /\
  (forall status body, status <> 200 ->
     client (HAnswer status body) = (None, Some ("read HTTP response: server gave HTTP " ++ itoa status ++ " (" ++ StatusText status ++ ")")%string)) /\
  (forall body r, client (HAnswer 200 body) = (Some r, None) ->
     exists w text rest v, white w /\ body = (w ++ text ++ rest)%string /\ value_text text v /\ dec_answer v = Some r) /\
  (forall w text rest v, white w -> value_text text v -> (is_number v -> ends_number rest) ->
     client (HAnswer 200 (w ++ text ++ rest)%string) =
     match dec_answer v with
     | Some r => (Some r, None)
     | None => (None, Some ("decode search response: " ++ json_error (w ++ text ++ rest))%string)
     end) /\
  (forall body, (forall w text rest v, white w -> value_text text v -> body <> (w ++ text ++ rest)%string) ->
     client (HAnswer 200 body) = (None, Some ("decode search response: " ++ json_error body)%string)).
Proof.
  split; [reflexivity|]. split.
  { intros status body H. cbn. destruct (Z.eqb_spec status 200); [contradiction|reflexivity]. }
  assert (E : forall body, client (HAnswer 200 body) =
    match decode body with
    | None => (None, Some ("decode search response: " ++ json_error body)%string)
    | Some (j, _) => match dec_answer j with None => (None, Some ("decode search response: " ++ json_error body)%string) | Some r => (Some r, None) end
    end) by reflexivity.
  split.
  { intros body r. rewrite E. destruct (decode body) as [[j rest]|] eqn:D; [|discriminate]. destruct (dec_answer j) as [r'|] eqn:Dj; [|discriminate].
    intros [= ->]. destruct (decode_sound _ _ _ D) as (w & p & H1 & H2 & H3). exists w, p, rest, j. auto. }
  split.
  { intros w t rest v Hw Ht Hn. rewrite E, (decode_complete w t rest v Hw Ht Hn). destruct (dec_answer v); reflexivity. }
  intros body H. rewrite E. destruct (decode body) as [[j rest]|] eqn:D; [|reflexivity]. destruct (decode_sound _ _ _ D) as (w & p & H1 & H2 & H3). destruct (H w p rest j H1 H3 H2).
Qed.

(** The maps of what it returns have every key once, so that the theorems above apply. *)
Lemma dec_pairs_NoDup {A} (dec : json -> option A) l : forall m m', NoDup (map_keys m) -> dec_pairs dec l m = Some m' -> NoDup (map_keys m').
Proof.
  induction l as [|[k j] l IH]; intros m m' H E; cbn [dec_pairs] in E; [injection E as <-; exact H|].
  destruct (dec j) as [x|]; cbn [obind] in E; [|discriminate]. eapply IH; [|exact E]. apply map_keys_set_NoDup. exact H.
Qed.
Lemma f_dec_stats_NoDup j ss : f_dec_stats parse_time j = Some ss -> NoDup (map fst (f_Categories ss)).
Proof.
  unfold f_dec_stats. destruct (dec_obj j) as [o|]; cbn [obind]; [|discriminate]. destruct (dec_slice dec_num _); cbn [obind]; [|discriminate].
  unfold dec_map. destruct (dec_obj (field "categories" o)) as [o'|]; cbn [obind]; [|discriminate]. destruct (dec_pairs _ o' []) as [m|] eqn:D; cbn [obind]; [|discriminate].
  intros [= <-]. refine (dec_pairs_NoDup _ _ _ _ _ D); constructor.
Qed.
Lemma f_dec_response_stats j r : f_dec_response (RE:=RE) parse_time j = Some r -> exists js, dec_pointer (f_dec_stats parse_time) js = Some (fr_Stats r).
Proof.
  unfold f_dec_response. destruct (dec_obj j) as [o|]; cbn [obind]; [|discriminate]. destruct (dec_pointer _ (field "request" o)); cbn [obind]; [|discriminate].
  destruct (dec_slice _ (field "sources" o)); cbn [obind]; [|discriminate]. destruct (dec_num (field "total_count" o)); cbn [obind]; [|discriminate].
  destruct (dec_num (field "match_count" o)); cbn [obind]; [|discriminate]. destruct (dec_slice _ (field "traces" o)); cbn [obind]; [|discriminate].
  destruct (dec_pointer (f_dec_stats parse_time) (field "stats" o)) as [st|] eqn:E; cbn [obind]; [|discriminate].
  destruct (dec_slice _ (field "problems" o)); cbn [obind]; [|discriminate]. destruct (dec_num (field "duration" o)); cbn [obind]; [|discriminate].
  intros [= <-]. exists (field "stats" o). exact E.
Qed.
Theorem C95_client_returns_maps :
  forall answer r err, client answer = (Some r, err) -> err = None /\ maps [r].
Proof.
  intros [e|status body] r err; cbn [client_search]; [discriminate|]. destruct (negb (status =? 200)); [discriminate|].
  destruct (decode body) as [[j rest]|]; [|discriminate]. destruct (dec_answer j) as [r'|] eqn:E; [|discriminate]. intros [= -> <-]. split; [reflexivity|].
  intros ss H. unfold with_stats in H. cbn [flat_map] in H. rewrite app_nil_r in H. destruct (fr_Stats r) as [ss'|] eqn:Es; [|destruct H].
  destruct (f_Bucketing ss'); [destruct H|]. destruct H as [->|[]].
  unfold f_dec_data in E. destruct (dec_obj j) as [o|]; cbn [obind] in E; [|discriminate]. destruct (dec_request _); cbn [obind] in E; [|discriminate].
  destruct (f_dec_response_stats _ _ E) as (js & D). rewrite Es in D. unfold dec_pointer in D.
  assert (D' : f_dec_stats parse_time js = Some ss) by (destruct js; [discriminate|..]; (destruct (f_dec_stats parse_time _) as [s1|]; [injection D as ->; reflexivity|discriminate])).
  exact (f_dec_stats_NoDup _ _ D').
Qed.

(** What a trc server writes is returned as it is, without null. *)
Lemma dec_slice_pointer {A} (dec : json -> option A) j : match j with JArr js => Forall (fun j => j <> JNull) js | _ => True end ->
  dec_slice (dec_pointer dec) j = option_map (map Some) (dec_slice dec j).
Proof.
  destruct j; try reflexivity. cbn [dec_slice]. induction 1 as [|j js Hj HF IH]; [reflexivity|]. cbn [dec_all].
  assert (E : dec_pointer dec j = option_map Some (dec j)) by (destruct j; [congruence|reflexivity..]). rewrite E. destruct (dec j); cbn; [|reflexivity].
  rewrite IH. destruct (dec_all dec js); reflexivity.
Qed.
Lemma dec_map_pointer (dec : json -> option CategoryStats) j : match j with JObj l => Forall (fun kj => snd kj <> JNull) l | _ => True end ->
  dec_map (dec_pointer dec) j = option_map lift_cats (dec_map dec j).
Proof.
  unfold dec_map. destruct j; try reflexivity. cbn [dec_obj obind]. intros H. change (@nil (string * option CategoryStats)) with (lift_cats []). generalize (@nil (string * CategoryStats)) as m.
  induction H as [|[k j] l Hj HF IH]; intros m; [reflexivity|]. cbn [dec_pairs snd] in *.
  assert (E : dec_pointer dec j = option_map Some (dec j)) by (destruct j; [congruence|reflexivity..]). rewrite E. destruct (dec j); cbn [option_map obind]; [|reflexivity].
  rewrite set_lift. apply IH.
Qed.
Section Trc.
Variable time_text : Z -> option string.
Lemma f_dec_stats_enc s j : enc_stats time_text s j -> f_dec_stats parse_time j = option_map lift_stats (dec_stats parse_time j).
Proof.
  intros (b & c & Hb & Hc & ->). unfold f_dec_stats, dec_stats. fields. destruct (dec_slice dec_num b); cbn [obind]; [|reflexivity].
  rewrite dec_map_pointer.
  - destruct (dec_map _ c); reflexivity.
  - destruct Hc as [[_ ->]|(m' & js & _ & HF & ->)]; [exact Logic.I|]. clear -HF. induction HF as [|x y l l' (_ & (? & ? & ? & _ & _ & _ & H)) HF IH]; constructor; [rewrite H; discriminate|exact IH].
Qed.
Lemma f_dec_response_enc (w : wire_response RE) j : enc_response time_text w j ->
  f_dec_response (RE:=RE) parse_time j = option_map (fun w : wire_response RE => lift (wr_Response w)) (dec_response parse_time j).
Proof.
  intros (jr & jso & jt & jst & jp & Hr & Hs & Ht & Hst & Hp & ->). unfold f_dec_response, dec_response. fields.
  destruct (dec_pointer dec_request (oget jr)); cbn [obind]; [|reflexivity]. destruct (dec_slice dec_string jso); cbn [obind dec_num]; [|reflexivity].
  rewrite dec_slice_pointer.
  2:{ destruct Ht as [[_ ->]|(js & -> & HF)]; [exact Logic.I|]. clear -HF. induction HF as [|x y l l' (? & ? & ? & _ & _ & _ & H) HF IH]; constructor; [rewrite H; discriminate|exact IH]. }
  destruct (dec_slice (dec_static parse_time) jt); cbn [obind option_map]; [|reflexivity].
  assert (E : dec_pointer (f_dec_stats parse_time) (oget jst) = option_map (option_map lift_stats) (dec_pointer (dec_stats parse_time) (oget jst))).
  { destruct (resp_Stats (wr_Response w)) as [s|]; cbn [enc_option] in Hst; [|subst jst; reflexivity]. destruct Hst as (j & -> & Hj). cbn [oget].
    pose proof (f_dec_stats_enc s j Hj) as E. destruct Hj as (? & ? & _ & _ & ->). match goal with |- dec_pointer ?f (obj ?l) = option_map ?g (dec_pointer ?f' (obj ?l)) => change (option_map Some (f (obj l)) = option_map g (option_map Some (f' (obj l)))) end. rewrite E. destruct (dec_stats _ _); reflexivity. }
  rewrite E. destruct (dec_pointer (dec_stats parse_time) (oget jst)); cbn [obind option_map]; [|reflexivity].
  destruct (dec_slice dec_string (oget jp)); reflexivity.
Qed.
End Trc.
Theorem C95_trc_servers :
  forall time_text, times_read_back time_text parse_time -> times_are_text time_text ->
  forall short (req : SearchRequest RE) w j, enc_data time_text req w j -> valid_response (wr_Response w) -> proper_response (wr_Response w) ->
  forall rest, exists resp, client (HAnswer 200 (text short (Some 0%nat) j ++ rest)%string) = (Some (lift resp), None) /\ same_response (wr_Response w) resp.
Proof.
  intros tt Htb Htt short req w j E Hv Hp rest. pose proof (data_writable tt Htt req w j E) as W.
  destruct (C90_written_reads_back short (Some 0%nat) j W) as [_ R]. destruct E as (jr & jw & Er & Ew & ->).
  destruct (proj2 (C56_response_roundtrip RE tt parse_time Htb w) jw Ew Hv Hp) as (w' & D & S & _).
  exists (wr_Response w'). split; [|exact S]. cbn [client_search Z.eqb negb]. rewrite R by (intros []).
  assert (Ed : dec_answer (obj [("request", Some jr); ("response", Some jw)]) = Some (lift (wr_Response w'))).
  { unfold f_dec_data. fields. rewrite (proj1 (proj2 (C56_request_roundtrip RE req)) jr Er). cbn [obind]. rewrite (f_dec_response_enc tt w jw Ew), D. reflexivity. }
  rewrite Ed. reflexivity.
Qed.

(** Finding: any JSON object without these fields, such as the error of another server, and null, is
    taken for the answer of a server that has no traces.  Nothing is reported. *)
Lemma field_absent k l : (forall k' j, In (k', j) l -> k' <> k) -> field k l = JNull.
Proof.
  induction l as [|[k' j] l IH]; intros H; [reflexivity|]. cbn [field]. rewrite IH by (intros k1 j1 H1; apply (H k1 j1); right; exact H1).
  destruct (String.eqb_spec k k') as [->|]; [|reflexivity]. destruct (H k' j (or_introl eq_refl) eq_refl).
Qed.
Theorem C95_unrelated_answer_refuted :
  forall w text rest v, white w -> value_text text v -> v = JNull \/ (exists l, v = JObj l /\ forall k j, In (k, j) l -> k <> "request" /\ k <> "response") ->
  let answer := client (HAnswer 200 (w ++ text ++ rest)%string) in
  answer = (Some (MkFResp [] 0 0 [] None []), None) /\
  forall id, goes_wrong (MkFTuple id (fst answer) (snd answer)) = [].
Proof.
  intros w t rest v Hw Ht Hv answer.
  assert (Hn : ~ is_number v) by (destruct Hv as [->|(l & -> & _)]; intros []).
  assert (E : answer = (Some (MkFResp [] 0 0 [] None []), None)).
  { subst answer. rewrite (proj1 (proj2 (proj2 (proj2 C95_client))) w t rest v Hw Ht ltac:(intros K; destruct (Hn K))).
    destruct Hv as [->|(l & -> & H)]; [reflexivity|]. unfold f_dec_data. cbn [dec_obj obind].
    rewrite (field_absent "request" l) by (intros k j K; apply (H k j K)). rewrite (field_absent "response" l) by (intros k j K; apply (H k j K)). reflexivity. }
  split; [exact E|]. intros id. rewrite E. reflexivity.
Qed.
End Client.

(** Finding: which server answers first may decide whether a search panics.  A category that is null
    is ignored if another server has described it before. *)
Definition demo_compile (s : string) : unit + string := inl tt.
Definition demo_req : SearchRequest unit := MkReq [0; 10] (MkFilter [] [] "" false false None false false "" None) 5 0.
Definition demo_entry (n : Z) (counts : list Z) : CategoryStats := MkCS "api" 0 n counts 0 5 9.
Definition demo_answer (e : option CategoryStats) (trs : list (option StaticTrace)) : FResponse :=
  MkFResp ["s"] 3 2 trs (Some (MkFStats [0; 10] [("api", e)])) [].
Theorem C95_arrival_decides_refuted :
  exists (a b : ftuple) (req : SearchRequest unit), maps (answered [a; b]) /\ tidy (answered [a; b]) /\
    forall sort orders, (forall n, is_order (orders n)) ->
      (exists res, f_MultiSearch demo_compile sort orders [a; b] req = Ok res) /\ f_MultiSearch demo_compile sort orders [b; a] req = Panic.
Proof.
  exists (MkFTuple "1" (Some (demo_answer (Some (demo_entry 1 [2; 1])) [])) None), (MkFTuple "2" (Some (demo_answer None [])) None), demo_req.
  assert (HM : forall x y, maps [demo_answer x []; demo_answer y []]).
  { intros x y ss H. cbn in H. destruct H as [<-|[<-|[]]]; repeat constructor; intros []. }
  assert (HT : forall x y, (x = None \/ y = None) -> (x = Some (demo_entry 1 [2; 1]) \/ y = Some (demo_entry 1 [2; 1])) -> tidy [demo_answer x []; demo_answer y []]).
  { intros x y Hx Hy c e H. cbn in H. right. destruct (String.eqb c "api"); cbn in H; [|destruct H]. 
    destruct H as [H|[H|[]]], Hx as [Hx|Hx], Hy as [Hy|Hy]; subst; try discriminate; injection H as <-; discriminate. }
  split; [apply HM|]. split; [apply HT; auto|]. intros sort orders Ho.
  assert (HN : exists own, Normalize demo_compile demo_req = Ok (MkReq [0; 10] (fst (FilterNormalize demo_compile (req_Filter demo_req))) 5 0, own)) by (eexists; reflexivity).
  destruct HN as (own & HN). split.
  - match goal with |- exists res, ?m = Ok res => destruct m as [res|] eqn:E; [exists res; reflexivity|exfalso] end.
    eapply (C95_panics_exactly_if demo_compile sort orders) in E; [|exact Ho|apply HM|apply HT; auto|exact HN].
    destruct E as [(ss & H & L)|[(c & rest & H)|[(c & e & e' & H & H' & _ & _ & L)|[H _]]]]; cbn in *.
    + destruct H as [<-|[<-|[]]]; apply L; reflexivity.
    + destruct (String.eqb c "api"); discriminate.
    + destruct (String.eqb c "api"); cbn in H, H'; [|destruct H]. destruct H as [[= <-]|[H|[]]], H' as [[= <-]|[H'|[]]]; try discriminate. apply L. reflexivity.
    + destruct H.
  - eapply (C95_panics_exactly_if demo_compile sort orders); [exact Ho|apply HM|apply HT; auto|exact HN|].
    right. left. exists "api", [Some (demo_entry 1 [2; 1])]. reflexivity.
Qed.

(** Three servers: one describes a category, one has null for it, one failed.  The counts are those of
    the first; traces and problems of all are there. *)
Example C95_instance :
  let arrivals := [MkFTuple "1" (Some (demo_answer (Some (demo_entry 1 [2; 1])) [Some (MkStatic "s" "a" "api" 5 1 "" true false [])])) None;
                   MkFTuple "2" (Some (demo_answer None [])) None;
                   MkFTuple "3" None (Some "execute HTTP request: refused");
                   MkFTuple "4" (Some (demo_answer (Some (demo_entry 4 [3; 3])) [])) None] in
  f_MultiSearch demo_compile (fun l => l) (fun _ l => l) arrivals demo_req =
  Ok (MkReq [0; 10] (req_Filter demo_req) 5 0,
      MkFResp ["s"] 9 6 [Some (MkStatic "s" "a" "api" 5 1 "" true false [])] (Some (MkFStats [0; 10] [("api", Some (demo_entry 5 [5; 4]))])) ["execute HTTP request: refused"]).
Proof. vm_compute. reflexivity. Qed.
(** The client, for the error of another server with status 200, for an error, and for an answer. *)
Example C95_client_instance :
  let client := client_search (RE:=unit) (fun _ => None) (fun _ => "Not Found") (fun _ => "EOF") in
  client (HAnswer 200 "{""error"": ""not found""}") = (Some (MkFResp [] 0 0 [] None []), None) /\
  client (HAnswer 404 "not found") = (None, Some "read HTTP response: server gave HTTP 404 (Not Found)") /\
  client (HAnswer 200 "") = (None, Some "decode search response: EOF") /\
  client (HAnswer 200 "{""response"": {""total_count"": 3, ""traces"": [null], ""stats"": {""bucketing"": [0], ""categories"": {""c"": null}}}}") =
    (Some (MkFResp [] 3 0 [None] (Some (MkFStats [0] [("c", None)])) []), None).
Proof. vm_compute. repeat split. Qed.

Print Assumptions C95_panics_exactly_if.
Print Assumptions C95_otherwise_adds_up.
Print Assumptions C95_without_null.
Print Assumptions C95_client.
Print Assumptions C95_client_returns_maps.
Print Assumptions C95_trc_servers.
Print Assumptions C95_unrelated_answer_refuted.
Print Assumptions C95_arrival_decides_refuted.

(** C112: the counts by which M_SearchLog represents a search are those of the responses of M_Search. *)
From Verif Require Import Go L_List M_Strings M_Types M_Frame M_Filter M_Stats S_Order M_Search S_Search L_Search M_SearchLog S_SearchLog P_SearchLog.
Open Scope string_scope.
Open Scope list_scope.
Open Scope Z_scope.

Definition counts_of (r : SearchResponse) : counts := (resp_TotalCount r, resp_MatchCount r, zlen (resp_Traces r)).
Definition outcome_of (o : option SearchResponse * option string) : outcome := (option_map counts_of (fst o), snd o).

Lemma number_outcomes outcomes : forall i, map (fun t => (t_res t, t_err t)) (number i outcomes) = outcomes.
Proof. induction outcomes as [|[r e] outcomes IH]; intros i; [reflexivity|]. cbn [number map t_res t_err]. now rewrite IH. Qed.

Definition tuple_outcome (t : tuple) : outcome := outcome_of (t_res t, t_err t).

Lemma gather_counts orders : forall ts n agg agg', gather orders n agg ts = Ok agg' ->
  counts_of agg' = (resp_TotalCount agg + sum (map (fun c => fst (fst c)) (answered (map tuple_outcome ts))),
                    resp_MatchCount agg + sum (map (fun c => snd (fst c)) (answered (map tuple_outcome ts))),
                    zlen (resp_Traces agg) + sum (map snd (answered (map tuple_outcome ts)))).
Proof.
  induction ts as [|t ts IH]; intros n agg agg' H; cbn [gather] in H.
  - injection H as <-. cbn. unfold counts_of. now rewrite !Z.add_0_r.
  - destruct (gather1 (orders n) agg t) as [agg1|] eqn:E; cbn [bind] in H; [|discriminate]. rewrite (IH _ _ _ H).
    cbn [map]. unfold answered. cbn [flat_map]. fold (answered (map tuple_outcome ts)).
    unfold gather1 in E. change (tuple_outcome t) with (option_map counts_of (t_res t), t_err t). cbn [fst].
    destruct (t_res t) as [r|]; cbn [option_map].
    + destruct (resp_Stats agg) as [ss|]; [|discriminate]. destruct (ss_Merge _ _ _) as [ss1|]; cbn [bind] in E; [|discriminate].
      injection E as <-. cbn [resp_TotalCount resp_MatchCount resp_Traces map app sum fold_right counts_of fst snd].
      unfold zlen. rewrite app_length, Nat2Z.inj_add. f_equal; [f_equal|]; unfold sum; cbn [fold_right]; lia.
    + destruct (t_err t); injection E as <-; reflexivity.
Qed.

Theorem C112_counts_are_those_of_the_responses :
  forall RE (Compile : string -> RE + string) sort orders (outcomes : list (option SearchResponse * option string)) arrivals
         (req req' : SearchRequest RE) r,
    is_sort Less sort -> Permutation arrivals (number 0 outcomes) ->
    MultiSearch Compile sort orders arrivals req = Ok (req', r) ->
    counts_of r = total_of (req_Limit req') (map outcome_of outcomes).
Proof.
  intros RE Compile sort orders outcomes arrivals req req' r Hs HP H. unfold MultiSearch in H. rewrite Normalize_spec in H. cbn [bind req_Bucketing req_Limit] in H.
  destruct (gather orders 1 _ arrivals) as [agg|] eqn:E; cbn [bind] in H; [|discriminate].
  assert (Hr : req_Limit req' = effective_limit (req_Limit req)) by (injection H as <- _; reflexivity).
  assert (HT : resp_Traces r = limit_traces (effective_limit (req_Limit req)) (sort (resp_Traces agg))) by (injection H as _ <-; reflexivity).
  assert (H1 : resp_TotalCount r = resp_TotalCount agg) by (injection H as _ <-; reflexivity).
  assert (H2 : resp_MatchCount r = resp_MatchCount agg) by (injection H as _ <-; reflexivity).
  pose proof (gather_counts _ _ _ _ _ E) as G. cbn [resp_TotalCount resp_MatchCount resp_Traces] in G.
  change (zlen (@nil StaticTrace)) with 0 in G. rewrite !Z.add_0_l in G.
  transitivity (total_of (req_Limit req') (map tuple_outcome arrivals)).
  - unfold counts_of in G |- *. injection G as G1 G2 G3. unfold total_of. rewrite <- G1, <- G2, <- G3, H1, H2, HT, Hr. f_equal.
    destruct (Hs (resp_Traces agg)) as [HPs _]. apply Permutation_length in HPs. unfold limit_traces, zlen. rewrite HPs.
    assert (1 <= effective_limit (req_Limit req)) by (unfold effective_limit; destruct (Z.leb_spec (req_Limit req) 0); lia).
    destruct (Z.ltb_spec (effective_limit (req_Limit req)) (Z.of_nat (length (resp_Traces agg)))); [rewrite firstn_length|]; lia.
  - apply total_perm. rewrite <- (number_outcomes outcomes 0), map_map. apply Permutation_map, HP.
Qed.
Print Assumptions C112_counts_are_those_of_the_responses.

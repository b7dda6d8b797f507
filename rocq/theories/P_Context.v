(** C43, C44, C45: contexts, traces made by a collector, prefixes. *)
From Verif Require Import Go L_List M_Strings M_Types M_Filter S_Trace M_Trace S_TraceView L_Trace M_RingBuf M_RingBufs S_Collector L_RingBufs M_Fmt L_Fmt M_Broker S_Broker M_Decor S_Decor L_Decor.
From Coq Require Import Lia.
Open Scope string_scope.
Open Scope list_scope.

(** C43.  Get and MaybeGet return the trace most recently Put on the way to a context... *)
Lemma contexts_app {arg} (ds1 ds2 : list (derivation arg)) : contexts (ds1 ++ ds2) = fold_left derive1 ds2 (contexts ds1).
Proof. apply fold_left_app. Qed.
Lemma contexts_length {arg} (ds : list (derivation arg)) : length (contexts ds) = S (length ds).
Proof.
  induction ds as [|d ds IH] using rev_ind; [reflexivity|]. rewrite contexts_app. cbn [fold_left]. unfold derive1. rewrite !app_length, IH. cbn. lia.
Qed.
Lemma contexts_stable {arg} (ds more : list (derivation arg)) i : (i <= length ds)%nat ->
  nth i (contexts (ds ++ more)) Background = nth i (contexts ds) Background.
Proof.
  intros H. induction more as [|d more IH] using rev_ind; [rewrite app_nil_r; reflexivity|].
  rewrite app_assoc, contexts_app. cbn [fold_left]. unfold derive1. rewrite app_nth1; [exact IH|]. rewrite contexts_length, app_length. lia.
Qed.
Theorem C43_innermost_trace_wins :
  forall (arg : Type) (ds : list (derivation arg)) (i : nat) (t : trace arg),
    well_formed ds -> (i <= length ds)%nat ->
    (MaybeGet (nth i (contexts ds) Background) = Some t <-> innermost ds i t).
Proof.
  intros arg ds i t Hwf. revert t. induction i as [i IH] using lt_wf_ind. intros t Hi.
  destruct i as [|i].
  - assert (E : nth 0 (contexts ds) Background = Background) by (exact (contexts_stable [] ds 0 (Nat.le_0_l _))). rewrite E. split; [discriminate|]. inversion 1.
  - destruct (nth_error ds i) as [d|] eqn:En; [|apply nth_error_None in En; lia].
    destruct (nth_error_split ds i En) as (ds1 & ds2 & Eds & El).
    assert (E : nth (S i) (contexts ds) Background = match d with DPut from t => WithTrace (nth from (contexts ds) Background) t | DOther from => WithOther (nth from (contexts ds) Background) end).
    { assert (E1 : nth (S i) (contexts ds) Background = nth (S i) (contexts (ds1 ++ [d])) Background).
      { rewrite Eds. change (d :: ds2) with ([d] ++ ds2). rewrite app_assoc. apply contexts_stable. rewrite app_length. cbn. lia. }
      rewrite E1, contexts_app. cbn [fold_left]. unfold derive1. rewrite app_nth2; rewrite contexts_length; [|lia]. rewrite El, Nat.sub_diag. cbn [nth].
      pose proof (Hwf i d En) as Hf. destruct d as [from t0|from]; cbn [fst Put]; rewrite Eds, contexts_stable by lia; reflexivity. }
    pose proof (Hwf i d En) as Hf. rewrite E. destruct d as [from t0|from]; cbn [MaybeGet].
    + split; [intros [= <-]; econstructor; exact En|]. intros H. inversion H as [? ? ? E'|? ? ? E']; subst; rewrite En in E'; [injection E' as _ ->; reflexivity|discriminate].
    + rewrite IH by lia. split; [intros H; eapply innermost_other; eassumption|]. intros H. inversion H as [? ? ? E'|? ? ? E']; subst; rewrite En in E'; [discriminate|]. injection E' as <-. assumption.
Qed.
Print Assumptions C43_innermost_trace_wins.
(** ... whatever is derived later... *)
Theorem C43_earlier_contexts_unaffected :
  forall (arg : Type) (ds more : list (derivation arg)) (i : nat), (i <= length ds)%nat ->
    nth i (contexts (ds ++ more)) Background = nth i (contexts ds) Background.
Proof. intros. apply contexts_stable. assumption. Qed.
Print Assumptions C43_earlier_contexts_unaffected.
(** ... and without a trace Get makes a new one, called (orphan), each time. *)
Theorem C43_get :
  forall (arg world pc RE : Type) (b b' : birth arg pc) (c : ctx arg) (s : sys arg pc RE),
    (forall t, MaybeGet c = Some t -> Get b c s = (s, t)) /\
    (MaybeGet c = None ->
     let '(s1, t1) := Get b c s in
     let '(s2, t2) := Get b' c s1 in
     t_core t1 = length (s_cores s) /\ t_core t2 = S (t_core t1) /\
     Source (core_at s1 (t_core t1)) = "" /\ Category (core_at s1 (t_core t1)) = "(orphan)" /\ ID (core_at s1 (t_core t1)) = b_id b /\
     ct_events (core_at s1 (t_core t1)) = [] /\ Finished (core_at s1 (t_core t1)) = false /\
     (forall j, (j < length (s_cores s))%nat -> core_at s1 j = core_at s j) /\
     (forall j, (j <= length (s_cores s))%nat -> core_at s2 j = core_at s1 j)).
Proof.
  intros arg world pc RE b b' c s. unfold Get. split; [intros t ->; reflexivity|]. intros ->.
  unfold new_core. cbn [s_cores t_core fst snd].
  assert (E : core_at (MkSys (s_cores s ++ [newCoreTrace (b_globals b) (b_now b) (b_id b) (b_pooled b) "" "(orphan)"]) (s_broker s) (s_out s)) (length (s_cores s))
              = newCoreTrace (b_globals b) (b_now b) (b_id b) (b_pooled b) "" "(orphan)").
  { unfold core_at. cbn [s_cores]. rewrite app_nth2, Nat.sub_diag by lia. reflexivity. }
  rewrite E, app_length, Nat.add_1_r. repeat split.
  - intros j Hj. unfold core_at. cbn [s_cores]. apply app_nth1. exact Hj.
  - intros j Hj. unfold core_at. cbn [s_cores]. rewrite app_nth1 by (rewrite app_length; cbn; lia). reflexivity.
Qed.
Print Assumptions C43_get.
Example C43_instance :
  let ds := [DOther 0; DPut 1 (TCore 5); DOther 2; DPut 2 (TCore 7); DOther 0] in
  @well_formed nat ds /\ map MaybeGet (contexts ds) = [None; None; Some (TCore 5); Some (TCore 5); Some (TCore 7); None].
Proof.
  split; [|reflexivity]. intros i d H. destruct i as [|[|[|[|[|i]]]]]; cbn in H; try (injection H as <-; cbn; lia). destruct i; discriminate.
Qed.

Section Context_.
Context {arg world pc RE : Type}.
Variable Sprintf : world -> string -> list arg -> string.
Variable CallersFrames : list pc -> list rframe.
Variable Compile : string -> RE + string.
Variable MatchString : RE -> string -> bool.
Variable str : string -> arg.
Variable caps : string -> Z.
Notation NewTrace := (NewTrace Sprintf CallersFrames Compile MatchString str caps).
Notation New := (New Sprintf CallersFrames Compile MatchString str caps).
Notation t_log := (t_log Sprintf CallersFrames Compile MatchString caps).
Notation decorate_all := (decorate_all Sprintf CallersFrames Compile MatchString str caps).
Notation decorate := (decorate Sprintf CallersFrames Compile MatchString str caps).
Notation publish := (publish Sprintf CallersFrames Compile MatchString caps).
Notation run := (run Sprintf CallersFrames).
Notation grows := (@grows arg world pc RE Sprintf CallersFrames).

(** The event that a call through a decorated trace stores. *)
Lemma log_stores t k f a es s s' : exists_ s t -> t_log t k f a es s = Ok s' ->
  let c := core_at s (t_core t) in let c' := core_at s' (t_core t) in
  Finished c = false -> (zlen (ct_events c) < ct_eventsmax c)%Z ->
  map ev_info (ct_events c') =
  map ev_info (ct_events c) ++ [(e_now (d_env (es (depth t))), (prefix_format t ++ f)%string, prefix_args t ++ a, is_error_kind k)].
Proof.
  intros H E c c' Hf Hl. destruct (t_log_grows _ _ _ _ _ _ _ _ _ _ _ _ H E) as (rs & R & _ & Ec & _). unfold c'. rewrite Ec. fold c.
  destruct (stored_spec_gen Sprintf CallersFrames ((d_env (es (depth t)), CallLog k (prefix_format t ++ f)%string (prefix_args t ++ a)) :: rs) c Hf) as [H1 _].
  rewrite H1. f_equal. cbn [before_finish is_finish snd stored_from]. apply Z.ltb_lt in Hl. rewrite Hl. cbn [map call_info snd fst]. f_equal.
  clear -R. generalize (zlen (ct_events c) + 1)%Z. intros z. induction R as [|x rs Hx R IH]; [reflexivity|].
  destruct x as [e [ | | |]]; try discriminate. exact IH.
Qed.

(** C44.  NewTrace in a context with a trace: nothing is created, context and trace are the
    ones passed in, and the trace gets one event. *)
Theorem C44_adds_an_event :
  forall coll b c t category ds es s, MaybeGet c = Some t -> exists_ s t -> as_collected t = true ->
    exists s', NewTrace coll b c category ds es s = Ok (c, t, s', coll, []) /\
      length (s_cores s') = length (s_cores s) /\
      (forall j, j <> t_core t -> core_at s' j = core_at s j) /\
      let before := core_at s (t_core t) in let after := core_at s' (t_core t) in
      Errored after = Errored before /\ Finished after = Finished before /\
      (zlen (ct_events after) + ct_truncated after = zlen (ct_events before) + ct_truncated before + (if Finished before then 0 else 1))%Z /\
      (Finished before = false -> (zlen (ct_events before) < ct_eventsmax before)%Z ->
       map ev_info (ct_events after) =
       map ev_info (ct_events before) ++
         [(e_now (d_env (es (depth t))), (prefix_format t ++ "(+ %s)")%string, prefix_args t ++ [str category], false)]).
Proof.
  intros coll b c t category ds es s Hc Hx Ha. unfold M_Decor.NewTrace. rewrite Hc.
  destruct (t_log_ok Sprintf CallersFrames Compile MatchString caps t Ha KLazyTracef "(+ %s)" [str category] es s) as (s' & E).
  rewrite E. cbn [bind]. exists s'. split; [reflexivity|]. pose proof (log_stores t _ _ _ _ _ _ Hx E) as Hst. cbv zeta in Hst.
  destruct (t_log_grows _ _ _ _ _ _ _ _ _ _ _ _ Hx E) as (rs & R & A & B & C). split; [exact A|]. split; [exact C|]. cbv zeta.
  pose proof (f_equal shadow B) as Sh. rewrite run_cons, shadow_reads in Sh by exact R. unfold M_Trace.do_call in Sh. cbn [snd fst] in Sh.
  rewrite do_log_eq in Sh. cbn [is_error_kind] in Sh. unfold Errored, Finished in *.
  destruct (ct_finished (core_at s (t_core t))) eqn:Ef.
  - unfold shadow in Sh. injection Sh; intros. unfold zlen. repeat split; try congruence; lia.
  - unfold add_event in Sh. destruct (Z.leb_spec (ct_eventsmax (core_at s (t_core t))) (zlen (ct_events (core_at s (t_core t)))));
      unfold shadow in Sh; cbn [ct_source ct_id ct_category ct_start ct_errored ct_finished ct_duration ct_nostack ct_events ct_eventsmax ct_truncated] in Sh;
      rewrite ?app_length in Sh; cbn [length] in Sh; injection Sh; intros; (split; [congruence|]); (split; [congruence|]); (split; [unfold zlen; lia|]); intros _ Hl; apply Hst; auto.
Qed.

(** Decorators, in order. *)
Lemma decorate_all_spec decs : forall ds t s t' s', exists_ s t -> decorate_all decs ds t s = Ok (t', s') ->
  t' = fold_left (wrap s) decs t /\ t_core t' = t_core t /\
  exists rs, Forall (fun c => is_read c = true) rs /\ grows s (t_core t) rs s'.
Proof.
  induction decs as [|dec decs IH]; intros ds t s t' s' H E; cbn [M_Decor.decorate_all] in E.
  - injection E as <- <-. split; [reflexivity|]. split; [reflexivity|]. exists []. split; [constructor|]. apply grows_refl.
  - apply bind_ok in E as ([t1 s1] & E1 & E2).
    assert (G : t1 = wrap s t dec /\ t_core t1 = t_core t /\ exists rs, Forall (fun c => is_read c = true) rs /\ grows s (t_core t) rs s1).
    { destruct dec as [|dst]; cbn [M_Decor.decorate] in E1.
      - apply bind_ok in E1 as (s2 & E3 & E4). injection E4 as <- <-. split; [reflexivity|]. split; [reflexivity|].
        destruct (publish_grows _ _ _ _ _ _ _ _ _ H E3) as (_ & rs & R & G). eauto.
      - injection E1 as <- <-. split; [reflexivity|]. split; [reflexivity|]. exists []. split; [constructor|]. eapply grows_cores; [apply grows_refl|reflexivity]. }
    destruct G as (-> & Hc & rs & R & G).
    assert (H1 : exists_ s1 (wrap s t dec)) by (unfold exists_; rewrite Hc; exact (exists_grows _ _ _ _ _ _ _ G H)).
    destruct (IH _ _ _ _ _ H1 E2) as (Et & Hc2 & rs2 & R2 & G2). rewrite Hc in *. split; [|split; [exact Hc2|]].
    + rewrite Et. cbn [fold_left].
      assert (Hw : forall decs t0, t_core t0 = t_core t -> fold_left (wrap s1) decs t0 = fold_left (wrap s) decs t0).
      { destruct G as (_ & B & _). pose proof (f_equal shadow B) as Sh. rewrite shadow_reads in Sh by exact R. unfold shadow in Sh.
        assert (Eid : ID (core_at s1 (t_core t)) = ID (core_at s (t_core t))) by (unfold ID; congruence).
        clear -Eid. induction decs as [|d decs IHd]; intros t0 Ht0; [reflexivity|]. cbn [fold_left].
        assert (Ew : wrap s1 t0 d = wrap s t0 d) by (destruct d; cbn [wrap]; [reflexivity|rewrite Ht0, Eid; reflexivity]).
        rewrite Ew. apply IHd. destruct d; exact Ht0. }
      apply Hw. exact Hc.
    + exists (rs ++ rs2). split; [apply Forall_app; auto|]. exact (grows_trans _ _ _ _ _ _ _ _ G G2).
Qed.
Lemma decorate_logs decs : Forall (fun d => d <> DPublish) decs -> forall ds t s,
  exists t' s', decorate_all decs ds t s = Ok (t', s') /\ s_cores s' = s_cores s /\ s_broker s' = s_broker s.
Proof.
  induction 1 as [|d decs Hd Hs IH]; intros ds t s; cbn [M_Decor.decorate_all]; [eauto|].
  destruct d as [|dst]; [congruence|]. cbn [M_Decor.decorate bind]. edestruct IH as (t' & s' & E & A & B). rewrite E. eauto.
Qed.

(** NewTrace in a context without a trace: a new trace, first in its category, and the one in
    the returned context, with the collector's decorators around the publishing one, the
    last one outermost. *)
Lemma maybeFree_other t (s : sys arg pc RE) j : exists_ s t -> j <> t_core t ->
  core_at (fst (maybeFree t s)) j = core_at s j /\ length (s_cores (fst (maybeFree t s))) = length (s_cores s).
Proof.
  intros H Hj. unfold maybeFree. destruct (has_Free t) eqn:Hf; [|auto]. revert Hf.
  induction t as [i|t IH|t IH id d|t IH pf pa]; intros Hf; cbn [t_Free has_Free] in *; try discriminate.
  - destruct (Free (core_at s i)) as [c freed]. cbn [fst]. rewrite core_at_set by exact H. apply Nat.eqb_neq in Hj. cbn [t_core] in Hj. rewrite Hj.
    split; [reflexivity|apply update_length].
  - destruct (has_Free t) eqn:E; [|auto]. apply IH; assumption || reflexivity.
  - destruct (has_Free t) eqn:E; [|auto]. apply IH; assumption || reflexivity.
Qed.
Theorem C44_new_trace :
  forall coll b c category ds es s ops freed,
    MaybeGet c = None -> Forall (fun d => d <> DPublish) (c_decorators coll) ->
    (* the collector's storage is the result of what was done to it, and all its traces exist *)
    Forall valid_op ops -> coll_run (nil_trace) new_collector_storage ops = Ok (c_categories coll, freed) ->
    (forall cat t, In t (held cat ops) -> exists_ s t) ->
    exists c' t' s' coll' dropped,
      NewTrace coll b c category ds es s = Ok (c', t', s', coll', dropped) /\
      t_core t' = length (s_cores s) /\ length (s_cores s') = S (length (s_cores s)) /\
      MaybeGet c' = Some t' /\
      (exists older, category_content (c_categories coll') category = Some (Ok (t' :: older)) /\
                     t' :: held category ops = t' :: older ++ dropped) /\
      (forall other, other <> category -> category_content (c_categories coll') other = category_content (c_categories coll) other) /\
      (let new := core_at s' (t_core t') in
       Source new = c_source coll /\ Category new = category /\ ID new = b_id b /\ Started new = b_now b /\
       Finished new = false /\ Errored new = false /\ ct_events new = []) /\
      t' = fold_left (fun t d => match d with DPublish => TPublish t | DLog dst => TLog t (b_id b) dst end)
                     (DPublish :: c_decorators coll) (TCore (length (s_cores s))).
Proof.
  intros coll b c category ds es s ops freed Hc Hd Hv Hrun Hheld. unfold M_Decor.NewTrace. rewrite Hc.
  unfold M_Decor.New, new_core. set (core := newCoreTrace _ _ _ _ _ _). set (s0 := MkSys _ _ _). set (n := length (s_cores s)).
  cbn [M_Decor.decorate_all M_Decor.decorate].
  assert (H0 : exists_ s0 (TCore n)) by (unfold exists_, s0; cbn [s_cores t_core]; rewrite app_length; cbn; lia).
  destruct (publish_core_ok Sprintf CallersFrames Compile MatchString caps (ds O) n s0) as (s1 & E1). rewrite E1. cbn [bind].
  destruct (publish_grows _ _ _ _ _ _ _ _ _ H0 E1) as (_ & rs & R & G).
  destruct (decorate_logs _ Hd (inner_envs ds) (TPublish (TCore n)) s1) as (t' & s2 & E2 & Ec2 & Eb2).
  cbn [Put]. rewrite E2. cbn [bind].
  destruct (coll_run_spec nil_trace ops new_collector_storage [] CRep_init Hv) as (cats & fr & Er & HR). rewrite Hrun in Er. injection Er as <- <-. cbn [app] in HR.
  destruct (store_spec nil_trace _ _ _ category t' HR) as (cats' & Es & HR' & _). rewrite Es. cbn [bind].
  rewrite olist_fspec in *. set (dropped := skipn _ _).
  assert (H1 : exists_ s1 (TPublish (TCore n))) by exact (exists_grows _ _ _ _ _ _ (TPublish (TCore n)) G H0).
  destruct (decorate_all_spec _ _ _ _ _ _ H1 E2) as (Et & Hcore & _). cbn [t_core] in Hcore.
  assert (Hpos : (0 < Z.to_nat (size_after ops))%nat).
  { destruct HR as (_ & Hp & _). lia. }
  assert (Hdrop : forall t, In t dropped -> exists_ s t).
  { intros t Ht. unfold dropped in Ht. destruct (Z.to_nat (size_after ops)) as [|k] eqn:Ek; [lia|]. cbn [skipn] in Ht.
    apply (Hheld category). rewrite <- (firstn_skipn k). apply in_or_app. right. exact Ht. }
  assert (Hfree : forall (dr : list (trace arg)) (s : sys arg pc RE), (forall t, In t dr -> exists_ s t /\ t_core t <> n) ->
            core_at (fold_left (fun s t => fst (maybeFree t s)) dr s) n = core_at s n /\
            length (s_cores (fold_left (fun s t => fst (maybeFree t s)) dr s)) = length (s_cores s)).
  { clearbody n. clear. induction dr as [|t dr IH]; intros s Hdr; [auto|]. cbn [fold_left].
    destruct (Hdr t (or_introl eq_refl)) as [Hx Hn]. destruct (maybeFree_other t s n Hx (not_eq_sym Hn)) as [A B].
    rewrite <- A, <- B. apply IH. intros t0 Ht0. destruct (Hdr t0 (or_intror Ht0)) as [Hx0 Hn0]. split; [unfold exists_; rewrite B; exact Hx0|exact Hn0]. }
  assert (Hlen2 : length (s_cores s2) = S n).
  { rewrite Ec2. destruct G as [A _]. rewrite A. unfold s0. cbn [s_cores]. rewrite app_length. cbn. lia. }
  destruct (Hfree dropped s2) as [Hcn Hln].
  { intros t Ht. specialize (Hdrop t Ht). unfold exists_ in *. rewrite Hlen2. split; [|]; fold n in Hdrop; lia. }
  do 5 eexists. split; [reflexivity|]. split; [exact Hcore|]. split; [rewrite Hln; exact Hlen2|]. split; [reflexivity|].
  split; [|split; [|split]].
  - exists (firstn (pred (Z.to_nat (size_after ops))) (held category ops)). cbn [c_categories].
    rewrite (content_spec nil_trace _ _ _ _ HR'), String.eqb_refl. cbn [option_map]. unfold dropped. destruct (Z.to_nat (size_after ops)) as [|k]; [lia|].
    split; [reflexivity|]. cbn [pred skipn]. rewrite firstn_skipn. reflexivity.
  - intros other Ho. cbn [c_categories]. rewrite (content_spec nil_trace _ _ _ _ HR'), (content_spec nil_trace _ _ _ _ HR).
    apply String.eqb_neq in Ho. rewrite Ho. reflexivity.
  - cbv zeta. rewrite Hcore, Hcn. unfold core_at. rewrite Ec2. fold (core_at s1 n). destruct G as (_ & B & _).
    assert (E0 : core_at s0 n = core) by (unfold core_at, s0; cbn [s_cores]; rewrite app_nth2; fold n; [rewrite Nat.sub_diag; reflexivity|lia]).
    cbn [t_core] in B. rewrite E0 in B. pose proof (f_equal shadow B) as Sh. rewrite shadow_reads in Sh by exact R. unfold shadow, core, newCoreTrace in Sh. cbn in Sh.
    injection Sh; intros. unfold Source, Category, ID, Started, Finished, Errored. repeat split; try assumption.
    destruct (ct_events (core_at s1 n)); [reflexivity|discriminate].
  - rewrite Et. cbn [fold_left].
    assert (Eid : ID (core_at s1 n) = b_id b).
    { destruct G as (_ & B & _).
      assert (E0 : core_at s0 n = core) by (unfold core_at, s0; cbn [s_cores]; rewrite app_nth2; fold n; [rewrite Nat.sub_diag; reflexivity|lia]).
      cbn [t_core] in B. rewrite E0 in B. pose proof (f_equal shadow B) as Sh. rewrite shadow_reads in Sh by exact R. unfold shadow, core, newCoreTrace in Sh. cbn in Sh. injection Sh; intros. assumption. }
    fold n. clear -Eid.
    assert (Gw : forall decs t0, t_core t0 = n -> fold_left (wrap s1) decs t0 = fold_left (fun t d => match d with DPublish => TPublish t | DLog dst => TLog t (b_id b) dst end) decs t0).
    { induction decs as [|d decs IH]; intros t0 Ht0; [reflexivity|]. cbn [fold_left].
      assert (Ew : wrap s1 t0 d = match d with DPublish => TPublish t0 | DLog dst => TLog t0 (b_id b) dst end) by (destruct d; cbn [wrap]; [reflexivity|rewrite Ht0, Eid; reflexivity]).
      rewrite Ew. apply IH. destruct d; exact Ht0. }
    apply Gw. reflexivity.
Qed.
End Context_.
Print Assumptions C44_adds_an_event.
Print Assumptions C44_new_trace.

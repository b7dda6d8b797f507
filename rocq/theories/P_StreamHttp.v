(** C67: a stream over HTTP. *)
From Verif Require Import Go M_Strings M_Types M_Filter S_Filter L_Filter M_Text M_Json S_Json M_Broker S_Broker L_Broker S_TraceView P_Filter P_Search P_Broker P_Json M_StreamHttp S_StreamHttp L_StreamHttp D_Demo P_JsonFindings.
From Coq Require Import ZifyBool.
Open Scope string_scope.
Open Scope list_scope.
Open Scope Z_scope.

Section C67.
Context {RE : Type}.
Variable Compile : string -> RE + string.
Variable MatchString : RE -> string -> bool.
Variable time_text : Z -> option string.
Variable parse_time : string -> option Z.
Variable caps : string -> Z.
Variable conn : string.
Variable f : Filter RE.
Variable own : string.
Variable interval : Z.
Notation bop := (bop RE).
Notation run := (b_run Compile MatchString caps).
Notation conn_state := (conn_state RE).
Notation tracec := (tracec Compile MatchString caps conn).
Notation conn_step := (conn_step Compile MatchString time_text parse_time caps conn f own interval).
Notation conn_steps := (conn_steps Compile MatchString time_text parse_time caps conn f own interval).
Notation reachable := (conn_reachable Compile MatchString time_text parse_time caps conn f own interval).
Notation wanted := (wanted Compile MatchString conn).
Notation visible := (visible own).
Notation on_wire := (on_wire parse_time).
Notation flow := (flow Compile MatchString parse_time caps conn own).
Notation history_ok := (history_ok conn f).
Notation stats_now s := (StreamStats_ conn (run (x_history s))).

Lemma steps_trans s s' s'' : conn_steps s s' -> conn_steps s' s'' -> conn_steps s s''.
Proof. intros H1 H2. induction H2 as [|s' s1 s2 H2 IH Hs]; [exact H1|]. econstructor; [apply IH; exact H1|exact Hs]. Qed.
Lemma steps_one s s' : conn_step s s' -> conn_steps s s'.
Proof. intros H. econstructor; [constructor|exact H]. Qed.
Lemma reachable_steps s s' : reachable s -> conn_steps s s' -> reachable s'.
Proof. intros (past & s0 & H1 & H2) H. exists past, s0. split; [exact H1|]. eapply steps_trans; eassumption. Qed.

Lemma visible_subseq l l' : subseq l l' -> subseq (visible l) (visible l').
Proof.
  intros H. unfold S_StreamHttp.visible. induction H as [|x l l' H IH|x l l' H IH]; [constructor| |]; cbn [filter]; destruct (negb _); cbn [map]; try (constructor; exact IH); exact IH.
Qed.
Lemma prefix_subseq {A} (l l' l2 : list A) : l' = l ++ l2 -> subseq l l'.
Proof. intros ->. apply subseq_snoc_drop, subseq_refl. Qed.

Section Ok.
Hypothesis time_ok : forall t s, time_text t = Some s -> parse_time s = Some t.
Notation ok := (reachable_ok Compile MatchString time_text parse_time time_ok caps conn f own interval).

(** The traces the client gets are, in publish order, traces published while the handler was
    subscribed, that the filter accepts and that are not the request's own. *)
Theorem C67_remote_traces_in_order :
  forall s, reachable s -> subseq (x_got s) (visible (wanted (x_history s))).
Proof.
  intros s H. destruct (ok s H) as ((Hv & _) & _ & (handled & H1 & H2 & _) & _).
  eapply subseq_trans; [eapply (prefix_subseq _ (going parse_time s)); reflexivity|]. eapply subseq_trans; [exact H2|]. apply visible_subseq.
  eapply subseq_trans; [|apply (C35_matching_traces_in_order Compile MatchString caps conn (x_history s) Hv)].
  assert (E : exists rest, ch_received (tracec s) = handled ++ rest).
  { unfold chan_part in H1. destruct (x_handler s); try (exists []; rewrite app_nil_r; apply H1); try (eexists; apply H1).
    destruct H1 as [[_ H1]|[_ [v H1]]]; [exists []; rewrite app_nil_r|exists [v]]; exact H1. }
  destruct E as [rest E]. unfold delivered. apply (prefix_subseq _ _ (rest ++ ch_buffer (tracec s))). rewrite app_assoc, <- E. reflexivity.
Qed.

(** Nothing the broker put on the channel is lost, unless a trace cannot be encoded or
    written, or the client is stopped. *)
Theorem C67_accounting :
  forall s, reachable s -> x_failed s = false -> x_client_done s = false ->
    x_got s ++ in_client (x_client s) ++ on_wire (x_wire s) ++ visible (in_handler (x_handler s) (tracec s) ++ ch_buffer (tracec s)) =
    visible (delivered (tracec s)).
Proof.
  intros s H Hf Hc. destruct (ok s H) as (_ & _ & (handled & H1 & _ & H2) & _).
  specialize (H2 Hf Hc). unfold going in H2. replace (delivered (tracec s)) with (handled ++ in_handler (x_handler s) (tracec s) ++ ch_buffer (tracec s)).
  - rewrite (visible_app own handled), <- H2, <- !app_assoc. reflexivity.
  - rewrite app_assoc. unfold delivered. f_equal. unfold chan_part, in_handler in *. destruct (x_handler s); try (rewrite app_nil_r; symmetry; apply H1); try (symmetry; apply H1).
    destruct H1 as [[E1 E2]|[E1 [v E2]]]; rewrite E1, E2; cbn.
    + rewrite app_nil_r. reflexivity.
    + rewrite rev_app_distr. reflexivity.
Qed.

Lemma quiet_wanted (h : list bop) : quiet conn h -> forall cur, wanted_from Compile MatchString conn cur h =
  match cur with Some g => filter (matches Compile MatchString g) (published h) | None => [] end.
Proof.
  induction h as [|o h IH]; intros [Q1 Q2] cur; [destruct cur; reflexivity|]. cbn [existsb] in *. apply orb_false_iff in Q1 as [Q1 Q1'], Q2 as [Q2 Q2'].
  cbn [wanted_from]. replace (sub_after conn cur o) with cur by (destruct o; cbn in *; rewrite ?Q1, ?Q2; reflexivity).
  rewrite (IH (conj Q1' Q2')). destruct cur as [g|]; [|reflexivity]. change (published (o :: h)) with (published1 o ++ published h). rewrite filter_app. reflexivity.
Qed.
Lemma quiet_subscription (h : list bop) cur : quiet conn h -> fold_left (sub_after conn) h cur = cur.
Proof.
  revert cur. induction h as [|o h IH]; intros cur [Q1 Q2]; [reflexivity|]. cbn [existsb] in *. apply orb_false_iff in Q1 as [Q1 Q1'], Q2 as [Q2 Q2'].
  cbn [fold_left]. rewrite (IH _ (conj Q1' Q2')). destruct o; cbn in *; rewrite ?Q1, ?Q2; reflexivity.
Qed.
Lemma wanted_window h1 h2 : quiet conn h1 -> quiet conn h2 -> wanted (h1 ++ BStream conn f :: h2) = filter (matches Compile MatchString f) (published h2).
Proof.
  intros Q1 Q2. unfold S_Broker.wanted.
  assert (G : forall h cur, wanted_from Compile MatchString conn cur (h ++ BStream conn f :: h2) =
     wanted_from Compile MatchString conn cur h ++ wanted_from Compile MatchString conn (fold_left (sub_after conn) h cur) (BStream conn f :: h2)).
  { induction h as [|o h IH]; intros cur; [reflexivity|]. cbn [app]. cbn [wanted_from]. rewrite IH. cbn [fold_left wanted_from]. rewrite <- app_assoc. reflexivity. }
  rewrite G, quiet_wanted by exact Q1. rewrite quiet_subscription by exact Q1. cbn [app wanted_from published1 sub_after]. rewrite String.eqb_refl.
  rewrite quiet_wanted by exact Q2. reflexivity.
Qed.
Lemma subseq_all {A} (l l' : list A) : subseq l l' -> length l = length l' -> l = l'.
Proof.
  intros H. assert (L : forall (a b : list A), subseq a b -> (length a <= length b)%nat) by (intros a b K; induction K; cbn; lia).
  induction H as [|x l l' H IH|x l l' H IH]; cbn; intros E; [reflexivity|f_equal; apply IH; lia|]. specialize (L _ _ H). lia.
Qed.
Lemma no_drops s st : reachable s -> stats_now s = RStats st -> Drops st = 0 -> delivered (tracec s) = wanted (x_history s).
Proof.
  intros H Hst Hd. destruct (ok s H) as ((Hv & Hg & _) & _). unfold M_StreamHttp.tracec.
  destruct (x_goroutine s).
  - exfalso. pose proof (C37_stats_while_subscribed Compile MatchString caps conn (x_history s) Hv) as [_ K]. cbn [M_Broker.b_step snd] in K.
    unfold subscription in K. rewrite quiet_subscription in K by exact Hg. specialize (K eq_refl). congruence.
  - destruct Hg as (h1 & h2 & E & Q1 & Q2). rewrite E in *.
    destruct (C34_statistics_account_for_every_publish Compile MatchString caps conn f h1 h2 Hv) as (st' & sent & E1 & E2 & E3 & E4 & E5 & E6).
    { unfold subscription. apply quiet_subscription. exact Q1. }
    { apply Q2. }
    cbn [M_Broker.b_step snd] in E1. assert (st' = st) as -> by congruence. rewrite E4.
    assert (E0 : delivered (b_chans (run h1) conn) = []).
    { apply Forall_app in Hv as [Hv _]. pose proof (C35_matching_traces_in_order Compile MatchString caps conn h1 Hv) as K.
      unfold S_Broker.wanted in K. rewrite quiet_wanted in K by exact Q1. inversion K. reflexivity. }
    rewrite E0, wanted_window by assumption. apply subseq_all; [exact E6|].
    assert (K : zlen (published h2) = zlen (filter (matches Compile MatchString f) (published h2)) + zlen (filter (fun tr => negb (matches Compile MatchString f tr)) (published h2))).
    { clear. unfold zlen. rewrite <- Nat2Z.inj_add. f_equal. induction (published h2) as [|x l IH]; [reflexivity|]. cbn [filter length]. destruct (matches Compile MatchString f x); cbn [negb length]; lia. }
    unfold zlen in *. cbn [app]. lia.
  - exfalso. destruct Hg as [(h1 & h2 & h3 & E & Q1 & Q2 & Q3) _]. pose proof (C37_stats_while_subscribed Compile MatchString caps conn (x_history s) Hv) as [_ K]. cbn [M_Broker.b_step snd] in K.
    rewrite K in Hst; [discriminate|]. rewrite E. unfold subscription. rewrite fold_left_app. cbn [fold_left]. rewrite fold_left_app. cbn [fold_left]. rewrite quiet_subscription by exact Q3.
    cbn. rewrite String.eqb_refl. reflexivity.
Qed.

(** While subscribed, if the statistics show no drops, no write failed, and nothing is on
    its way any more, the client got everything. *)
Theorem C67_everything_arrives :
  forall s st, reachable s -> x_failed s = false -> x_client_done s = false ->
    stats_now s = RStats st -> Drops st = 0 -> settled s (tracec s) ->
    x_got s = visible (wanted (x_history s)).
Proof.
  intros s st H Hf Hc Hst Hd (S1 & S2 & S3 & S4). pose proof (C67_accounting s H Hf Hc) as A. rewrite (no_drops s st H Hst Hd) in A.
  rewrite S1, S2, S4, app_nil_r in A. cbn in A. rewrite <- A.
  destruct S3 as [->|[-> L]]; cbn; [|destruct (Z.eqb_spec (ch_waiting (tracec s)) 0); [lia|]]; cbn; rewrite app_nil_r; reflexivity.
Qed.

(** The statistics sent are those StreamStats gave at some time; every event can be decoded,
    so the client does not fail because of one; there is at most one init event. *)
Theorem C67_events :
  forall s, reachable s ->
    (forall j, In (WStats j) (x_read s ++ x_wire s) ->
       exists h1 h2 st, x_history s = h1 ++ h2 /\ snd (b_step Compile MatchString (run h1) (BStats conn)) = RStats st /\ dec_stream_stats j = Some st) /\
    (forall j, In (WTrace j) (x_read s ++ x_wire s) -> exists t, dec_static parse_time j = Some t) /\
    (length (filter is_init (x_read s ++ x_wire s)) <= 1)%nat.
Proof.
  intros s H. destruct (ok s H) as (_ & Hw & _ & _ & Hi). unfold wire_ok in Hw. rewrite Forall_forall in Hw. split; [|split].
  - intros j Hj. destruct (Hw _ Hj) as (h1 & h2 & st & E1 & E2 & ->). exists h1, h2, st. split; [exact E1|]. split; [exact E2|]. destruct st. reflexivity.
  - intros j Hj. destruct (Hw _ Hj) as (t & He). eexists. apply (static_ok time_text parse_time time_ok). exact He.
  - unfold inits, zlen in Hi. assert (0 <= init_to_come s) by (unfold init_to_come; destruct (x_handler s); try lia; destruct (x_initc s); lia). lia.
Qed.

Lemma no_sub s : history_ok s -> x_goroutine s = GDone -> subscription conn (x_history s) = None.
Proof.
  intros (_ & H & _) E. rewrite E in H. destruct H as [(h1 & h2 & h3 & -> & Q1 & Q2 & Q3) _].
  unfold subscription. rewrite fold_left_app. cbn [fold_left]. rewrite fold_left_app. cbn [fold_left]. rewrite quiet_subscription by exact Q3.
  cbn. rewrite String.eqb_refl. reflexivity.
Qed.
Lemma one_more (s : conn_state) o : x_history (on_broker o s) = x_history s ++ [o]. Proof. reflexivity. Qed.
(** Once the handler has returned, the subscription is gone, nobody waits on the channel, and
    this stays so: nothing is put on it. *)
Theorem C67_returned :
  forall s, reachable s -> x_handler s = HReturned ->
    forall s', conn_steps s s' ->
      x_handler s' = HReturned /\ subscription conn (x_history s') = None /\ ch_waiting (tracec s') = 0 /\ delivered (tracec s') = delivered (tracec s).
Proof.
  intros s H Hr s' Hs. induction Hs as [s|s s1 s2 Hs IH Hone].
  - destruct (ok s H) as (Hh & _ & (handled & Hf & _) & _). rewrite Hr in Hf. split; [exact Hr|]. split; [|split; [apply Hf|reflexivity]].
    apply no_sub; [exact Hh|]. destruct Hh as (_ & _ & Hh). rewrite Hr in Hh. exact Hh.
  - specialize (IH H Hr) as (I1 & I2 & I3 & I4). assert (H1 : reachable s1) by (eapply reachable_steps; eassumption).
    destruct (ok s1 H1) as (Hh & _). pose proof Hh as (Hv & _ & Hg). rewrite I1 in Hg.
    destruct Hone; try (split; [exact I1|]; split; [exact I2|]; split; [exact I3|exact I4]); try congruence.
    split; [exact I1|]. rewrite one_more, sub_snoc, sub_elsewhere by assumption. split; [exact I2|].
    assert (E : tracec (on_broker o s0) = tracec s0); [|rewrite E; split; assumption].
    destruct H0 as [Ho Hc]. rewrite tracec_snoc by assumption.
    pose proof (sub_ok_after Compile MatchString caps conn (x_history s0) Hv) as K. rewrite I2 in K. unfold sub_ok in K. rewrite fst_view in K.
    destruct (map_get conn (b_subs (run (x_history s0)))) eqn:Em; [contradiction|].
    destruct o as [c g|c|order [str|]|c|c|c]; cbn [own1]; try reflexivity; try (apply String.eqb_neq in Hc; rewrite Hc; reflexivity).
    cbn [fold_left step1]. unfold deliver. rewrite fst_view, Em. reflexivity.
Qed.

(** Finding: if the stats interval is not positive, the handler panics while it waits for the
    subscription to end, and the subscription only ends with the request: until then it
    stays, the handler does not return and nothing is sent. *)
Theorem C67_bad_interval_holds_subscription_refuted :
  interval <= 0 ->
  forall s, reachable s -> x_handler s <> HStart -> x_goroutine s <> GStart -> x_request_done s = false ->
    x_handler s = HDeferred false /\ subscription conn (x_history s) = Some f /\ x_read s = [] /\ x_wire s = [].
Proof.
  intros Hi s H Hm Hg Hd.
  assert (G : forall s, reachable s -> (x_handler s = HStart \/ x_handler s = HDeferred false \/ (x_handler s = HReturned /\ x_request_done s = true)) /\
       x_read s = [] /\ x_wire s = [] /\ (x_cancel s = true -> x_request_done s = true)).
  { clear s H Hm Hg Hd. intros s (past & s0 & Hinit & Hs).
    induction Hs as [s|s s1 s2 Hs IH Hone]; [destruct Hinit as [_ ->]; cbn; auto|]. specialize (IH Hinit) as (I1 & I2 & I3 & I4).
    assert (Hr : reachable s1) by (exists past, s; split; assumption).
    destruct Hone; cbn in *; try (split; [exact I1|]; split; [exact I2|]; split; [exact I3|exact I4]); try congruence; try (exfalso; destruct I1 as [I1|[I1|[I1 _]]]; congruence); try lia.
    - split; [destruct I1 as [I1|[I1|[I1 _]]]; auto|]. split; [exact I2|]. split; [exact I3|reflexivity].
    - split; [auto|]. split; [exact I2|]. split; [exact I3|exact I4].
    - destruct (ok s0 Hr) as ((_ & K & _) & _). rewrite H0 in K. destruct K as [_ K]. unfold ctx_done in K.
      assert (E : x_request_done s0 = true) by (destruct (x_request_done s0) eqn:E; [reflexivity|]; rewrite orb_false_r in K; exact (I4 K)).
      rewrite E. split; [auto|]. split; [exact I2|]. split; [exact I3|reflexivity]. }
  destruct (G s H) as (G1 & G2 & G3 & G4). destruct G1 as [G1|[G1|[G1 G1']]]; try congruence.
  split; [exact G1|]. split; [|split; assumption]. destruct (ok s H) as ((_ & K & _) & _). destruct (x_goroutine s); [congruence| |].
  - destruct K as (h1 & h2 & -> & Q1 & Q2). unfold subscription. rewrite fold_left_app. cbn [fold_left]. rewrite quiet_subscription by exact Q2.
    rewrite (quiet_subscription h1) by exact Q1. cbn. rewrite String.eqb_refl. reflexivity.
  - destruct K as [_ K]. unfold ctx_done in K. rewrite Hd, orb_false_r in K. specialize (G4 K). congruence.
Qed.
(** *** What can happen *)
Definition encodable (tr : StaticTrace) : Prop := exists j, enc_static time_text tr j.
Lemma to_loop s : reachable s -> looping (x_handler s) -> Forall encodable (in_handler (x_handler s) (tracec s)) ->
  x_handler s = HSelect /\ 0 < ch_waiting (tracec s) \/
  exists s', conn_steps s s' /\ x_handler s' = HLoop /\ tracec s' = tracec s /\ x_failed s' = x_failed s /\ x_client s' = x_client s /\ x_client_done s' = x_client_done s.
Proof.
  intros H Hl He.
  assert (T : forall s recv, x_handler s = HTrace recv -> encodable recv ->
    exists s', conn_steps s s' /\ x_handler s' = HLoop /\ tracec s' = tracec s /\ x_failed s' = x_failed s /\ x_client s' = x_client s /\ x_client_done s' = x_client_done s).
  { intros s0 recv Em [j Hj]. destruct (String.eqb_spec (TraceID recv) own) as [E|E].
    - eexists. split; [apply steps_one; eapply XOwn; eassumption|]. repeat split.
    - eexists. split; [apply steps_one; eapply XTrace; eassumption|]. repeat split. }
  destruct (x_handler s) eqn:Em; try contradiction.
  - right. exists s. split; [constructor|]. split; [exact Em|]. repeat split.
  - destruct (ok s H) as (_ & _ & (handled & Hf & _) & _). rewrite Em in Hf. destruct Hf as [[Hf _]|[Hw [v Hf]]]; [left; split; [reflexivity|lia]|right].
    cbn in He. rewrite Hw, Hf, rev_app_distr in He. cbn in He. inversion He as [|? ? Hv _]; subst.
    destruct (T (with_handler (HTrace v) s) v eq_refl Hv) as (s' & S1 & S2). exists s'. split; [|exact S2].
    eapply steps_trans; [|exact S1]. apply steps_one. eapply XHanded; eassumption.
  - right. eexists. split; [apply steps_one; apply XInit; exact Em|]. repeat split.
  - right. eexists. split; [apply steps_one; apply XTickFailed; exact Em|]. repeat split.
  - right. cbn in He. inversion He as [|? ? Hv _]; subst. apply (T s recv Em Hv).
Qed.
Lemma server_settles n : forall s, reachable s -> (length (ch_buffer (tracec s)) <= n)%nat -> looping (x_handler s) ->
  Forall encodable (in_handler (x_handler s) (tracec s) ++ ch_buffer (tracec s)) ->
  exists s', conn_steps s s' /\ idle (x_handler s') (tracec s') /\ ch_buffer (tracec s') = [] /\ delivered (tracec s') = delivered (tracec s) /\
    x_failed s' = x_failed s /\ x_client s' = x_client s /\ x_client_done s' = x_client_done s.
Proof.
  assert (B : forall s, reachable s -> 0 < ch_waiting (tracec s) -> ch_buffer (tracec s) = []).
  { intros s H Hw. destruct (ok s H) as ((Hv & _) & _). apply (tracec_ok Compile MatchString caps conn s Hv). exact Hw. }
  induction n as [|n IH]; intros s H Hn Hl He; apply Forall_app in He as [He1 He2].
  - assert (Hb : ch_buffer (tracec s) = []) by (destruct (ch_buffer (tracec s)); [reflexivity|cbn in Hn; lia]).
    destruct (to_loop s H Hl He1) as [[E1 E2]|(s' & S1 & S2 & S3 & S4)].
    + exists s. split; [constructor|]. split; [right; auto|]. repeat split. exact Hb.
    + exists s'. split; [exact S1|]. split; [left; exact S2|]. rewrite S3. split; [exact Hb|]. split; [reflexivity|exact S4].
  - destruct (to_loop s H Hl He1) as [[E1 E2]|(s' & S1 & S2 & S3 & S4 & S5 & S6)].
    + exists s. split; [constructor|]. split; [right; auto|]. split; [apply B; assumption|]. repeat split.
    + destruct (ch_buffer (tracec s)) as [|recv buffer] eqn:Hb.
      * exists s'. split; [exact S1|]. split; [left; exact S2|]. rewrite S3. split; [exact Hb|]. split; [reflexivity|]. auto.
      * assert (H' : reachable s') by (eapply reachable_steps; eassumption). destruct (ok s' H') as ((Hv' & _) & _).
        inversion He2 as [|? ? Hr Hb2]; subst.
        set (s1 := with_handler (HTrace recv) (on_broker (BReceive conn) s')).
        assert (St : conn_step s' s1) by (eapply XReceive; [exact S2|rewrite S3; exact Hb]).
        assert (Tc : tracec s1 = receive (tracec s')) by (apply (tracec_receive Compile MatchString caps conn s' Hv')).
        assert (Tb : ch_buffer (tracec s1) = buffer) by (rewrite Tc, S3; unfold receive; rewrite Hb; reflexivity).
        destruct (IH s1) as (s2 & R1 & R2 & R3 & R4 & R5 & R6 & R7).
        { eapply reachable_steps; [exact H'|apply steps_one; exact St]. }
        { rewrite Tb. cbn in Hn. lia. }
        { exact I. }
        { rewrite Tb. constructor; assumption. }
        exists s2. split; [eapply steps_trans; [exact S1|]; eapply steps_trans; [apply steps_one; exact St|exact R1]|].
        split; [exact R2|]. split; [exact R3|]. split; [rewrite R4, Tc, delivered_receive, S3; reflexivity|].
        rewrite R5, R6, R7. cbn. auto.
Qed.
Lemma client_settles w : forall s, reachable s -> x_client s = CReading -> x_wire s = w ->
  exists s', conn_steps s s' /\ x_client s' = CReading /\ x_wire s' = [] /\ x_handler s' = x_handler s /\ tracec s' = tracec s /\
    x_failed s' = x_failed s /\ x_client_done s' = x_client_done s.
Proof.
  induction w as [|e w IH]; intros s H Hc Hw.
  - exists s. split; [constructor|]. repeat split; assumption.
  - destruct (C67_events s H) as (E1 & E2 & _).
    assert (Hin : In e (x_read s ++ x_wire s)) by (apply in_or_app; right; rewrite Hw; left; reflexivity).
    assert (G : exists s1, conn_steps s s1 /\ x_client s1 = CReading /\ x_wire s1 = w /\ x_handler s1 = x_handler s /\ tracec s1 = tracec s /\
       x_failed s1 = x_failed s /\ x_client_done s1 = x_client_done s).
    { destruct e as [|j|j].
      - eexists. split; [apply steps_one; eapply XReadInit; eassumption|]. repeat split. exact Hc.
      - destruct (E1 j Hin) as (_ & _ & st & _ & _ & E). eexists. split; [apply steps_one; eapply XReadStats; eassumption|]. repeat split. exact Hc.
      - destruct (E2 j Hin) as (t & E). eexists. split; [econstructor; [apply steps_one; eapply XReadTrace; eassumption|eapply XSend; reflexivity]|]. repeat split. }
    destruct G as (s1 & G1 & G2 & G3 & G4 & G5 & G6 & G7). destruct (IH s1) as (s2 & K1 & K2 & K3 & K4 & K5 & K6 & K7); [eapply reachable_steps; eassumption|exact G2|exact G3|].
    exists s2. split; [eapply steps_trans; eassumption|]. rewrite K4, K5, K6, K7. repeat split; assumption.
Qed.
(** As long as the loop and the client run, and the traces can be encoded, whatever was put
    on the channel can still reach the client, without help from anybody. *)
Theorem C67_everything_can_arrive :
  forall s, reachable s -> looping (x_handler s) -> (forall failed, x_client s <> CReturned failed) ->
    x_failed s = false -> x_client_done s = false -> Forall encodable (delivered (tracec s)) ->
    exists s', conn_steps s s' /\ settled s' (tracec s') /\ x_got s' = visible (delivered (tracec s)).
Proof.
  intros s H Hl Hc Hf Hd He.
  assert (He' : Forall encodable (in_handler (x_handler s) (tracec s) ++ ch_buffer (tracec s))).
  { unfold delivered in He. apply Forall_app in He as [He1 He2]. apply Forall_app. split; [|exact He2]. destruct (ok s H) as (_ & _ & (handled & K & _) & _). unfold chan_part, in_handler in *.
    destruct (x_handler s); try constructor.
    - destruct (ch_waiting (tracec s) =? 0); [|constructor]. destruct (rev (ch_received (tracec s))) as [|v l] eqn:E; [constructor|].
      repeat constructor. eapply Forall_forall; [exact He1|]. apply in_rev. rewrite E. left. reflexivity.
    - destruct K as [_ K]. rewrite K in He1. apply Forall_app in He1 as [_ He1]. inversion He1; assumption.
    - constructor. }
  destruct (server_settles _ s H (le_n _) Hl He') as (s1 & S1 & S2 & S3 & S4 & S5 & S6 & S7).
  assert (H1 : reachable s1) by (eapply reachable_steps; eassumption).
  assert (G : exists s2, conn_steps s1 s2 /\ x_client s2 = CReading /\ x_handler s2 = x_handler s1 /\ tracec s2 = tracec s1 /\ x_failed s2 = x_failed s1 /\ x_client_done s2 = x_client_done s1).
  { destruct (x_client s1) as [|str|b] eqn:E.
    - exists s1. split; [constructor|]. repeat split. exact E.
    - eexists. split; [apply steps_one; eapply XSend; exact E|]. repeat split.
    - exfalso. rewrite <- S6 in Hc. apply (Hc b). first [exact E|reflexivity]. }
  destruct G as (s2 & G1 & G2 & G3 & G4 & G5 & G6). assert (H2 : reachable s2) by (eapply reachable_steps; eassumption).
  destruct (client_settles _ s2 H2 G2 eq_refl) as (s3 & K1 & K2 & K3 & K4 & K5 & K6 & K7). assert (H3 : reachable s3) by (eapply reachable_steps; eassumption).
  assert (Hset : settled s3 (tracec s3)).
  { split; [exact K2|]. split; [exact K3|]. rewrite K4, K5, G3, G4. split; [exact S2|exact S3]. }
  exists s3. split; [eapply steps_trans; [exact S1|]; eapply steps_trans; [exact G1|exact K1]|]. split; [exact Hset|].
  assert (Hf3 : x_failed s3 = false) by congruence. assert (Hd3 : x_client_done s3 = false) by congruence.
  pose proof (C67_accounting s3 H3 Hf3 Hd3) as A. destruct Hset as (T1 & T2 & T3 & T4). rewrite T1, T2, T4, app_nil_r in A. cbn in A.
  rewrite K5, G4, S4 in A. rewrite <- A. rewrite <- G4, <- K5.
  destruct T3 as [->|[-> L]]; cbn; [|destruct (Z.eqb_spec (ch_waiting (tracec s3)) 0); [lia|]]; cbn; rewrite app_nil_r; reflexivity.
Qed.
(** When the context is done the handler can return, by its own steps. *)
Theorem C67_can_return :
  forall s, reachable s -> ctx_done s = true -> exists s', conn_steps s s' /\ x_handler s' = HReturned /\ x_got s' = x_got s.
Proof.
  intros s H Hd.
  assert (D : forall s b, x_handler s = HDeferred b -> history_ok s -> ctx_done s = true -> exists s', conn_steps s s' /\ x_handler s' = HReturned /\ x_got s' = x_got s).
  { intros s0 b Em Hh Hd0. destruct (x_goroutine s0) eqn:Eg.
    - eexists. split.
      + econstructor; [econstructor; [apply steps_one; apply XSubscribe; exact Eg|apply XUnsubscribe; [reflexivity|exact Hd0]]|eapply XReturn; [exact Em|reflexivity]].
      + split; reflexivity.
    - eexists. split.
      + econstructor; [apply steps_one; apply XUnsubscribe; [exact Eg|exact Hd0]|eapply XReturn; [exact Em|reflexivity]].
      + split; reflexivity.
    - eexists. split.
      + apply steps_one. eapply XReturn; eassumption.
      + split; reflexivity. }
  assert (L : forall s, x_handler s = HLoop -> reachable s -> ctx_done s = true -> exists s', conn_steps s s' /\ x_handler s' = HReturned /\ x_got s' = x_got s).
  { intros s0 Em Hr Hd0. assert (St : conn_step s0 (with_handler (HDeferred true) s0)) by (apply XOther; [exact Em|apply ODone; exact Hd0]).
    assert (H1 : reachable (with_handler (HDeferred true) s0)) by (eapply reachable_steps; [exact Hr|apply steps_one; exact St]).
    destruct (D (with_handler (HDeferred true) s0) true eq_refl) as (s' & S1 & S2); [apply (ok _ H1)|exact Hd0|].
    exists s'. split; [eapply steps_trans; [apply steps_one; exact St|exact S1]|exact S2]. }
  assert (L' : forall s1, conn_step s s1 -> x_handler s1 = HLoop -> ctx_done s1 = true -> x_got s1 = x_got s -> exists s', conn_steps s s' /\ x_handler s' = HReturned /\ x_got s' = x_got s).
  { intros s1 St Em Hd1 Hg. destruct (L s1 Em) as (s' & S1 & S2 & S3); [eapply reachable_steps; [exact H|apply steps_one; exact St]|exact Hd1|].
    exists s'. split; [eapply steps_trans; [apply steps_one; exact St|exact S1]|]. split; [exact S2|congruence]. }
  destruct (x_handler s) eqn:Em.
  - destruct (Z.leb_spec interval 0) as [Hi|Hi].
    + assert (St : conn_step s (with_handler (HDeferred false) s)) by (apply XPanic; assumption).
      assert (H1 : reachable (with_handler (HDeferred false) s)) by (eapply reachable_steps; [exact H|apply steps_one; exact St]).
      destruct (D (with_handler (HDeferred false) s) false eq_refl) as (s' & S1 & S2); [apply (ok _ H1)|exact Hd|].
      exists s'. split; [eapply steps_trans; [apply steps_one; exact St|exact S1]|exact S2].
    + eapply L'; [apply XStart; assumption|reflexivity|exact Hd|reflexivity].
  - apply L; assumption.
  - destruct (ok s H) as (_ & _ & (handled & Hf & _) & _). rewrite Em in Hf. destruct Hf as [[Hf _]|[Hw [v Hf]]].
    + set (s1 := with_handler (HDeferred true) (on_broker (BGiveUp conn) s)).
      assert (St : conn_step s s1) by (apply XUnblock; [exact Em|lia|apply ODone; exact Hd]).
      assert (H1 : reachable s1) by (eapply reachable_steps; [exact H|apply steps_one; exact St]).
      destruct (D s1 true eq_refl) as (s' & S1 & S2); [apply (ok _ H1)|exact Hd|].
      exists s'. split; [eapply steps_trans; [apply steps_one; exact St|exact S1]|exact S2].
    + set (s1 := with_handler (HTrace v) s). assert (St : conn_step s s1) by (eapply XHanded; eassumption).
      assert (H1 : reachable s1) by (eapply reachable_steps; [exact H|apply steps_one; exact St]).
      assert (G : exists s2, conn_step s1 s2 /\ x_handler s2 = HLoop /\ ctx_done s2 = true /\ x_got s2 = x_got s).
      { destruct (String.eqb_spec (TraceID v) own) as [E|E]; eexists; (split; [first [eapply XOwn; [reflexivity|exact E]|eapply XTraceFailed; [reflexivity|exact E]]|]); (split; [reflexivity|]); (split; [exact Hd|reflexivity]). }
      destruct G as (s2 & G1 & G2 & G3 & G4). destruct (L s2 G2) as (s' & S1 & S2 & S3); [eapply reachable_steps; [exact H1|apply steps_one; exact G1]|exact G3|].
      exists s'. split; [eapply steps_trans; [apply steps_one; exact St|]; eapply steps_trans; [apply steps_one; exact G1|exact S1]|]. split; [exact S2|congruence].
  - eapply L'; [apply XInitFailed; exact Em|reflexivity|exact Hd|reflexivity].
  - eapply L'; [apply XTickFailed; exact Em|reflexivity|exact Hd|reflexivity].
  - destruct (String.eqb_spec (TraceID recv) own) as [E|E].
    + eapply L'; [eapply XOwn; eassumption|reflexivity|exact Hd|reflexivity].
    + eapply L'; [eapply XTraceFailed; eassumption|reflexivity|exact Hd|reflexivity].
  - eapply D; [exact Em|apply (ok _ H)|exact Hd].
  - exists s. split; [constructor|]. split; [exact Em|reflexivity].
Qed.
End Ok.
End C67.
Print Assumptions C67_remote_traces_in_order.
Print Assumptions C67_accounting.
Print Assumptions C67_everything_arrives.
Print Assumptions C67_events.
Print Assumptions C67_returned.
Print Assumptions C67_bad_interval_holds_subscription_refuted.
Print Assumptions C67_everything_can_arrive.
Print Assumptions C67_can_return.

(** A connection with room for one trace: a trace is published into the blocked select and
    arrives; one of the request's own is not shown. *)
Definition demo_seven_trace (id : string) : StaticTrace := MkStatic "s" id "c" 7 2 "" true false [].
Definition demo_seven_pub (id : string) : bop string := BPublish (fun l => l) (Ok (demo_seven_trace id)).
Lemma demo_elsewhere id : elsewhere "tracec" (demo_seven_pub id).
Proof. split; [intros l; apply Permutation_refl|exact I]. Qed.
Notation demo_reachable interval := (conn_reachable demo_compile demo_match demo_time demo_parse_time (fun _ => 1) "tracec" no_filter "own" interval).
Notation demo_tracec s := (tracec demo_compile demo_match (fun _ => 1) "tracec" s).
Example C67_instance :
  times_read_back demo_time demo_parse_time /\
  (exists s, demo_reachable 10 s /\ x_failed s = false /\ x_client_done s = false /\
     StreamStats_ "tracec" (b_run demo_compile demo_match (fun _ => 1) (x_history s)) = RStats (MkStreamStats 0 2 0) /\
     settled s (demo_tracec s) /\ map TraceID (x_got s) = ["1"] /\ map TraceID (wanted demo_compile demo_match "tracec" (x_history s)) = ["1"; "own"] /\
     exists s', demo_reachable 10 s' /\ ctx_done s' = true /\ looping (x_handler s')) /\
  (exists s, demo_reachable 0 s /\ x_handler s <> HStart /\ x_goroutine s <> GStart /\ x_request_done s = false).
Proof.
  split; [exact demo_times|]. split.
  - destruct (enc_static_ex demo_time (demo_seven_trace "1")) as [j Hj]; [split; [discriminate|constructor]|].
    pose (s0 := MkConn [demo_seven_pub "0"] GStart HStart false false false false [] [] CReading false [] : conn_state string).
    assert (G : exists s, demo_reachable 10 s /\ x_failed s = false /\ x_client_done s = false /\
      x_history s = [demo_seven_pub "0"; BStream "tracec" no_filter; BReceive "tracec"; demo_seven_pub "1"; demo_seven_pub "own"; BReceive "tracec"; BReceive "tracec"] /\
      x_client s = CReading /\ x_wire s = [] /\ x_handler s = HSelect /\ x_got s = [sent_trace (demo_seven_trace "1")]).
    { eexists. split; [exists [demo_seven_pub "0"], s0; split; [split; [repeat constructor; apply demo_elsewhere|reflexivity]|]|].
      - econstructor; [econstructor; [econstructor; [econstructor; [econstructor; [econstructor; [econstructor; [econstructor; [econstructor; [econstructor; [econstructor; [econstructor; [apply XNone|]|]|]|]|]|]|]|]|]|]|]|].
        + apply XSubscribe. reflexivity.
        + apply XStart; [reflexivity|lia].
        + apply XBlock; [reflexivity|vm_compute; reflexivity].
        + apply (XElsewhere _ _ _ _ _ _ _ _ _ _ (demo_seven_pub "1")). apply demo_elsewhere.
        + eapply (XHanded _ _ _ _ _ _ _ _ _ _ []); [reflexivity|vm_compute; reflexivity|vm_compute; reflexivity].
        + eapply XTrace; [reflexivity| |exact Hj]. discriminate.
        + apply (XElsewhere _ _ _ _ _ _ _ _ _ _ (demo_seven_pub "own")). apply demo_elsewhere.
        + eapply XReceive; [reflexivity|vm_compute; reflexivity].
        + eapply XOwn; reflexivity.
        + apply XBlock; [reflexivity|vm_compute; reflexivity].
        + eapply XReadTrace; [reflexivity|reflexivity|]. exact (static_ok demo_time demo_parse_time demo_times _ _ Hj).
        + eapply XSend. reflexivity.
      - repeat split. }
    destruct G as (s & Hr & H1 & H2 & H3 & H4 & H5 & H6 & H7). exists s. split; [exact Hr|]. split; [exact H1|]. split; [exact H2|].
    split; [rewrite H3; vm_compute; reflexivity|]. split; [|split; [rewrite H7; reflexivity|split; [rewrite H3; vm_compute; reflexivity|]]].
    + unfold settled, idle. rewrite H6. unfold M_StreamHttp.tracec. rewrite H3. repeat split; try assumption; try (vm_compute; reflexivity). right. split; [reflexivity|vm_compute; reflexivity].
    + exists (with_request_done true s). split; [|split; [apply orb_true_r|cbn; rewrite H6; exact I]].
      destruct Hr as (past & s1 & R1 & R2). exists past, s1. split; [exact R1|]. econstructor; [exact R2|apply XRequestDone].
  - eexists. split; [exists [], (MkConn [] GStart HStart false false false false [] [] CReading false []); split; [split; [constructor|reflexivity]|]|].
    + econstructor; [econstructor; [apply XNone|apply XSubscribe; reflexivity]|apply XPanic; [reflexivity|lia]].
    + cbn. repeat split; discriminate.
Qed.

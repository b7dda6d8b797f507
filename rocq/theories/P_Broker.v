(** C34-C37, C41, C42: the broker. *)
From Verif Require Import Go M_Strings M_Types M_Filter S_Filter L_Filter M_Text M_Broker S_Broker L_Broker S_TraceView P_Filter P_Search.
From Coq Require Import ZifyBool.
Open Scope string_scope.
Open Scope list_scope.
Open Scope Z_scope.

Section Broker.
Context {RE : Type}.
Variable Compile : string -> RE + string.
Variable MatchString : RE -> string -> bool.
Notation bop := (bop RE).
Notation b_step := (b_step Compile MatchString).
Notation b_run := (b_run Compile MatchString).
Notation matches := (matches Compile MatchString).
Notation wanted := (wanted Compile MatchString).

Lemma sub_ok_none (c : chan) : sub_ok Compile None (None : option (subscriber RE), c).
Proof. exact I. Qed.
Lemma view_ok_init cap : view_ok (None : option (subscriber RE), make_chan cap).
Proof. unfold view_ok, chan_ok. cbn. split; [lia|reflexivity]. Qed.
Lemma snd_view ch (s : bstate RE) : snd (view_of ch s) = b_chans s ch. Proof. reflexivity. Qed.
Lemma fst_view ch (s : bstate RE) : fst (view_of ch s) = map_get ch (b_subs s). Proof. reflexivity. Qed.
Lemma sub_ok_after caps ch h : Forall valid_bop h -> sub_ok Compile (subscription ch h) (view_of ch (b_run caps h)).
Proof. intros Hv. rewrite run_view by exact Hv. apply sub_ok_run. exact I. Qed.

(** Up to a Stream call on a channel that had no subscription, and after it: a view of the
    channel at the time the subscription began. *)
Lemma run_split caps ch (h1 h2 : list bop) : Forall valid_bop h1 -> Forall valid_bop h2 ->
  view_of ch (b_run caps (h1 ++ h2)) = fold_left (step1 Compile MatchString) (concerning ch h2) (view_of ch (b_run caps h1)).
Proof.
  intros H1 H2. rewrite !run_view by (try apply Forall_app; auto). rewrite concerning_app, fold_left_app. reflexivity.
Qed.
Lemma begin_view caps ch f (h1 : list bop) : Forall valid_bop h1 -> subscription ch h1 = None ->
  view_of ch (b_run caps (h1 ++ [BStream ch f])) = (Some (MkSub f zero_stats), b_chans (b_run caps h1) ch).
Proof.
  intros Hv Hs. rewrite run_split by (auto; repeat constructor). unfold concerning. cbn [flat_map own1 app]. rewrite String.eqb_refl.
  cbn [app fold_left step1]. pose proof (sub_ok_after caps ch h1 Hv) as H. rewrite Hs in H. unfold sub_ok in H.
  destruct (fst (view_of ch (b_run caps h1))); [contradiction|]. reflexivity.
Qed.

(** C34.  After a Stream call that subscribes, and whatever happens then except that its
    context is cancelled: StreamStats reports statistics that account for every trace
    published since; skips are those the filter rejects, sends those put on the channel. *)
Theorem C34_statistics_account_for_every_publish :
  forall caps ch (f : Filter RE) h1 h2,
    Forall valid_bop (h1 ++ BStream ch f :: h2) ->
    subscription ch h1 = None -> existsb (cancels ch) h2 = false ->
    let before := b_run caps h1 in
    let now := b_run caps (h1 ++ BStream ch f :: h2) in
    exists stats sent,
      snd (b_step now (BStats ch)) = RStats stats /\
      Skips stats + Sends stats + Drops stats = zlen (published h2) /\
      Skips stats = zlen (filter (fun tr => negb (matches f tr)) (published h2)) /\
      delivered (b_chans now ch) = delivered (b_chans before ch) ++ sent /\ zlen sent = Sends stats /\
      subseq sent (filter (matches f) (published h2)).
Proof.
  intros caps ch f h1 h2 Hv Hs Hc before now. apply Forall_app in Hv as [Hv1 Hv2]. inversion Hv2 as [|? ? _ Hv2']; subst.
  assert (En : view_of ch now = fold_left (step1 Compile MatchString) (concerning ch h2) (Some (MkSub f zero_stats), b_chans before ch)).
  { unfold now. replace (h1 ++ BStream ch f :: h2) with ((h1 ++ [BStream ch f]) ++ h2) by (rewrite <- app_assoc; reflexivity).
    rewrite run_split by (try apply Forall_app; try split; auto; repeat constructor). rewrite begin_view by assumption. reflexivity. }
  assert (Hok : view_ok (view_of ch before)) by (unfold before; rewrite run_view by exact Hv1; apply view_ok_steps, view_ok_init).
  destruct (window Compile MatchString ch h2 f (Some (MkSub f zero_stats), b_chans before ch)) with (sub := MkSub f zero_stats)
    as (sub' & sent & E1 & E2 & E3 & E4 & E5 & E6); [|exact Hok|exact Hc|reflexivity|].
  { unfold sub_ok, like. cbn. split; [apply same_fields_refl|reflexivity]. }
  rewrite <- En in E1, E2. rewrite fst_view in E1. rewrite snd_view in E2.
  exists (sub_stats sub'), sent. cbn [M_Broker.b_step snd]. unfold StreamStats_. rewrite E1. split; [reflexivity|]. cbn [sub_stats zero_stats Skips Sends Drops] in *.
  assert (Hsplit : zlen (published h2) = zlen (filter (matches f) (published h2)) + zlen (filter (fun tr => negb (matches f tr)) (published h2))).
  { unfold zlen. rewrite <- Nat2Z.inj_add. f_equal. clear. induction (published h2) as [|x l IH]; [reflexivity|]. cbn [filter length].
    destruct (matches f x); cbn [negb length]; lia. }
  split; [lia|]. split; [lia|]. split; [exact E2|]. split; [lia|exact E3].
Qed.

(** C35.  What is put on a channel is, in publish order, traces published while it was
    subscribed and that its filter accepts... *)
Theorem C35_matching_traces_in_order :
  forall caps ch h, Forall valid_bop h -> subseq (delivered (b_chans (b_run caps h) ch)) (wanted ch h).
Proof.
  intros caps ch h Hv. rewrite <- snd_view, run_view by exact Hv.
  destruct (delivered_wanted Compile MatchString ch h None (None, make_chan (caps ch)) I (view_ok_init _)) as (sent & E & H).
  rewrite E. cbn. exact H.
Qed.
(** ... and if there is always room, it is all of them. *)
Theorem C35_everything_if_there_is_room :
  forall caps ch h, Forall valid_bop h ->
    (forall h1 h2, h = h1 ++ h2 -> zlen (wanted ch h1) <= caps ch + receives ch h1) ->
    delivered (b_chans (b_run caps h) ch) = wanted ch h.
Proof.
  intros caps ch h Hv Hroom. rewrite <- snd_view, run_view by exact Hv.
  apply (delivered_all Compile MatchString ch h None (None, make_chan (caps ch)) 0 []).
  - exact I.
  - apply view_ok_init.
  - unfold room_ok. cbn. lia.
  - reflexivity.
  - intros h1 h2 E. cbn [app snd make_chan ch_cap]. specialize (Hroom h1 h2 E). unfold S_Broker.wanted in Hroom. lia.
Qed.

(** C36.  Publish always completes, whatever the channels... *)
Theorem C36_publish_completes :
  forall caps h order str, Forall valid_bop h -> is_order order ->
    snd (b_step (b_run caps h) (BPublish order (Ok str))) = RNone.
Proof.
  intros caps h order str Hv Ho. destruct (Publish_spec Compile MatchString order str (b_run caps h) Ho (run_inv Compile MatchString caps h Hv)) as (s' & E & _).
  cbn [M_Broker.b_step]. rewrite E. reflexivity.
Qed.
(** ... and a subscriber's channel and statistics depend only on what is published and on
    what happens on its own channel. *)
Theorem C36_subscribers_are_independent :
  forall caps caps' ch h h', Forall valid_bop h -> Forall valid_bop h' ->
    caps ch = caps' ch -> concerning ch h = concerning ch h' ->
    b_chans (b_run caps h) ch = b_chans (b_run caps' h') ch /\
    snd (b_step (b_run caps h) (BStats ch)) = snd (b_step (b_run caps' h') (BStats ch)).
Proof.
  intros caps caps' ch h h' Hv Hv' Hc Hh.
  assert (E : view_of ch (b_run caps h) = view_of ch (b_run caps' h')) by (rewrite !run_view by assumption; rewrite Hc, Hh; reflexivity).
  split; [exact (f_equal snd E)|]. cbn [M_Broker.b_step snd]. unfold StreamStats_. apply (f_equal fst) in E. rewrite !fst_view in E. rewrite E. reflexivity.
Qed.

(** C37.  Stream fails on a channel with a subscription, and then changes nothing... *)
Theorem C37_second_stream_fails :
  forall caps ch f h, Forall valid_bop h ->
    (subscription ch h <> None ->
       b_step (b_run caps h) (BStream ch f) = (b_run caps h, RError "already subscribed")) /\
    (subscription ch h = None -> snd (b_step (b_run caps h) (BStream ch f)) = RNone).
Proof.
  intros caps ch f h Hv. pose proof (sub_ok_after caps ch h Hv) as H. unfold sub_ok in H. rewrite fst_view in H.
  cbn [M_Broker.b_step]. unfold Stream_begin. destruct (subscription ch h), (map_get ch (b_subs (b_run caps h))); try contradiction; split; try congruence; reflexivity.
Qed.
(** ... StreamStats works exactly while there is one... *)
Theorem C37_stats_while_subscribed :
  forall caps ch h, Forall valid_bop h ->
    (subscription ch h <> None -> exists st, snd (b_step (b_run caps h) (BStats ch)) = RStats st) /\
    (subscription ch h = None -> snd (b_step (b_run caps h) (BStats ch)) = RError "not subscribed").
Proof.
  intros caps ch h Hv. pose proof (sub_ok_after caps ch h Hv) as H. unfold sub_ok in H. rewrite fst_view in H.
  cbn [M_Broker.b_step snd]. unfold StreamStats_. destruct (subscription ch h), (map_get ch (b_subs (b_run caps h))) as [sub|]; try contradiction; split; try congruence; eauto.
Qed.
(** ... when the context is cancelled Stream returns the statistics as they are, and nothing
    is put on the channel until the next Stream call on it. *)
Theorem C37_stream_ends :
  forall caps ch h h', Forall valid_bop h -> Forall valid_bop h' -> subscription ch h <> None ->
    existsb (subscribes ch) h' = false ->
    snd (b_step (b_run caps h) (BDone ch)) = snd (b_step (b_run caps h) (BStats ch)) /\
    delivered (b_chans (b_run caps (h ++ BDone ch :: h')) ch) = delivered (b_chans (b_run caps h) ch).
Proof.
  intros caps ch h h' Hv Hv' Hs Hno. pose proof (sub_ok_after caps ch h Hv) as H. unfold sub_ok in H. rewrite fst_view in H.
  destruct (subscription ch h) as [f|]; [|congruence]. destruct (map_get ch (b_subs (b_run caps h))) as [sub|] eqn:E; [|contradiction]. split.
  - cbn [M_Broker.b_step snd]. unfold StreamStats_. rewrite E.
    pose proof (run_inv Compile MatchString caps h Hv) as (_ & _ & Hb). assert (In ch (b_blocked (b_run caps h))) as Hin by (apply Hb; congruence).
    apply existsb_eqb_In in Hin. rewrite Hin. unfold Stream_end. cbn [b_subs]. rewrite E. reflexivity.
  - rewrite <- snd_view. rewrite run_split by (try constructor; try exact I; assumption).
    change (concerning ch (BDone ch :: h')) with (own1 ch (BDone ch) ++ concerning ch h'). rewrite fold_left_app. cbn [own1]. rewrite String.eqb_refl.
    cbn [fold_left step1]. destruct (no_window Compile MatchString ch h' (None, snd (view_of ch (b_run caps h))) eq_refl Hno) as [_ E2].
    rewrite E2. reflexivity.
Qed.
(** The error for a missing subscription in Stream itself is never returned. *)
Theorem C37_programmer_error_unreachable :
  forall caps ch h, Forall valid_bop h -> snd (b_step (b_run caps h) (BDone ch)) <> RError "not subscribed (programmer error)".
Proof.
  intros caps ch h Hv. cbn [M_Broker.b_step]. destruct (existsb (String.eqb ch) (b_blocked (b_run caps h))) eqn:E; [|discriminate].
  apply existsb_eqb_In in E. pose proof (run_inv Compile MatchString caps h Hv) as (_ & _ & Hb). apply Hb in E.
  unfold Stream_end. cbn [b_subs]. destruct (map_get ch (b_subs (b_run caps h))); [discriminate|congruence].
Qed.

(** C41.  Finding: a subscriber for active traces never gets a finished one (the
    documentation of Stream says it gets both). *)
Theorem C41_active_subscribers_get_no_finished_trace :
  forall caps ch h, Forall valid_bop h ->
    (forall f, In (BStream ch f) h -> unused f /\ IsActive f = true) ->
    forall tr, In tr (delivered (b_chans (b_run caps h) ch)) -> TraceFinished tr = false.
Proof.
  intros caps ch h Hv Hf tr Hin. pose proof (C35_matching_traces_in_order caps ch h Hv) as Hsub.
  assert (Hin' : forall l l' : list StaticTrace, subseq l l' -> forall x, In x l -> In x l').
  { clear. intros l l' H. induction H as [|x l l' H IH|x l l' H IH]; intros y Hy; [exact Hy|destruct Hy as [->|Hy]; [left; reflexivity|right; auto]|right; auto]. }
  apply (Hin' _ _ Hsub) in Hin. clear Hsub Hin'.
  assert (G : forall h0 cur, (forall f, In (BStream ch f) h0 -> unused f /\ IsActive f = true) ->
            (forall f, cur = Some f -> unused f /\ IsActive f = true) ->
            In tr (wanted_from Compile MatchString ch cur h0) -> TraceFinished tr = false).
  { induction h0 as [|o h0 IH]; intros cur Hs Hc; [intros []|]. cbn [S_Broker.wanted_from]. intros Hi. apply in_app_or in Hi as [Hi|Hi].
    - destruct cur as [f|]; [|destruct Hi]. apply filter_In in Hi as [_ Hm]. destruct (Hc f eq_refl) as [Hu Ha].
      unfold S_Broker.matches in Hm. apply (Allow_unused Compile MatchString f tr Hu) in Hm. destruct Hm as [(_ & _ & _ & Hact & _) _]. apply Hact. exact Ha.
    - apply (IH (sub_after ch cur o)); [intros f H; apply Hs; right; exact H| |exact Hi].
      intros f E. destruct o as [c g|c|order str|c|c|c]; cbn [sub_after] in E; try (apply Hc; exact E).
      + destruct (String.eqb_spec c ch) as [->|]; [|apply Hc; exact E]. destruct cur as [g'|]; [apply Hc; exact E|].
        injection E as <-. apply Hs. left. reflexivity.
      + destruct (String.eqb c ch); [discriminate|apply Hc; exact E]. }
  apply (G h None Hf); [intros f E; discriminate|exact Hin].
Qed.
End Broker.
Print Assumptions C34_statistics_account_for_every_publish.
Print Assumptions C35_matching_traces_in_order.
Print Assumptions C35_everything_if_there_is_room.
Print Assumptions C36_publish_completes.
Print Assumptions C36_subscribers_are_independent.
Print Assumptions C37_second_stream_fails.
Print Assumptions C37_stats_while_subscribed.
Print Assumptions C37_stream_ends.
Print Assumptions C37_programmer_error_unreachable.
Print Assumptions C41_active_subscribers_get_no_finished_trace.

(** A history with two channels: "a" has room for one trace and a filter, "b" is unbuffered
    and somebody waits on it. *)
Definition demo_pub (id : string) (fin : bool) : bop string :=
  BPublish (fun l => rev l) (Ok (MkStatic "s" id "c" 1 2 "" fin false [])).
Definition demo_caps (ch : string) : Z := if String.eqb ch "a" then 1 else 0.
Definition demo_history : list (bop string) :=
  [demo_pub "0" true; BStream "a" (MkFilter [] [] "" false true None false false "" None); BReceive "b"; BStream "b" no_filter;
   demo_pub "1" true; demo_pub "2" false; BStream "a" no_filter; demo_pub "3" true; BReceive "a"; demo_pub "4" true].
Lemma demo_history_valid : Forall valid_bop demo_history.
Proof. repeat constructor; intros l; symmetry; apply Permutation_rev. Qed.
Example C34_C37_instance :
  let s := b_run demo_compile demo_match demo_caps demo_history in
  map TraceID (delivered (b_chans s "a")) = ["1"; "4"] /\ map TraceID (delivered (b_chans s "b")) = ["1"] /\
  snd (b_step demo_compile demo_match s (BStats "a")) = RStats (MkStreamStats 1 2 1) /\
  snd (b_step demo_compile demo_match s (BStats "b")) = RStats (MkStreamStats 0 1 3) /\
  subscription "a" (firstn 1 demo_history) = None /\ existsb (cancels "a") (skipn 2 demo_history) = false /\
  subscription "a" demo_history <> None /\
  (let h := firstn 5 demo_history in forall h1 h2, h = h1 ++ h2 -> zlen (wanted demo_compile demo_match "a" h1) <= demo_caps "a" + receives "a" h1).
Proof.
  cbv zeta. repeat (split; [vm_compute; reflexivity|]). split; [vm_compute; discriminate|].
  intros h1 h2 E. assert (Hl : (length h1 <= 5)%nat) by (apply (f_equal (@length _)) in E; rewrite app_length in E; cbn in E; lia).
  assert (E1 : h1 = firstn (length h1) (firstn 5 demo_history)) by (rewrite E, firstn_app, firstn_all, Nat.sub_diag; cbn; rewrite app_nil_r; reflexivity).
  remember (length h1) as n eqn:En. clear E En. subst h1.
  do 6 (destruct n as [|n]; [vm_compute; discriminate|]). lia.
Qed.
Example C41_instance :
  let h := [BStream "a" (MkFilter [] [] "" true false None false false "" None); demo_pub "1" false; demo_pub "2" true] in
  Forall valid_bop h /\ map TraceID (delivered (b_chans (b_run demo_compile demo_match demo_caps h) "a")) = ["1"].
Proof. split; [repeat constructor; intros l; symmetry; apply Permutation_rev|vm_compute; reflexivity]. Qed.

(** ** C42 *)
Definition without_stack (ev : Event) : Event := MkEvent (When ev) (What ev) [] (IsError ev).
Definition last_event (l : list Event) : list Event := match rev l with [] => [] | ev :: _ => [ev] end.

(** A trace whose events can only be read as a whole: the stream trace has the last event of
    an active trace, all events of a finished one, without stacks; it panics exactly for an
    active trace without events. *)
Theorem C42_stream_trace_of_foreign_trace :
  forall tr : StaticTrace,
    (TraceFinished tr = false /\ TraceEvents tr = [] -> NewStreamTrace_plain tr = Panic) /\
    (~ (TraceFinished tr = false /\ TraceEvents tr = []) ->
     exists st own, NewStreamTrace_plain tr = Ok (st, own) /\
       TraceEvents st = map without_stack (if TraceFinished tr then TraceEvents tr else last_event (TraceEvents tr)) /\
       TraceSource st = TraceSource tr /\ TraceID st = TraceID tr /\ TraceCategory st = TraceCategory tr /\
       TraceStarted st = TraceStarted tr /\ TraceDuration st = TraceDuration tr /\
       TraceFinished st = TraceFinished tr /\ TraceErrored st = TraceErrored tr).
Proof.
  intros tr. unfold NewStreamTrace_plain, last_event. destruct (TraceFinished tr); cbn [negb].
  - split; [intros [H _]; discriminate|]. intros _. do 2 eexists. cbn [bind]. split; [reflexivity|]. repeat split.
  - split.
    + intros [_ ->]. reflexivity.
    + intros H. destruct (rev (TraceEvents tr)) as [|ev before] eqn:E.
      * exfalso. apply H. split; [reflexivity|]. rewrite <- (rev_involutive (TraceEvents tr)), E. reflexivity.
      * do 2 eexists. cbn [bind]. split; [reflexivity|]. repeat split.
Qed.
Print Assumptions C42_stream_trace_of_foreign_trace.

(** Finding: it panics for a new trace, so a Publish of one panics as soon as there is a
    subscriber. *)
Theorem C42_publishing_a_new_foreign_trace_panics :
  forall (RE : Type) (Compile : string -> RE + string) (MatchString : RE -> string -> bool) caps ch h order tr,
    Forall valid_bop h -> subscription ch h <> None ->
    TraceFinished tr = false -> TraceEvents tr = [] ->
    snd (b_step Compile MatchString (b_run Compile MatchString caps h) (BPublish order (st <- NewStreamTrace_plain tr ;; Ok (fst st)))) = RPanic.
Proof.
  intros RE C M caps ch h order tr Hv Hs Hf He. rewrite (proj1 (C42_stream_trace_of_foreign_trace tr) (conj Hf He)). cbn [bind b_step].
  pose proof (sub_ok_after C M caps ch h Hv) as H. unfold sub_ok in H. rewrite fst_view in H. unfold Publish.
  destruct (b_subs (b_run C M caps h)) as [|p l]; [destruct (subscription ch h); [contradiction|congruence]|].
  replace (zlen (p :: l) <=? 0) with false by (unfold zlen; cbn [length]; lia). reflexivity.
Qed.
Print Assumptions C42_publishing_a_new_foreign_trace_panics.

(** Finding: a trace that returns its own slice of events, as StaticTrace does, loses its
    stacks: a finished trace all of them, an active one that of its last event. *)
Theorem C42_original_loses_stacks_refuted :
  (forall tr st own, NewStreamTrace_plain tr = Ok (st, own) ->
     (TraceFinished tr = true -> own = map without_stack (TraceEvents tr)) /\
     (TraceFinished tr = false -> exists before ev, TraceEvents tr = before ++ [ev] /\ own = before ++ [without_stack ev])) /\
  exists tr st own, NewStreamTrace_plain tr = Ok (st, own) /\ own <> TraceEvents tr /\
    own = [MkEvent 1 "a" [] false] /\ TraceEvents tr = [MkEvent 1 "a" [MkFrame "f" "f.go:1"] false].
Proof.
  split.
  - intros tr st own. unfold NewStreamTrace_plain. destruct (TraceFinished tr); cbn [negb bind].
    + intros [= <- <-]. split; [reflexivity|discriminate].
    + destruct (rev (TraceEvents tr)) as [|ev before] eqn:E; cbn [bind]; [discriminate|]. intros [= <- <-]. split; [discriminate|]. intros _.
      exists (rev before), ev. split; [rewrite <- (rev_involutive (TraceEvents tr)), E; reflexivity|reflexivity].
  - exists (MkStatic "s" "i" "c" 1 2 "" true false [MkEvent 1 "a" [MkFrame "f" "f.go:1"] false]). do 2 eexists.
    split; [vm_compute; reflexivity|]. split; [discriminate|]. split; reflexivity.
Qed.
Print Assumptions C42_original_loses_stacks_refuted.
Example C42_instance :
  (exists st own, NewStreamTrace_plain (MkStatic "s" "i" "c" 1 2 "" false false [MkEvent 1 "a" [] false; MkEvent 2 "b" [MkFrame "f" "g"] true]) = Ok (st, own) /\
     TraceEvents st = [MkEvent 2 "b" [] true] /\ TraceDurationStr st = "2ns") /\
  snd (b_step demo_compile demo_match (b_run demo_compile demo_match demo_caps demo_history)
         (BPublish (fun l => l) (st <- NewStreamTrace_plain (MkStatic "s" "i" "c" 1 2 "" false false []) ;; Ok (fst st)))) = RPanic.
Proof. split; [do 2 eexists; split; [vm_compute; reflexivity|split; vm_compute; reflexivity]|vm_compute; reflexivity]. Qed.

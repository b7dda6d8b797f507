(** C87: watching a program from elsewhere: the stream of C38, over the connection of C67. *)
From Verif Require Import Go L_List M_Strings M_Types M_Filter S_Filter L_Filter S_Trace M_Trace S_TraceView L_Trace M_RingBuf M_RingBufs S_Collector M_Text M_Json S_Json M_Broker S_Broker L_Broker P_Broker M_Decor S_Decor L_Decor P_Context P_Search P_Filter P_Decor P_Json M_Fmt S_Stream P_StreamTrace M_StreamHttp S_StreamHttp L_StreamHttp P_StreamHttp D_Demo P_JsonFindings.
From Coq Require Import ZifyBool.
Open Scope string_scope.
Open Scope list_scope.
Open Scope Z_scope.

Section C87.
Context {arg world pc RE : Type}.
Variable Sprintf : world -> string -> list arg -> string.
Variable CallersFrames : list pc -> list rframe.
Variable Compile : string -> RE + string.
Variable MatchString : RE -> string -> bool.
Variable str : string -> arg.
Variable caps : string -> Z.
Variable time_text : Z -> option string.
Variable parse_time : string -> option Z.
Hypothesis time_ok : forall t s, time_text t = Some s -> parse_time s = Some t.
Notation ucall := (ucall arg world pc RE).
Notation t_run := (t_run Sprintf CallersFrames Compile MatchString str caps).
Notation NewTrace := (NewTrace Sprintf CallersFrames Compile MatchString str caps).
Notation run := (b_run Compile MatchString caps).
Notation streamed := (streamed Sprintf).
Notation logged := (logged Sprintf).
Notation event_of := (event_of Sprintf).
Notation wanted := (wanted Compile MatchString).
Notation matches := (matches Compile MatchString).
Notation reachable := (conn_reachable Compile MatchString time_text parse_time caps).

(** A connection with nothing on its way, on which nothing was dropped or failed. *)
Definition all_arrived (conn : string) (x : conn_state RE) : Prop :=
  x_failed x = false /\ x_client_done x = false /\ settled x (tracec Compile MatchString caps conn x) /\
  exists st, StreamStats_ conn (run (x_history x)) = RStats st /\ Drops st = 0.

Lemma visible_app own l l' : visible own (l ++ l') = visible own l ++ visible own l'.
Proof. unfold visible. rewrite filter_app, map_app. reflexivity. Qed.

(** A new trace of a collector and then any calls on it by one goroutine, with anything else
    happening at the broker in between, while a handler is subscribed for a remote client:
    the client gets, in order, matching ones of: an empty trace at creation, and then what
    [streamed] says; and all of them once everything has arrived. *)
Theorem C87_remote_view :
  forall conn f own interval coll b c category ds es s ops freed us,
    MaybeGet c = None -> Forall (fun d => d <> DPublish) (c_decorators coll) -> 1 <= g_maxEvents (b_globals b) ->
    Forall valid_op ops -> coll_run nil_trace new_collector_storage ops = Ok (c_categories coll, freed) ->
    (forall cat t, In t (held cat ops) -> exists_ s t) ->
    (forall n, is_order (d_order (ds n))) -> Forall valid_bop (s_broker s) -> subscription conn (s_broker s) = Some f ->
    Forall (keeps_subscription conn) us ->
    exists c' t s1 coll' dropped s2,
      let i := identity_of coll b category in
      let expected := active_view i (ds O) at_creation [] :: snd (streamed t i at_creation us) in
      NewTrace coll b c category ds es s = Ok (c', t, s1, coll', dropped) /\
      t_run t us s1 = Ok s2 /\
      forall x, reachable conn f own interval x -> x_history x = s_broker s2 ->
        subseq (x_got x) (visible own (wanted conn (s_broker s)) ++ visible own (filter (matches f) expected)) /\
        (all_arrived conn x -> x_got x = visible own (wanted conn (s_broker s)) ++ visible own (filter (matches f) expected)).
Proof.
  intros conn f own interval coll b c category ds es s ops freed us Hc Hd Hm Hv Hrun Hheld Hor Hb Hs Hus.
  destruct (C38_streamed_exactly Sprintf CallersFrames Compile MatchString str caps conn f coll b c category ds es s ops freed us Hc Hd Hm Hv Hrun Hheld Hor Hb Hs Hus)
    as (c' & t & s1 & coll' & dropped & s2 & E1 & E2 & _ & W & _).
  exists c', t, s1, coll', dropped, s2. cbn zeta. split; [exact E1|]. split; [exact E2|].
  intros x R E. cbn zeta in W. rewrite <- visible_app, <- W, <- E. split.
  - exact (C67_remote_traces_in_order Compile MatchString time_text parse_time caps conn f own interval time_ok x R).
  - intros (F1 & F2 & F3 & st & F4 & F5).
    exact (C67_everything_arrives Compile MatchString time_text parse_time caps conn f own interval time_ok x st R F1 F2 F4 F5 F3).
Qed.

Lemma streamed_calls t i (us : list ucall) : forall p, Forall (fun u => match u with UBroker o => published1 o = [] | _ => True end) us ->
  streamed t i p us = streamed t i p (filter is_trace_call us).
Proof.
  induction us as [|u us IH]; intros p H; [reflexivity|]. inversion H as [|? ? Hu Hus]; subst.
  destruct u as [k f a es|es|e|o]; cbn [filter is_trace_call is_event_call is_finish_call orb]; try (cbn [S_Stream.streamed]; destruct (S_Stream.streamed1 Sprintf t i p _) as [p1 o1]; rewrite (IH p1 Hus); reflexivity).
  - cbn [S_Stream.streamed S_Stream.streamed1]. rewrite (IH p Hus). destruct (streamed t i p _) as [p1 o1]. reflexivity.
  - cbn [S_Stream.streamed S_Stream.streamed1]. rewrite Hu, (IH p Hus). destruct (streamed t i p _) as [p1 o1]. reflexivity.
Qed.
Lemma visible_all own l : Forall (fun tr => TraceID tr <> own) l -> visible own l = map sent_trace l.
Proof.
  unfold visible. induction 1 as [|tr l H F IH]; [reflexivity|]. cbn [filter]. apply String.eqb_neq in H. rewrite H. cbn [negb map]. rewrite IH. reflexivity.
Qed.

(** A client without a filter, which is not watching its own request: an empty trace when
    the trace is made, for every event call a trace with this event, and for Finish the
    whole trace, all of them as JSON leaves them (C56). *)
Theorem C87_event_by_event :
  forall conn f own interval coll b c category ds es s ops freed us calls fin,
    MaybeGet c = None -> Forall (fun d => d <> DPublish) (c_decorators coll) -> 1 <= g_maxEvents (b_globals b) ->
    Forall valid_op ops -> coll_run nil_trace new_collector_storage ops = Ok (c_categories coll, freed) ->
    (forall cat t, In t (held cat ops) -> exists_ s t) ->
    (forall n, is_order (d_order (ds n))) -> Forall valid_bop (s_broker s) -> subscription conn (s_broker s) = Some f ->
    Forall (keeps_subscription conn) us ->
    accept_all f -> b_id b <> own ->
    Forall (fun u => match u with UBroker o => published1 o = [] | _ => True end) us ->
    filter is_trace_call us = calls ++ [UFinish fin] -> Forall (fun u => is_event_call u = true) calls ->
    exists c' t s1 coll' dropped s2,
      NewTrace coll b c category ds es s = Ok (c', t, s1, coll', dropped) /\
      t_run t us s1 = Ok s2 /\
      forall x, reachable conn f own interval x -> x_history x = s_broker s2 -> all_arrived conn x ->
        exists empty singles final,
          x_got x = visible own (wanted conn (s_broker s)) ++ map sent_trace (empty :: singles ++ [final]) /\
          Forall (fun tr => TraceSource tr = c_source coll /\ TraceID tr = b_id b /\ TraceCategory tr = category /\ TraceStarted tr = b_now b) (empty :: singles ++ [final]) /\
          TraceEvents empty = [] /\ TraceFinished empty = false /\ length singles = length calls /\
          (forall j k f a es, nth_error calls j = Some (ULog k f a es) ->
             exists tr, nth_error singles j = Some tr /\ TraceFinished tr = false /\ TraceErrored tr = existsb error_call (firstn (S j) calls) /\
               TraceEvents tr = [if Z.of_nat j <? g_maxEvents (b_globals b) then logged t k f a es
                                 else truncated_event (e_now (d_env (publishing t es))) (Z.of_nat j + 1 - g_maxEvents (b_globals b))]) /\
          TraceFinished final = true /\ TraceErrored final = existsb error_call calls /\
          TraceDuration final = e_now (d_env (fin (depth t))) - b_now b /\
          TraceEvents final =
            (let all := flat_map (event_of t) calls in
             if zlen calls <=? g_maxEvents (b_globals b) then all
             else tl (firstn (Z.to_nat (g_maxEvents (b_globals b))) all) ++ [truncated_event (e_now (d_env (publishing t fin))) (zlen calls - g_maxEvents (b_globals b))]).
Proof.
  intros conn f own interval coll b c category ds es s ops freed us calls fin Hc Hd Hm Hv Hrun Hheld Hor Hb Hs Hus Hf Hown Hq Hcalls Hev.
  destruct (C87_remote_view conn f own interval coll b c category ds es s ops freed us Hc Hd Hm Hv Hrun Hheld Hor Hb Hs Hus)
    as (c' & t & s1 & coll' & dropped & s2 & E1 & E2 & V).
  exists c', t, s1, coll', dropped, s2. split; [exact E1|]. split; [exact E2|]. intros x R E A. destruct (V x R E) as [_ G]. specialize (G A). clear V.
  rewrite (proj1 (C38_filters Compile MatchString)) in G by exact Hf. rewrite streamed_calls, Hcalls in G by exact Hq.
  destruct (C38_one_event_at_a_time_then_everything Sprintf Compile MatchString str caps t (identity_of coll b category) calls fin) as (singles & final & S1 & S2 & S3 & S4 & S5 & S6 & S7 & S8 & S9 & S10 & S11); [cbn; lia|exact Hev|].
  rewrite S1 in G. exists (active_view (identity_of coll b category) (ds O) at_creation []), singles, final.
  assert (K : Forall (fun tr => TraceSource tr = c_source coll /\ TraceID tr = b_id b /\ TraceCategory tr = category /\ TraceStarted tr = b_now b) singles).
  { apply Forall_forall. intros tr Hin. apply In_nth_error in Hin as (j & Ej).
    assert (Hj : (j < length calls)%nat) by (rewrite <- S2; apply nth_error_Some; congruence).
    destruct (nth_error calls j) as [u|] eqn:Eu; [|apply nth_error_None in Eu; lia].
    pose proof (proj1 (Forall_forall _ _) Hev u (nth_error_In _ _ Eu)) as Hu. destruct u as [k g a es'|?|?|?]; try discriminate.
    destruct (S3 j k g a es' Eu) as (tr' & T1 & _ & T2 & T3 & T4 & T5 & _). assert (tr' = tr) as -> by congruence. repeat split; assumption. }
  assert (L : Forall (fun tr => TraceSource tr = c_source coll /\ TraceID tr = b_id b /\ TraceCategory tr = category /\ TraceStarted tr = b_now b)
     (active_view (identity_of coll b category) (ds O) at_creation [] :: singles ++ [final])).
  { constructor; [repeat split|]. apply Forall_app. split; [exact K|]. repeat constructor; assumption. }
  split.
  { rewrite G. f_equal. apply visible_all. eapply Forall_impl; [|exact L]. cbn. intros tr (_ & -> & _). exact Hown. }
  split; [exact L|]. do 2 (split; [reflexivity|]). split; [exact S2|]. split.
  { intros j k g a es' Eu. destruct (S3 j k g a es' Eu) as (tr & T1 & T2 & _ & _ & _ & _ & T3 & T4). exists tr. repeat split; assumption. }
  repeat split; assumption.
Qed.
End C87.

(** *** A case: two events and Finish, watched by a client *)
Definition rm_s : sys string Z string := MkSys [] [BStream "conn" no_filter] [].
Definition rm_birth : birth string Z := MkBirth (MkGlobals 10 false) 7 "A" zeroCoreTrace.
Definition rm_calls : list (ucall string unit Z string) := [ULog KTracef "one %s" ["x"] (dd_es 7); ULog KLazyErrorf "two" [] (dd_es 7)].
Definition rm_us : list (ucall string unit Z string) :=
  rm_calls ++ [UFinish (dd_es 7); UBroker (BReceive "conn"); UBroker (BReceive "conn"); UBroker (BReceive "conn"); UBroker (BReceive "conn"); UBroker (BReceive "conn")].
Notation rm_reachable := (conn_reachable demo_compile demo_match demo_time demo_parse_time dd_caps "conn" no_filter "own" 10).
Definition rm_trace (finished errored : bool) (duration : Z) (evs : list Event) : StaticTrace :=
  MkStatic "src" "A" "cat" 7 duration (DurationString duration) finished errored evs.
Definition rm_one : Event := MkEvent 7 "one x" [] false.
Definition rm_two : Event := MkEvent 7 "two" [] true.
Definition rm_all : list StaticTrace := [rm_trace false false 1 []; rm_trace false false 1 [rm_one]; rm_trace false true 1 [rm_two]; rm_trace true true 0 [rm_one; rm_two]].
Definition rm_pub (tr : StaticTrace) : bop string := BPublish (fun l => l) (Ok tr).
Definition rm_history : list (bop string) :=
  BStream "conn" no_filter :: map rm_pub rm_all ++ [BReceive "conn"; BReceive "conn"; BReceive "conn"; BReceive "conn"; BReceive "conn"].
Lemma rm_watched : exists x, rm_reachable x /\ x_history x = rm_history /\ x_failed x = false /\ x_client_done x = false /\
  x_client x = CReading /\ x_wire x = [] /\ x_handler x = HSelect /\ x_got x = map sent_trace rm_all.
Proof.
  assert (J : forall tr, In tr rm_all -> exists j, enc_static demo_time tr j).
  { intros tr Ht. apply enc_static_ex. cbn in Ht. repeat destruct Ht as [<-|Ht]; try contradiction; (split; [discriminate|repeat constructor; discriminate]). }
  destruct (J _ (or_introl eq_refl)) as [j0 H0]. destruct (J _ (or_intror (or_introl eq_refl))) as [j1 H1].
  destruct (J _ (or_intror (or_intror (or_introl eq_refl)))) as [j2 H2]. destruct (J _ (or_intror (or_intror (or_intror (or_introl eq_refl))))) as [j3 H3]. clear J.
  assert (W : forall tr, elsewhere "conn" (rm_pub tr)) by (intros tr; split; [intros l; apply Permutation_refl|exact Logic.I]).
  eexists. split; [exists [], (MkConn [] GStart HStart false false false false [] [] CReading false []); split; [split; [constructor|reflexivity]|]|].
  - eapply steps_trans; [apply steps_one; apply XSubscribe; reflexivity|].
    eapply steps_trans; [apply steps_one; apply XStart; [reflexivity|lia]|].
    eapply steps_trans; [apply steps_one; apply (XElsewhere _ _ _ _ _ _ _ _ _ _ _ (W (rm_trace false false 1 [])))|].
    eapply steps_trans; [apply steps_one; apply (XElsewhere _ _ _ _ _ _ _ _ _ _ _ (W (rm_trace false false 1 [rm_one])))|].
    eapply steps_trans; [apply steps_one; apply (XElsewhere _ _ _ _ _ _ _ _ _ _ _ (W (rm_trace false true 1 [rm_two])))|].
    eapply steps_trans; [apply steps_one; apply (XElsewhere _ _ _ _ _ _ _ _ _ _ _ (W (rm_trace true true 0 [rm_one; rm_two])))|].
    eapply steps_trans; [apply steps_one; eapply XReceive; [reflexivity|vm_compute; reflexivity]|].
    eapply steps_trans; [apply steps_one; eapply XTrace; [reflexivity|discriminate|exact H0]|].
    eapply steps_trans; [apply steps_one; eapply XReceive; [reflexivity|vm_compute; reflexivity]|].
    eapply steps_trans; [apply steps_one; eapply XTrace; [reflexivity|discriminate|exact H1]|].
    eapply steps_trans; [apply steps_one; eapply XReceive; [reflexivity|vm_compute; reflexivity]|].
    eapply steps_trans; [apply steps_one; eapply XTrace; [reflexivity|discriminate|exact H2]|].
    eapply steps_trans; [apply steps_one; eapply XReceive; [reflexivity|vm_compute; reflexivity]|].
    eapply steps_trans; [apply steps_one; eapply XTrace; [reflexivity|discriminate|exact H3]|].
    eapply steps_trans; [apply steps_one; apply XBlock; [reflexivity|vm_compute; reflexivity]|].
    eapply steps_trans; [apply steps_one; eapply XReadTrace; [reflexivity|reflexivity|exact (static_ok demo_time demo_parse_time demo_times _ _ H0)]|].
    eapply steps_trans; [apply steps_one; eapply XSend; reflexivity|].
    eapply steps_trans; [apply steps_one; eapply XReadTrace; [reflexivity|reflexivity|exact (static_ok demo_time demo_parse_time demo_times _ _ H1)]|].
    eapply steps_trans; [apply steps_one; eapply XSend; reflexivity|].
    eapply steps_trans; [apply steps_one; eapply XReadTrace; [reflexivity|reflexivity|exact (static_ok demo_time demo_parse_time demo_times _ _ H2)]|].
    eapply steps_trans; [apply steps_one; eapply XSend; reflexivity|].
    eapply steps_trans; [apply steps_one; eapply XReadTrace; [reflexivity|reflexivity|exact (static_ok demo_time demo_parse_time demo_times _ _ H3)]|].
    eapply steps_trans; [apply steps_one; eapply XSend; reflexivity|].
    apply XNone.
  - repeat split.
Qed.
Example C87_instance :
  times_read_back demo_time demo_parse_time /\
  MaybeGet (Background : ctx string) = None /\ Forall (fun d => d <> DPublish) (c_decorators dd_coll) /\ 1 <= g_maxEvents (b_globals rm_birth) /\
  coll_run nil_trace new_collector_storage [] = Ok (c_categories dd_coll, []) /\
  (forall n, is_order (d_order (dd_es 7 n))) /\ Forall valid_bop (s_broker rm_s) /\ subscription "conn" (s_broker rm_s) = Some no_filter /\
  Forall (keeps_subscription "conn") rm_us /\ accept_all no_filter /\ b_id rm_birth <> "own" /\
  Forall (fun u => match u with UBroker o => published1 o = [] | _ => True end) rm_us /\
  filter is_trace_call rm_us = rm_calls ++ [UFinish (dd_es 7)] /\ Forall (fun u => is_event_call u = true) rm_calls /\
  exists c t s1 coll s2 x,
    dd_NewTrace dd_coll rm_birth Background "cat" (dd_es 7) (dd_es 7) rm_s = Ok (c, t, s1, coll, []) /\
    dd_run t rm_us s1 = Ok s2 /\ rm_reachable x /\ x_history x = s_broker s2 /\ all_arrived demo_compile demo_match dd_caps "conn" x /\
    map (fun tr => (TraceFinished tr, map What (TraceEvents tr))) (x_got x) = [(false, []); (false, ["one x"]); (false, ["two"]); (true, ["one x"; "two"])].
Proof.
  assert (Hid : is_order (fun l => l)) by (intros l; apply Permutation_refl).
  split; [exact demo_times|]. split; [reflexivity|]. split; [repeat constructor; discriminate|]. split; [cbn; lia|]. split; [reflexivity|].
  split; [intros n; exact Hid|]. split; [repeat constructor|]. split; [reflexivity|].
  split; [repeat (constructor; [split; [try exact Logic.I; try (intros n; exact Hid)|exact Logic.I || reflexivity]|]); constructor|].
  split; [repeat split|]. split; [discriminate|]. split; [repeat constructor|]. split; [reflexivity|]. split; [repeat constructor|].
  destruct rm_watched as (x & R & Hh & F1 & F2 & F3 & F4 & F5 & F6).
  eexists _, _, _, _, _, x. split; [vm_compute; reflexivity|]. split; [vm_compute; reflexivity|]. split; [exact R|].
  split; [rewrite Hh; vm_compute; reflexivity|]. split; [|rewrite F6; vm_compute; reflexivity].
  split; [exact F1|]. split; [exact F2|]. split.
  - unfold settled, idle, M_StreamHttp.tracec. rewrite F5, Hh. split; [exact F3|]. split; [exact F4|]. split; [right; split; [reflexivity|vm_compute; reflexivity]|vm_compute; reflexivity].
  - rewrite Hh. eexists. split; [vm_compute; reflexivity|reflexivity].
Qed.
Print Assumptions C87_remote_view.
Print Assumptions C87_event_by_event.

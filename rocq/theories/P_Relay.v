(** C42: a streamed trace, published again.  What a subscriber receives is a StaticTrace, which is a
    Trace: it can be published at another broker, as a relay does. *)
From Verif Require Import Go L_List M_Strings M_Types M_Filter S_Filter L_Filter S_Trace M_Trace S_TraceView L_Trace M_RingBuf M_RingBufs M_Text
  M_Broker S_Broker L_Broker P_Broker M_Decor S_Decor L_Decor D_Demo M_Fmt P_Filter P_Context P_Search P_Decor.
From Coq Require Import ZifyBool.
Open Scope string_scope.
Open Scope list_scope.
Open Scope Z_scope.

(** A trace as it is streamed: no stacks, at most one event if it is active, the text of its duration. *)
Definition as_streamed (st : StaticTrace) : Prop :=
  (forall ev, In ev (TraceEvents st) -> Stack ev = []) /\
  (TraceFinished st = false -> (length (TraceEvents st) <= 1)%nat) /\
  TraceDurationStr st = DurationString (TraceDuration st).
Definition announces (st : StaticTrace) : Prop := TraceFinished st = false /\ TraceEvents st = [].

Lemma erase_none ev : Stack ev = [] -> erase_stack ev = ev.
Proof. destruct ev as [w t s e]. cbn [Stack]. intros ->. reflexivity. Qed.
Lemma erase_all evs : (forall ev, In ev evs -> Stack ev = []) -> map erase_stack evs = evs.
Proof.
  induction evs as [|ev evs IH]; intros H; [reflexivity|]. cbn [map]. rewrite (erase_none ev) by (apply H; left; reflexivity).
  rewrite IH by (intros x Hx; apply H; right; exact Hx). reflexivity.
Qed.

Lemma again st : as_streamed st ->
  (announces st -> NewStreamTrace_plain st = Panic) /\ (~ announces st -> NewStreamTrace_plain st = Ok (st, TraceEvents st)).
Proof.
  intros (Hs & Ha & Hd). unfold NewStreamTrace_plain, announces. destruct st as [src id cat started dur durs fin err evs].
  cbn [TraceFinished TraceEvents TraceDuration TraceDurationStr TraceSource TraceID TraceCategory TraceStarted TraceErrored] in *. split.
  - intros (-> & ->). reflexivity.
  - intros Hn. destruct fin; cbn [negb].
    + rewrite (erase_all evs Hs). cbn [bind]. rewrite <- Hd. reflexivity.
    + specialize (Ha eq_refl). destruct evs as [|ev [|ev' evs]]; [exfalso; apply Hn; auto| |cbn in Ha; lia].
      cbn [rev app]. rewrite (erase_none ev) by (apply Hs; left; reflexivity). cbn [bind]. rewrite <- Hd. reflexivity.
Qed.

Lemma plain_as_streamed tr st own : NewStreamTrace_plain tr = Ok (st, own) -> as_streamed st.
Proof.
  unfold NewStreamTrace_plain. destruct (TraceFinished tr) eqn:Ef; cbn [negb].
  - cbn [bind]. intros H. injection H as <- _. split; [|split; [discriminate|reflexivity]]. cbn [TraceEvents].
    intros ev Hin. apply in_map_iff in Hin as (x & <- & _). reflexivity.
  - destruct (rev (TraceEvents tr)) as [|ev before]; [discriminate|]. cbn [bind]. intros H. injection H as <- _.
    split; [|split; [intros _; cbn; lia|reflexivity]]. cbn [TraceEvents]. intros x [<-|[]]. reflexivity.
Qed.

Section Relay.
Context {arg world pc RE : Type}.
Variable Sprintf : world -> string -> list arg -> string.
Variable CallersFrames : list pc -> list rframe.
Variable Compile : string -> RE + string.
Variable MatchString : RE -> string -> bool.
Notation NewStreamTrace := (@NewStreamTrace arg world pc RE Sprintf CallersFrames).

Lemma streamed_as_streamed d t (s s' : sys arg pc RE) st : exists_ s t -> NewStreamTrace d t s = (s', Ok st) -> as_streamed st.
Proof.
  intros He. unfold M_Decor.NewStreamTrace. destruct t as [i|t|t id dst|t pf pa].
  - destruct (EventsDetail Sprintf CallersFrames (d_env d) (if negb (Finished (core_at s i)) then 1 else -1) false (core_at s i)) as [c evs] eqn:E.
    intros H. injection H as _ <-. rewrite EventsDetail_eq in E. cbn zeta in E. injection E as Ec Ee.
    assert (Hc : core_at (set_core s i c) i = c) by (apply core_at_set_same; exact He). rewrite Hc.
    assert (Hf : Finished c = Finished (core_at s i)) by (rewrite <- Ec; reflexivity).
    split; [|split]; cbn [TraceEvents TraceFinished TraceDuration TraceDurationStr].
    + assert (Hall : forall l ev, In ev (map (fun c => snd (snapshotEvent Sprintf CallersFrames (e_world (d_env d)) c false)) l) -> Stack ev = []).
      { intros l ev Hin. apply in_map_iff in Hin as (x & <- & _). unfold snapshotEvent. destruct (stringer_String _ _ _) as [z w]. reflexivity. }
      subst evs. destruct (0 <? ct_truncated (core_at s i)).
      * intros ev Hin. assert (Hin' : In ev (map (fun c => snd (snapshotEvent Sprintf CallersFrames (e_world (d_env d)) c false))
            (skipn (unread (if negb (Finished (core_at s i)) then 1 else -1) (zlen (ct_events (core_at s i)))) (ct_events (core_at s i))) ++
            [truncated_event (e_now (d_env d)) (ct_truncated (core_at s i))])).
        { destruct (map _ _ ++ _); [destruct Hin|right; exact Hin]. }
        apply in_app_or in Hin' as [Hx|[<-|[]]]; [exact (Hall _ _ Hx)|reflexivity].
      * intros ev Hin. exact (Hall _ _ Hin).
    + intros Hfin. rewrite Hf in Hfin. rewrite Hfin in Ee. cbn [negb] in Ee.
      assert (Hlen : (length (skipn (unread 1 (zlen (ct_events (core_at s i)))) (ct_events (core_at s i))) <= 1)%nat).
      { rewrite skipn_length. unfold unread, zlen. destruct ((1 <=? 0) || (Z.of_nat (length (ct_events (core_at s i))) <? 1)) eqn:Eb; lia. }
      subst evs. destruct (0 <? ct_truncated (core_at s i)).
      * match goal with |- (length (tl ?l) <= 1)%nat => assert (Hl : (length l <= 2)%nat) end.
        { rewrite app_length, map_length. cbn [length]. lia. }
        destruct (map _ _ ++ _) as [|x l]; cbn [tl length] in *; lia.
      * rewrite map_length. exact Hlen.
    + reflexivity.
  - destruct (t_Events _ _ _ _ _) as [s1 evs]. intros H. injection H as _ H.
    destruct (NewStreamTrace_plain _) as [[st0 own]|] eqn:Ep; [|discriminate]. cbn [bind fst] in H. injection H as <-. exact (plain_as_streamed _ _ _ Ep).
  - destruct (t_Events _ _ _ _ _) as [s1 evs]. intros H. injection H as _ H.
    destruct (NewStreamTrace_plain _) as [[st0 own]|] eqn:Ep; [|discriminate]. cbn [bind fst] in H. injection H as <-. exact (plain_as_streamed _ _ _ Ep).
  - destruct (t_Events _ _ _ _ _) as [s1 evs]. intros H. injection H as _ H.
    destruct (NewStreamTrace_plain _) as [[st0 own]|] eqn:Ep; [|discriminate]. cbn [bind fst] in H. injection H as <-. exact (plain_as_streamed _ _ _ Ep).
Qed.

(** What the stream of any trace delivers is unchanged when it is published again, and its own
    events are unchanged too - except for the empty trace that announces a new one, which panics. *)
Theorem C42_streamed_trace_again :
  forall d t (s s' : sys arg pc RE) st, exists_ s t -> NewStreamTrace d t s = (s', Ok st) ->
    (announces st -> NewStreamTrace_plain st = Panic) /\
    (~ announces st -> NewStreamTrace_plain st = Ok (st, TraceEvents st)).
Proof. intros d t s s' st He H. apply again. eapply streamed_as_streamed; eassumption. Qed.

(** A relay publishes what it receives; its subscribers get what they would get if the original
    messages were published here. *)
Definition relay (order : list string -> list string) (st : StaticTrace) : bop RE :=
  BPublish order (x <- NewStreamTrace_plain st ;; Ok (fst x)).
Definition relayed (h : list (bop RE)) : list (bop RE) :=
  map (fun o => match o with BPublish order (Ok st) => relay order st | o => o end) h.

Theorem C42_relay :
  forall caps (h : list (bop RE)),
    (forall st, In st (published h) -> as_streamed st /\ ~ announces st) ->
    b_run Compile MatchString caps (relayed h) = b_run Compile MatchString caps h.
Proof.
  intros caps h H. f_equal. unfold relayed. rewrite <- (map_id h) at 2. apply map_ext_in. intros o Ho.
  destruct o as [ch f|ch|order [st|]|ch|ch|ch]; try reflexivity. unfold relay.
  destruct (H st) as (Hs & Hn); [unfold published; apply in_flat_map; exists (BPublish order (Ok st)); split; [exact Ho|left; reflexivity]|].
  rewrite (proj2 (again st Hs) Hn). reflexivity.
Qed.

(** Finding: the message that announces a new trace ends a relay that has a subscriber. *)
Theorem C42_relayed_announcement_refuted :
  forall caps ch h order st, Forall valid_bop h -> subscription ch h <> None -> as_streamed st -> announces st ->
    snd (b_step Compile MatchString (b_run Compile MatchString caps h) (relay order st)) = RPanic.
Proof.
  intros caps ch h order st Hv Hsub _ (Hf & He). unfold relay.
  apply (C42_publishing_a_new_foreign_trace_panics RE Compile MatchString caps ch h order st Hv Hsub Hf He).
Qed.
End Relay.
Print Assumptions C42_streamed_trace_again.
Print Assumptions C42_relay.
Print Assumptions C42_relayed_announcement_refuted.

(** A case: the announcement, an event and the end of one trace, streamed at "ch" and published
    again at another broker with a subscriber. *)
Definition rl_stream (t : trace string) (s : sys string Z string) := NewStreamTrace dd_Sprintf dd_frames (dd_d 200) t s.
Example C42_relay_instance :
  exists s0 st0 s1 s1' st1 s2 s2' st2,
    rl_stream (TCore 0) dd_s = (s0, Ok st0) /\ announces st0 /\
    dd_run (TCore 0) [ULog KTracef "one" [] (dd_es 101); ULog KErrorf "two" [] (dd_es 102)] dd_s = Ok s1 /\
    rl_stream (TLog (TPublish (TCore 0)) "A" "out") s1 = (s1', Ok st1) /\ map What (TraceEvents st1) = ["two"] /\ ~ announces st1 /\ as_streamed st1 /\
    dd_run (TCore 0) [UFinish (dd_es 103)] s1 = Ok s2 /\
    rl_stream (TCore 0) s2 = (s2', Ok st2) /\ map What (TraceEvents st2) = ["one"; "two"] /\ ~ announces st2 /\ as_streamed st2 /\
    b_run demo_compile demo_match demo_caps (relayed [BStream "ch" no_filter; BPublish (fun l => l) (Ok st1); BPublish (fun l => l) (Ok st2)]) =
    b_run demo_compile demo_match demo_caps [BStream "ch" no_filter; BPublish (fun l => l) (Ok st1); BPublish (fun l => l) (Ok st2)] /\
    snd (b_step demo_compile demo_match (b_run demo_compile demo_match demo_caps [BStream "ch" no_filter]) (relay (fun l => l) st0)) = RPanic.
Proof.
  eexists _, _, _, _, _, _, _, _. split; [vm_compute; reflexivity|]. split; [split; reflexivity|]. split; [vm_compute; reflexivity|].
  split; [vm_compute; reflexivity|]. split; [reflexivity|]. split; [intros (_ & H); discriminate H|].
  assert (H1 : forall x y, as_streamed (MkStatic "src" "A" "cat" x y (DurationString y) false true [MkEvent 102 "two" [] true])).
  { intros x y. split; [|split; [intros _; cbn; lia|reflexivity]]. intros ev [<-|[]]. reflexivity. }
  split; [apply H1|]. split; [vm_compute; reflexivity|]. split; [vm_compute; reflexivity|]. split; [reflexivity|].
  split; [intros (H & _); discriminate H|].
  assert (H2 : forall x y, as_streamed (MkStatic "src" "A" "cat" x y (DurationString y) true true [MkEvent 101 "one" [] false; MkEvent 102 "two" [] true])).
  { intros x y. split; [|split; [discriminate|reflexivity]]. intros ev [<-|[<-|[]]]; reflexivity. }
  split; [apply H2|]. split.
  - apply C42_relay. intros st [<-|[<-|[]]].
    + split; [apply H1|intros (_ & H); discriminate H].
    + split; [apply H2|intros (H & _); discriminate H].
  - vm_compute. reflexivity.
Qed.

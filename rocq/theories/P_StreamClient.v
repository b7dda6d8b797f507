(** C88: a stream client against any server. *)
From Verif Require Import Go L_List M_Types M_Strings M_Json S_Json P_Json M_Broker S_Broker S_TraceView L_Broker M_StreamHttp M_StreamClient S_StreamClient.
Open Scope string_scope.
Open Scope list_scope.

Section Client.
Context {Data : Type}.
Variable text : Data -> string.
Variable quote : string -> string.
Variable unmarshal_trace : Data -> StaticTrace + string.
Variable unmarshal_stats : Data -> StreamStats + string.
Notation loop := (loop text quote unmarshal_trace unmarshal_stats).
Notation handle := (handle text quote unmarshal_trace unmarshal_stats).
Notation stream := (stream text quote unmarshal_trace unmarshal_stats).
Notation stream_step := (stream_step text quote unmarshal_trace unmarshal_stats).
Notation stream_reach := (stream_reach text quote unmarshal_trace unmarshal_stats).
Notation usable := (usable unmarshal_trace unmarshal_stats).
Notation traces_in := (traces_in unmarshal_trace).
Notation note := (note unmarshal_stats text quote).
Notation effect := (effect (Data := Data)).
Notation read := (read (Data := Data)).

Lemma calls_app (a b : list effect) : calls (a ++ b) = calls a ++ calls b.
Proof. apply flat_map_app. Qed.
Lemma puts_app (a b : list effect) : puts (a ++ b) = puts a ++ puts b.
Proof. apply flat_map_app. Qed.
Lemma notes_app (a b : list effect) : notes (a ++ b) = notes a ++ notes b.
Proof. apply flat_map_app. Qed.
Lemma failures_app (a b : list effect) : failures (a ++ b) = failures a ++ failures b.
Proof. apply flat_map_app. Qed.
Lemma calls_deferred o : calls (Data := Data) (deferred o) = [].
Proof. destruct o as [|[e|]]; reflexivity. Qed.
Lemma puts_deferred o : puts (Data := Data) (deferred o) = [].
Proof. destruct o as [|[e|]]; reflexivity. Qed.
Lemma notes_deferred o : notes (Data := Data) (deferred o) = [].
Proof. destruct o as [|[e|]]; reflexivity. Qed.

(** What one event does. *)
Lemma handle_spec type data g es err : handle type data g = (es, err) ->
  calls es = [] /\ failures es = [] /\ notes es = note (type, data) /\
  puts es = (if g then [] else traces_in [(type, data)]) /\
  match err with
  | None => usable (type, data)
  | Some e =>
      es = [] /\
      ((exists m, type = "trace" /\ unmarshal_trace data = inr m /\ e = ("decode trace event: " ++ m)%string) \/
       (exists m, type = "stats" /\ unmarshal_stats data = inr m /\ e = ("invalid stats event: " ++ m)%string))
  end.
Proof.
  unfold M_StreamClient.handle, S_StreamClient.note, S_StreamClient.traces_in, S_StreamClient.usable; cbn [fst snd flat_map].
  destruct (String.eqb type "init") eqn:E1.
  { apply String.eqb_eq in E1; subst type. intros H; injection H as <- <-. cbn.
    repeat split; try reflexivity; try (destruct g; reflexivity); discriminate. }
  destruct (String.eqb type "trace") eqn:E2.
  { apply String.eqb_eq in E2; subst type. destruct (unmarshal_trace data) as [str|m] eqn:E.
    - intros H; injection H as <- <-. destruct g; cbn; repeat split; try reflexivity; try discriminate; intros _; exists str; reflexivity.
    - intros H; injection H as <- <-. destruct g; cbn; repeat split; try reflexivity; left; exists m; auto. }
  destruct (String.eqb type "stats") eqn:E3.
  { apply String.eqb_eq in E3; subst type. destruct (unmarshal_stats data) as [st|m] eqn:E.
    - intros H; injection H as <- <-. destruct g; cbn; repeat split; try reflexivity; try discriminate; intros _; exists st; reflexivity.
    - intros H; injection H as <- <-. destruct g; cbn; repeat split; try reflexivity; right; exists m; auto. }
  apply String.eqb_neq in E2, E3. intros H; injection H as <- <-. destruct g; cbn; repeat split; try reflexivity; intros; contradiction.
Qed.

Lemma stream_None reads : stream None reads = (fst (loop reads) ++ deferred (snd (loop reads)), snd (loop reads)).
Proof. unfold M_StreamClient.stream. destruct (loop reads); reflexivity. Qed.

(** The loop in one statement: it takes events in order, up to its end. *)
Lemma loop_spec : forall reads es o, loop reads = (es, o) ->
  exists before after, reads = before ++ after /\ (forall r, In r before -> exists t d g, r = REvent t d g) /\
    calls es = events before /\ failures es = [] /\ notes es = flat_map note (events before) /\
    puts es = traces_in (events (filter (fun r => match r with REvent _ _ g => negb g | _ => false end) before)) /\
    match o with
    | Running => after = [] /\ Forall usable (events before)
    | Returned None => Forall usable (events before) /\ exists r, after = RClosed :: r
    | Returned (Some err) =>
        (Forall usable (events before) /\ exists e r, after = RError e :: r /\ err = ("read server-sent event: " ++ e)%string) \/
        (exists b data m, events before = b ++ [("trace", data)] /\ Forall usable b /\ unmarshal_trace data = inr m /\ err = ("decode trace event: " ++ m)%string) \/
        (exists b data m, events before = b ++ [("stats", data)] /\ Forall usable b /\ unmarshal_stats data = inr m /\ err = ("invalid stats event: " ++ m)%string)
    end.
Proof.
  induction reads as [|r reads IH]; intros es o H.
  - injection H as <- <-. exists [], []. cbn. repeat split; try reflexivity; [intros r []|constructor].
  - destruct r as [type data g| |e]; cbn in H.
    + destruct (handle type data g) as [done err] eqn:Hh. apply handle_spec in Hh as (Hc & Hf & Hn & Hp & He).
      assert (Hx : traces_in (events (filter (fun r => match r with REvent _ _ g => negb g | _ => false end) [REvent type data g])) = puts done).
      { rewrite Hp. destruct g; cbn; [reflexivity|]. now rewrite app_nil_r. }
      destruct err as [err|].
      * injection H as <- <-. destruct He as (-> & He). exists [REvent type data g], reads. cbn [app].
        split; [reflexivity|]. split; [intros r [<-|[]]; eauto|].
        split; [reflexivity|]. split; [reflexivity|]. split; [cbn; rewrite app_nil_r; exact Hn|].
        split; [cbn [puts]; rewrite Hx; reflexivity|].
        right. destruct He as [(m & -> & Hm & ->)|(m & -> & Hm & ->)]; [left|right]; exists [], data, m; repeat split; try constructor; exact Hm.
      * destruct (loop reads) as [rest o'] eqn:Hl. injection H as <- <-.
        destruct (IH _ _ eq_refl) as (before & after & -> & Hall & Hca & Hfa & Hno & Hpu & Ho).
        exists (REvent type data g :: before), after. split; [reflexivity|].
        split; [intros r [<-|Hr]; [eauto|auto]|].
        change (Called type data :: done ++ rest) with ([Called type data] ++ done ++ rest).
        rewrite !calls_app, !failures_app, !notes_app, !puts_app, Hc, Hf, Hn, Hca, Hfa, Hno, Hpu. cbn [calls puts notes failures flat_map app events].
        split; [reflexivity|]. split; [reflexivity|]. split; [cbn; now rewrite ?app_nil_r|].
        split.
        { rewrite <- Hx. change (REvent type data g :: before) with ([REvent type data g] ++ before).
          rewrite filter_app. unfold events, S_StreamClient.traces_in. now rewrite !flat_map_app. }
        change (flat_map _ before) with (events before).
        destruct o' as [|[err|]].
        -- destruct Ho as (-> & Ho). split; [reflexivity|]. constructor; assumption.
        -- destruct Ho as [(Hu & e & r & -> & ->)|[(b & d & m & Hb & Hu & Hm & ->)|(b & d & m & Hb & Hu & Hm & ->)]].
           ++ left. split; [constructor; assumption|]. exists e, r. split; reflexivity.
           ++ right; left. exists ((type, data) :: b), d, m. rewrite Hb. repeat split; [constructor; assumption|exact Hm].
           ++ right; right. exists ((type, data) :: b), d, m. rewrite Hb. repeat split; [constructor; assumption|exact Hm].
        -- destruct Ho as (Hu & r & ->). split; [constructor; assumption|]. exists r; reflexivity.
    + injection H as <- <-. exists [], (RClosed :: reads). cbn. repeat split; try reflexivity; [intros r []|constructor|exists reads; reflexivity].
    + injection H as <- <-. exists [], (RError e :: reads). cbn. repeat split; try reflexivity; [intros r []|].
      left. split; [constructor|]. exists e, reads. split; reflexivity.
Qed.

(** OnRead is called once for every event, in order, up to the end of the stream; and the
    stream ends with nil exactly where it was closed, with an error exactly where reading
    failed or an event could not be decoded, which it names. *)
Theorem C88_calls_back_and_ends : forall reads done o, stream None reads = (done, o) ->
  exists before after, reads = before ++ after /\ (forall r, In r before -> exists t d g, r = REvent t d g) /\
    calls done = events before /\
    match o with
    | Running => after = [] /\ Forall usable (events before)
    | Returned None => Forall usable (events before) /\ exists r, after = RClosed :: r
    | Returned (Some err) =>
        (Forall usable (events before) /\ exists e r, after = RError e :: r /\ err = ("read server-sent event: " ++ e)%string) \/
        (exists b data m, events before = b ++ [("trace", data)] /\ Forall usable b /\ unmarshal_trace data = inr m /\ err = ("decode trace event: " ++ m)%string) \/
        (exists b data m, events before = b ++ [("stats", data)] /\ Forall usable b /\ unmarshal_stats data = inr m /\ err = ("invalid stats event: " ++ m)%string)
    end.
Proof.
  intros reads done o. rewrite stream_None. destruct (loop reads) as [es o'] eqn:Hl. cbn [fst snd]. intros H; injection H as <- <-.
  destruct (loop_spec _ _ _ Hl) as (before & after & Hr & Hall & Hc & _ & _ & _ & Ho).
  exists before, after. rewrite calls_app, calls_deferred, app_nil_r. auto.
Qed.

Lemma traces_in_app a b : traces_in (a ++ b) = traces_in a ++ traces_in b.
Proof. apply flat_map_app. Qed.
Lemma events_app (a b : list read) : events (a ++ b) = events a ++ events b.
Proof. apply flat_map_app. Qed.
Lemma kept_subseq (l : list read) :
  subseq (traces_in (events (filter (fun r => match r with REvent _ _ g => negb g | _ => false end) l))) (traces_in (events l)).
Proof.
  induction l as [|r l IH]; [apply subseq_refl|].
  change (r :: l) with ([r] ++ l). rewrite filter_app, !events_app, !traces_in_app. apply subseq_app; [|exact IH].
  destruct r as [t d g| |e]; cbn; try apply subseq_refl. destruct g; cbn; [|apply subseq_refl].
  destruct (String.eqb t "trace"); [|apply subseq_refl]. destruct (unmarshal_trace d); [|apply subseq_refl]. cbn. repeat constructor.
Qed.
Lemma kept_all (l : list read) : nothing_given_up l -> (forall r, In r l -> exists t d g, r = REvent t d g) ->
  filter (fun r => match r with REvent _ _ g => negb g | _ => false end) l = l.
Proof.
  intros Hn. induction l as [|r l IH]; intros Ha; [reflexivity|].
  destruct (Ha r (or_introl eq_refl)) as (t & d & g & ->). cbn. destruct g.
  - exfalso. apply (Hn t d). now left.
  - cbn. f_equal. apply IH; [intros t' d' Hi; apply (Hn t' d'); now right|intros r' Hr'; apply Ha; now right].
Qed.
Lemma loop_put : forall reads es o, loop reads = (es, o) -> forall p str q, es = p ++ Put str :: q ->
  exists p' data, p = p' ++ [Called "trace" data] /\ unmarshal_trace data = inl str.
Proof.
  induction reads as [|r reads IH]; intros es o H p str q E.
  - injection H as <- <-. destruct p; discriminate.
  - destruct r as [type data g| |e]; cbn in H; try (injection H as <- <-; destruct p; discriminate).
    destruct (handle type data g) as [done err] eqn:Hh.
    assert (Hd : done = [] \/ (exists w, done = [Traced w]) \/ (exists x, done = [Put x] /\ type = "trace" /\ unmarshal_trace data = inl x)).
    { revert Hh. unfold M_StreamClient.handle. destruct (String.eqb type "init"); [intros Q; injection Q as <- _; eauto|].
      destruct (String.eqb type "trace") eqn:Et.
      - apply String.eqb_eq in Et. destruct (unmarshal_trace data) as [x|m] eqn:Eu.
        + destruct g; intros Q; injection Q as <- _; [auto|]. right; right. exists x. auto.
        + intros Q; injection Q as <- _; auto.
      - destruct (String.eqb type "stats").
        + destruct (unmarshal_stats data); intros Q; injection Q as <- _; eauto.
        + intros Q; injection Q as <- _; eauto. }
    destruct err as [err|].
    + injection H as <- <-. destruct Hd as [->|[(w & ->)|(x & -> & -> & Hx)]].
      * destruct p as [|? [|? ?]]; discriminate.
      * destruct p as [|? [|? [|? ?]]]; discriminate.
      * destruct p as [|? [|? [|? ?]]]; try discriminate. injection E as <- <- <-. exists [], data. auto.
    + destruct (loop reads) as [rest o'] eqn:Hl. injection H as <- <-.
      destruct Hd as [->|[(w & ->)|(x & -> & -> & Hx)]]; cbn [app] in E.
      * destruct p as [|a p]; [discriminate|]. injection E as <- E. destruct (IH _ _ eq_refl _ _ _ E) as (p' & d & -> & Hd).
        exists (Called type data :: p'), d. auto.
      * destruct p as [|a [|b p]]; try discriminate. injection E as <- <- E. destruct (IH _ _ eq_refl _ _ _ E) as (p' & d & -> & Hd).
        exists (Called type data :: Traced w :: p'), d. auto.
      * destruct p as [|a [|b p]]; try discriminate.
        -- injection E as <- <- E. exists [], data. auto.
        -- injection E as <- <- E. destruct (IH _ _ eq_refl _ _ _ E) as (p' & d & -> & Hd).
           exists (Called "trace" data :: Put x :: p'), d. auto.
Qed.

(** The traces on the channel are those in the events that were read, in order, apart from
    those given up for a cancelled context; each is put there right after its OnRead. *)
Theorem C88_traces : forall reads done o, stream None reads = (done, o) ->
  subseq (puts done) (traces_in (calls done)) /\
  (nothing_given_up reads -> puts done = traces_in (calls done)) /\
  (forall p str q, done = p ++ Put str :: q -> exists p' data, p = p' ++ [Called "trace" data] /\ unmarshal_trace data = inl str).
Proof.
  intros reads done o. rewrite stream_None. destruct (loop reads) as [es o'] eqn:Hl. cbn [fst snd]. intros H; injection H as <- <-.
  destruct (loop_spec _ _ _ Hl) as (before & after & Hr & Hall & Hc & _ & _ & Hp & _).
  rewrite calls_app, calls_deferred, app_nil_r, puts_app, puts_deferred, app_nil_r, Hc, Hp.
  split; [apply kept_subseq|]. split.
  - intros Hn. rewrite kept_all; [reflexivity| |exact Hall]. intros t d Hi. apply (Hn t d). rewrite Hr. apply in_or_app; now left.
  - intros p str q E. assert (exists q', es = p ++ Put str :: q') as (q' & E').
    { destruct o' as [|[err|]]; cbn in E; rewrite ?app_nil_r in E; try (exists q; exact E).
      destruct (exists_last (l := Put str :: q)) as (q' & a & Eq); [discriminate|]. rewrite Eq, app_assoc in E.
      apply app_inj_tail in E as (E & Ea). destruct q' as [|b q']; [injection Eq as Eq _; subst a; discriminate|].
      injection Eq as <- _. exists q'. exact E. }
    exact (loop_put _ _ _ Hl _ _ _ E').
Qed.

(** The own trace of the client says what happened: one line for each event but traces, with
    its content; and one error, at the very end, exactly if Stream returns an error. *)
Theorem C88_own_trace : forall no_request reads done o, stream no_request reads = (done, o) ->
  notes done = flat_map note (calls done) /\
  match o with
  | Returned (Some err) => exists l, done = l ++ [Failed ("error: " ++ err)%string] /\ failures l = []
  | _ => failures done = []
  end.
Proof.
  intros [err|] reads done o.
  { unfold M_StreamClient.stream. intros H; injection H as <- <-. cbn. split; [reflexivity|]. exists []; auto. }
  rewrite stream_None. destruct (loop reads) as [es o'] eqn:Hl. cbn [fst snd]. intros H; injection H as <- <-.
  destruct (loop_spec _ _ _ Hl) as (before & after & Hr & Hall & Hc & Hf & Hn & _ & _).
  rewrite calls_app, calls_deferred, app_nil_r, notes_app, notes_deferred, app_nil_r, Hc, Hn. split; [reflexivity|].
  destruct o' as [|[err|]]; cbn [deferred]; rewrite ?app_nil_r; [exact Hf| |exact Hf]. exists es. auto.
Qed.

Lemma loop_app : forall r1 r2, snd (loop r1) = Running -> loop (r1 ++ r2) = (fst (loop r1) ++ fst (loop r2), snd (loop r2)).
Proof.
  induction r1 as [|r r1 IH]; intros r2 H; [cbn; destruct (loop r2); reflexivity|].
  destruct r as [type data g| |e]; cbn in H |- *; try discriminate.
  destruct (handle type data g) as [done [err|]]; [discriminate|].
  destruct (loop r1) as [es o] eqn:E. cbn [snd] in H. rewrite (IH r2 H). cbn. now rewrite app_assoc.
Qed.
Lemma loop_returned : forall r1 r2, snd (loop r1) <> Running -> loop (r1 ++ r2) = loop r1.
Proof.
  induction r1 as [|r r1 IH]; intros r2 H; [now destruct H|].
  destruct r as [type data g| |e]; cbn in H |- *; try reflexivity.
  destruct (handle type data g) as [done [err|]]; [reflexivity|].
  destruct (loop r1) as [es o] eqn:E. cbn [snd] in H. rewrite IH by exact H. reflexivity.
Qed.
Lemma outcome_dec (o : outcome) : o = Running \/ o <> Running.
Proof. destruct o; [now left|right; discriminate]. Qed.

(** Events of a type that the client does not know change nothing: servers may send more
    than clients know. *)
Theorem C88_unknown_events : forall r1 r2 type data g, unknown type ->
  let with_it := stream None (r1 ++ REvent type data g :: r2) in
  let without := stream None (r1 ++ r2) in
  snd with_it = snd without /\ puts (fst with_it) = puts (fst without) /\ failures (fst with_it) = failures (fst without).
Proof.
  intros r1 r2 type data g (H1 & H2 & H3). cbn zeta. rewrite !stream_None. cbn [fst snd].
  destruct (outcome_dec (snd (loop r1))) as [E|E].
  - rewrite !loop_app by exact E. cbn [fst snd M_StreamClient.loop].
    assert (handle type data g = ([Traced ("unknown event type " ++ quote type)%string], None)) as Eh.
    { unfold M_StreamClient.handle. apply String.eqb_neq in H1, H2, H3. now rewrite H1, H2, H3. }
    rewrite Eh. destruct (loop r2) as [es o]. cbn [fst snd].
    rewrite !puts_app, !failures_app. split; [reflexivity|]. split; reflexivity.
  - rewrite !loop_returned by exact E. repeat split.
Qed.

(** What was done stays done; and after it returned, Stream does nothing. *)
Theorem C88_goes_on : forall r1 r2,
  (snd (stream None r1) = Running -> exists more, fst (stream None (r1 ++ r2)) = fst (stream None r1) ++ more) /\
  (snd (stream None r1) <> Running -> stream None (r1 ++ r2) = stream None r1).
Proof.
  intros r1 r2. rewrite !stream_None. cbn [fst snd]. split; intros H.
  - rewrite loop_app by exact H. rewrite H. cbn [fst snd deferred]. rewrite app_nil_r, <- app_assoc. eauto.
  - rewrite loop_returned by exact H. reflexivity.
Qed.

Lemma reach_inv s : stream_reach s ->
  (k_closed s = true -> k_cancelled s = true) /\
  (k_cancelled s = false -> nothing_given_up (k_reads s)) /\
  (In RClosed (k_reads s) -> k_closed s = true).
Proof.
  induction 1 as [|s s' _ (I1 & I2 & I3) H]; [repeat split; try discriminate; [intros _ t d []|intros []]|].
  destruct H as [s|s Hc|s t d g _ Hg|s _ Hc|s e _]; cbn [k_reads k_cancelled k_closed].
  - repeat split; try discriminate; auto.
  - repeat split; try discriminate; auto.
  - repeat split; auto.
    + intros Hf t' d' Hi. apply in_app_or in Hi as [Hi|[Hi|[]]]; [exact (I2 Hf t' d' Hi)|].
      injection Hi as _ _ ->. rewrite Hg in Hf by reflexivity. discriminate.
    + intros Hi. apply in_app_or in Hi as [Hi|[Hi|[]]]; [auto|discriminate].
  - repeat split; auto. intros Hf t' d' Hi. apply in_app_or in Hi as [Hi|[Hi|[]]]; [exact (I2 Hf t' d' Hi)|discriminate].
  - repeat split; auto.
    + intros Hf t' d' Hi. apply in_app_or in Hi as [Hi|[Hi|[]]]; [exact (I2 Hf t' d' Hi)|discriminate].
    + intros Hi. apply in_app_or in Hi as [Hi|[Hi|[]]]; [auto|discriminate].
Qed.

(** Until its context is cancelled, a stream loses no trace and does not return nil; once
    it is cancelled, a stream that has not returned can be closed and then returns nil. *)
Theorem C88_until_cancelled : forall s, stream_reach s ->
  let done := fst (stream None (k_reads s)) in
  let o := snd (stream None (k_reads s)) in
  (k_cancelled s = false -> puts done = traces_in (calls done) /\ o <> Returned None) /\
  (k_cancelled s = true -> o = Running ->
     exists s1 s2, stream_step s s1 /\ stream_step s1 s2 /\ snd (stream None (k_reads s2)) = Returned None).
Proof.
  intros s Hs. destruct (reach_inv _ Hs) as (I1 & I2 & I3). cbn zeta.
  destruct (stream None (k_reads s)) as [done o] eqn:E. cbn [fst snd]. split.
  - intros Hf. split; [apply (C88_traces _ _ _ E); auto|]. intros ->.
    destruct (C88_calls_back_and_ends _ _ _ E) as (b & a & Hr & _ & _ & _ & r & ->).
    assert (k_closed s = true) as Hc by (apply I3; rewrite Hr; apply in_or_app; right; now left).
    rewrite I1 in Hf by exact Hc. discriminate.
  - intros Hc ->. assert (snd (stream None (k_reads s)) = Running) as Ho by now rewrite E.
    exists (MkStream (k_reads s) true true), (MkStream (k_reads s ++ [RClosed]) true true).
    split; [now apply KClose|]. split; [apply (KClosed _ _ _ _ (MkStream (k_reads s) true true)); [exact Ho|reflexivity]|].
    cbn [k_reads]. rewrite stream_None. rewrite stream_None in Ho. cbn [snd] in Ho |- *. rewrite loop_app by exact Ho. reflexivity.
Qed.

(** That Stream has closed its connection when it returns is false: after an error the
    connection stays open until the context is cancelled, however long that takes. *)
Theorem C88_connection_refuted :
  (exists s err, stream_reach s /\ snd (stream None (k_reads s)) = Returned (Some err) /\ k_closed s = false) /\
  (forall s, stream_reach s -> k_cancelled s = false -> k_closed s = false).
Proof.
  split.
  - exists (MkStream [RError "x"] false false), "read server-sent event: x". split; [|split; reflexivity].
    eapply KStep; [apply KInit|]. exact (KError _ _ _ _ (MkStream [] false false) "x" eq_refl).
  - intros s Hs Hf. destruct (reach_inv _ Hs) as (I1 & _). destruct (k_closed s); [|reflexivity]. now rewrite I1 in Hf.
Qed.
End Client.

(** The events that a trc server writes (trcweb/trace_server.go:292-351): the client can use
    all of them, and gets its traces as JSON leaves them (C56). *)
Inductive from_server (time_text : Z -> option string) : read (Data := json) -> list StaticTrace -> Prop :=
| FInit j : from_server time_text (REvent "init" j false) []
| FStats st : from_server time_text (REvent "stats" (enc_stream_stats st) false) []
| FTrace t j : enc_static time_text t j -> from_server time_text (REvent "trace" j false) [t].
Theorem C88_trc_server : forall time_text parse_time, times_read_back time_text parse_time ->
  forall text quote err err' reads traces, Forall2 (from_server time_text) reads traces ->
  let unmarshal_trace j := match dec_static parse_time j with Some t => inl t | None => inr (err j) end in
  let unmarshal_stats j := match dec_stream_stats j with Some st => inl st | None => inr (err' j) end in
  let r := stream text quote unmarshal_trace unmarshal_stats None reads in
  snd r = Running /\ puts (fst r) = map sent_trace (concat traces).
Proof.
  intros tt pt Ht text quote err err' reads traces H. cbn zeta.
  set (ut := fun j => match dec_static pt j with Some t => inl t | None => inr (err j) end).
  set (us := fun j => match dec_stream_stats j with Some st => inl st | None => inr (err' j) end).
  assert (forall st, us (enc_stream_stats st) = inl st) as Hus by (intros st; destruct st; reflexivity).
  assert (forall t j, enc_static tt t j -> ut j = inl (sent_trace t)) as Hut.
  { intros t j Hj. destruct (C56_trace_roundtrip tt pt Ht t) as (_ & H2 & _). unfold ut. now rewrite (H2 j Hj). }
  clearbody ut us. rewrite stream_None.
  assert (snd (M_StreamClient.loop text quote ut us reads) = Running /\ puts (fst (M_StreamClient.loop text quote ut us reads)) = map sent_trace (concat traces)) as (E1 & E2).
  { induction H as [|r l reads traces Hr _ IH]; [split; reflexivity|].
    destruct IH as (I1 & I2). destruct (M_StreamClient.loop text quote ut us reads) as [es o] eqn:E. cbn [fst snd] in I1, I2.
    destruct Hr as [j|st|t j Hj]; cbn -[enc_stream_stats].
    - rewrite E. split; [exact I1|exact I2].
    - rewrite Hus, E. split; [exact I1|exact I2].
    - rewrite (Hut t j Hj), E. split; [exact I1|]. cbn. f_equal. exact I2. }
  cbn [fst snd]. split; [exact E1|]. now rewrite E1, app_nil_r.
Qed.

(** A stream with everything in it: an unknown event, a trace, statistics, a trace given up,
    and a trace that cannot be decoded. *)
Example C88_instance :
  let t := MkStatic "src" "id" "cat" 1 0 "0s" true false [] in
  let st := MkStreamStats 1 2 3 in
  let r := stream (fun d => d) (fun q => ("'" ++ q ++ "'")%string)
    (fun d => if String.eqb d "bad" then inr "oops" else inl t) (fun d => inl st) None
    [REvent "init" "hello" false; REvent "ping" "" false; REvent "trace" "ok" false; REvent "stats" "s" false;
     REvent "trace" "ok" true; REvent "trace" "bad" false; REvent "trace" "ok" false] in
  snd r = Returned (Some "decode trace event: oops") /\
  calls (fst r) = [("init", "hello"); ("ping", ""); ("trace", "ok"); ("stats", "s"); ("trace", "ok"); ("trace", "bad")] /\
  puts (fst r) = [t] /\
  notes (fst r) = ["init: hello"; "unknown event type 'ping'"; "skips=1 sends=2 drops=3"] /\
  failures (fst r) = ["error: decode trace event: oops"].
Proof. repeat split. Qed.

Print Assumptions C88_calls_back_and_ends.
Print Assumptions C88_traces.
Print Assumptions C88_own_trace.
Print Assumptions C88_unknown_events.
Print Assumptions C88_goes_on.
Print Assumptions C88_until_cancelled.
Print Assumptions C88_connection_refuted.
Print Assumptions C88_trc_server.

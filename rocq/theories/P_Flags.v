(** C105: the flags of the command line mean what they say. *)
From Verif Require Import Go M_Types M_Filter S_Filter L_Filter M_Humanize M_Search M_Web P_Web M_Flags S_Flags.
Open Scope string_scope.
Open Scope list_scope.
Open Scope Z_scope.

Section Flags.
Variable parse_bool : string -> option bool.
Variable parse_int : string -> option Z.
Variable parse_duration : string -> option Z.
Notation command_flags := (command_flags parse_bool parse_int parse_duration).
Notation configure := (configure parse_bool parse_int parse_duration).

Lemma parse_app flags : forall l1 l2 c, parse flags (l1 ++ l2) c = match parse flags l1 c with Some c => parse flags l2 c | None => None end.
Proof. induction l1 as [|g l1 IH]; intros l2 c; [reflexivity|]. cbn. destruct (give flags g c); [apply IH|reflexivity]. Qed.
Lemma values_snoc l g s lg : values_of (l ++ [g]) s lg = values_of l s lg ++ (if is_named s lg (fst g) then [snd g] else []).
Proof. unfold values_of. rewrite filter_app, map_app. cbn. destruct (is_named s lg (fst g)); reflexivity. Qed.
Lemma last_snoc l g s lg : last_of (l ++ [g]) s lg = if is_named s lg (fst g) then Some (snd g) else last_of l s lg.
Proof. unfold last_of. rewrite values_snoc. destruct (is_named s lg (fst g)); [rewrite rev_app_distr; reflexivity|rewrite app_nil_r; reflexivity]. Qed.

(** What each flag does to each field. *)
Definition text_step (cmd : command) (s : option ascii) (lg : string) (field : config -> string) : Prop :=
  forall g c c', give (command_flags cmd) g c = Some c' -> field c' = if is_named s lg (fst g) then snd g else field c.
Definition list_step (cmd : command) (s : option ascii) (lg : string) (field : config -> list string) : Prop :=
  forall g c c', give (command_flags cmd) g c = Some c' -> field c' = if is_named s lg (fst g) then add_unique (field c) (snd g) else field c.
Definition value_step {A} (cmd : command) (parse : string -> option A) (s : option ascii) (lg : string) (field : config -> A) : Prop :=
  forall g c c', give (command_flags cmd) g c = Some c' -> if is_named s lg (fst g) then parse (snd g) = Some (field c') else field c' = field c.

Ltac solve_step := 
  intros [n v] c c' H; unfold give in H; cbn [fst snd] in *; destruct n as [a|w];
  cbn [command_flags M_Flags.command_flags app search_flags stream_flags trc_flags filter_flags base_flags find named fl_short fl_long is_named] in *;
  repeat match type of H with
  | context [Ascii.eqb ?x ?y] => destruct (Ascii.eqb_spec x y); [subst a; cbn in H |- *|]
  | context [String.eqb ?x ?y] => lazymatch x with w => destruct (String.eqb_spec x y); [subst w; cbn in H |- *|] end
  end;
  try discriminate H;
  try (unfold option_of, text, enum in H;
       repeat match type of H with context [match ?x with _ => _ end] => destruct x eqn:?; try discriminate H end;
       injection H as <-; cbn; repeat split; congruence).
Lemma all_steps cmd : forall g c c', give (command_flags cmd) g c = Some c' ->
  c_category c' = (if is_named (Some "c"%char) "category" (fst g) then snd g else c_category c) /\
  c_query c' = (if is_named (Some "q"%char) "query" (fst g) then snd g else c_query c) /\
  c_output c' = (if is_named (Some "o"%char) "output" (fst g) then snd g else c_output c) /\
  c_logLevel c' = (if is_named (Some "l"%char) "log" (fst g) then snd g else c_logLevel c) /\
  c_uriPath c' = (if is_named (None) "uri-path" (fst g) then snd g else c_uriPath c) /\
  c_sources c' = (if is_named (None) "source" (fst g) then add_unique (c_sources c) (snd g) else c_sources c) /\
  c_ids c' = (if is_named (Some "i"%char) "id" (fst g) then add_unique (c_ids c) (snd g) else c_ids c) /\
  c_uris c' = (if is_named (Some "u"%char) "uri" (fst g) then add_unique (c_uris c) (snd g) else c_uris c) /\
  (if is_named (Some "a"%char) "active" (fst g) then parse_bool (snd g) = Some (c_isActive c') else c_isActive c' = c_isActive c) /\
  (if is_named (Some "f"%char) "finished" (fst g) then parse_bool (snd g) = Some (c_isFinished c') else c_isFinished c' = c_isFinished c) /\
  (if is_named (None) "success" (fst g) then parse_bool (snd g) = Some (c_isSuccess c') else c_isSuccess c' = c_isSuccess c) /\
  (if is_named (None) "errored" (fst g) then parse_bool (snd g) = Some (c_isErrored c') else c_isErrored c' = c_isErrored c) /\
  (if is_named (Some "d"%char) "duration" (fst g) then parse_duration (snd g) = Some (c_minDuration c') else c_minDuration c' = c_minDuration c).
Proof. destruct cmd; solve_step. Qed.
Lemma step_category cmd : text_step cmd (Some "c"%char) "category" c_category.
Proof. intros g c c' H. pose proof (all_steps cmd g c c' H). tauto. Qed.
Lemma step_query cmd : text_step cmd (Some "q"%char) "query" c_query.
Proof. intros g c c' H. pose proof (all_steps cmd g c c' H). tauto. Qed.
Lemma step_output cmd : text_step cmd (Some "o"%char) "output" c_output.
Proof. intros g c c' H. pose proof (all_steps cmd g c c' H). tauto. Qed.
Lemma step_logLevel cmd : text_step cmd (Some "l"%char) "log" c_logLevel.
Proof. intros g c c' H. pose proof (all_steps cmd g c c' H). tauto. Qed.
Lemma step_uriPath cmd : text_step cmd (None) "uri-path" c_uriPath.
Proof. intros g c c' H. pose proof (all_steps cmd g c c' H). tauto. Qed.
Lemma step_sources cmd : list_step cmd (None) "source" c_sources.
Proof. intros g c c' H. pose proof (all_steps cmd g c c' H). tauto. Qed.
Lemma step_ids cmd : list_step cmd (Some "i"%char) "id" c_ids.
Proof. intros g c c' H. pose proof (all_steps cmd g c c' H). tauto. Qed.
Lemma step_uris cmd : list_step cmd (Some "u"%char) "uri" c_uris.
Proof. intros g c c' H. pose proof (all_steps cmd g c c' H). tauto. Qed.
Lemma step_isActive cmd : value_step cmd parse_bool (Some "a"%char) "active" c_isActive.
Proof. intros g c c' H. pose proof (all_steps cmd g c c' H). tauto. Qed.
Lemma step_isFinished cmd : value_step cmd parse_bool (Some "f"%char) "finished" c_isFinished.
Proof. intros g c c' H. pose proof (all_steps cmd g c c' H). tauto. Qed.
Lemma step_isSuccess cmd : value_step cmd parse_bool (None) "success" c_isSuccess.
Proof. intros g c c' H. pose proof (all_steps cmd g c c' H). tauto. Qed.
Lemma step_isErrored cmd : value_step cmd parse_bool (None) "errored" c_isErrored.
Proof. intros g c c' H. pose proof (all_steps cmd g c c' H). tauto. Qed.
Lemma step_minDuration cmd : value_step cmd parse_duration (Some "d"%char) "duration" c_minDuration.
Proof. intros g c c' H. pose proof (all_steps cmd g c c' H). tauto. Qed.
Lemma step_limit : value_step Csearch parse_int (Some "n"%char) "limit" c_limit.
Proof. solve_step. Qed.
Lemma step_stackDepth : value_step Csearch parse_int (None) "stack-depth" c_stackDepth.
Proof. solve_step. Qed.
Lemma step_includeRequest : value_step Csearch parse_bool (None) "include-request" c_includeRequest.
Proof. solve_step. Qed.
Lemma step_includeStats : value_step Csearch parse_bool (None) "include-stats" c_includeStats.
Proof. solve_step. Qed.
Lemma step_streamEvents : value_step Cstream parse_bool (Some "e"%char) "events" c_streamEvents.
Proof. solve_step. Qed.
Lemma step_sendBuf : value_step Cstream parse_int (None) "send-buffer" c_sendBuf.
Proof. solve_step. Qed.
Lemma step_recvBuf : value_step Cstream parse_int (None) "recv-buffer" c_recvBuf.
Proof. solve_step. Qed.
Lemma step_statsInterval : value_step Cstream parse_duration (None) "stats-interval" c_statsInterval.
Proof. solve_step. Qed.
Lemma step_retryInterval : value_step Cstream parse_duration (None) "retry-interval" c_retryInterval.
Proof. solve_step. Qed.
Lemma step_durationIsSet cmd g c c' : give (command_flags cmd) g c = Some c' ->
  c_durationIsSet c' = if is_named (Some "d"%char) "duration" (fst g) then true else c_durationIsSet c.
Proof. revert g c c'. destruct cmd; solve_step. Qed.

(** ... and so what all flags together do. *)
Lemma text_all cmd s lg field : text_step cmd s lg field ->
  forall l c, configure cmd l = Some c -> field c = match last_of l s lg with Some v => v | None => field default_config end.
Proof.
  intros St l. induction l as [|g l IH] using rev_ind; intros c H; unfold configure, M_Flags.configure in *.
  - injection H as <-. reflexivity.
  - rewrite parse_app in H. destruct (parse _ l default_config) as [c0|] eqn:E; [|discriminate]. cbn [parse] in H.
    destruct (give (command_flags cmd) g c0) as [c1|] eqn:G; [|discriminate]. injection H as <-.
    rewrite (St g c0 c1 G), last_snoc. destruct (is_named s lg (fst g)); [reflexivity|]. apply IH. reflexivity.
Qed.
Lemma value_all {A} cmd (pr : string -> option A) s lg field : value_step cmd pr s lg field ->
  forall l c, configure cmd l = Some c -> match last_of l s lg with Some v => pr v = Some (field c) | None => field c = field default_config end.
Proof.
  intros St l. induction l as [|g l IH] using rev_ind; intros c H; unfold configure, M_Flags.configure in *.
  - injection H as <-. reflexivity.
  - rewrite parse_app in H. destruct (parse _ l default_config) as [c0|] eqn:E; [|discriminate]. cbn [parse] in H.
    destruct (give (command_flags cmd) g c0) as [c1|] eqn:G; [|discriminate]. injection H as <-.
    pose proof (St g c0 c1 G) as S. rewrite last_snoc. destruct (is_named s lg (fst g)); [exact S|]. rewrite S. apply IH. reflexivity.
Qed.
Lemma list_all cmd s lg field : list_step cmd s lg field -> field default_config = [] ->
  forall l c, configure cmd l = Some c -> field c = rev (nodup string_dec (rev (values_of l s lg))).
Proof.
  intros St D l. induction l as [|g l IH] using rev_ind; intros c H; unfold configure, M_Flags.configure in *.
  - injection H as <-. exact D.
  - rewrite parse_app in H. destruct (parse _ l default_config) as [c0|] eqn:E; [|discriminate]. cbn [parse] in H.
    destruct (give (command_flags cmd) g c0) as [c1|] eqn:G; [|discriminate]. injection H as <-.
    rewrite (St g c0 c1 G), values_snoc. destruct (is_named s lg (fst g)); [|rewrite app_nil_r; apply IH; reflexivity].
    rewrite rev_app_distr. cbn [rev app nodup]. rewrite (IH _ eq_refl). unfold add_unique.
    assert (X : existsb (String.eqb (snd g)) (rev (nodup string_dec (rev (values_of l s lg)))) = true <-> In (snd g) (rev (values_of l s lg))).
    { rewrite existsb_exists. split.
      - intros (x & Hx & Ex). apply String.eqb_eq in Ex. subst x. apply in_rev in Hx. apply nodup_In in Hx. exact Hx.
      - intros Hx. exists (snd g). split; [apply -> in_rev; apply nodup_In; exact Hx|apply String.eqb_refl]. }
    destruct (in_dec string_dec (snd g) (rev (values_of l s lg))) as [I|I].
    + rewrite (proj2 X I). reflexivity.
    + destruct (existsb _ _); [exfalso; apply I, X; reflexivity|]. reflexivity.
Qed.
Lemma list_in cmd s lg field : list_step cmd s lg field -> field default_config = [] ->
  forall l c, configure cmd l = Some c -> forall x, In x (field c) <-> In x (values_of l s lg).
Proof. intros St D l c H x. rewrite (list_all cmd s lg field St D l c H), <- in_rev, nodup_In, <- in_rev. reflexivity. Qed.
Lemma duration_all cmd l c : configure cmd l = Some c ->
  match last_of l (Some "d"%char) "duration" with
  | Some v => exists d, parse_duration v = Some d /\ flag_duration (flags_of c) = Some d
  | None => flag_duration (flags_of c) = None
  end.
Proof.
  intros H. pose proof (value_all cmd parse_duration _ _ _ (step_minDuration cmd) l c H) as V.
  assert (B : c_durationIsSet c = match last_of l (Some "d"%char) "duration" with Some _ => true | None => false end).
  { clear V. revert c H. induction l as [|g l IH] using rev_ind; intros c H; unfold configure, M_Flags.configure in *.
    - injection H as <-. reflexivity.
    - rewrite parse_app in H. destruct (parse _ l default_config) as [c0|] eqn:E; [|discriminate]. cbn [parse] in H.
      destruct (give (command_flags cmd) g c0) as [c1|] eqn:G; [|discriminate]. injection H as <-.
      rewrite (step_durationIsSet cmd g c0 c1 G), last_snoc. destruct (is_named _ _ (fst g)); [reflexivity|]. apply IH. reflexivity. }
  unfold flags_of. cbn [flag_duration]. rewrite B. destruct (last_of l (Some "d"%char) "duration") as [v|]; [|reflexivity].
  exists (c_minDuration c). auto.
Qed.
Lemma bool_all cmd s lg field : value_step cmd parse_bool s lg field -> field default_config = false ->
  forall l c, configure cmd l = Some c -> field c = true <-> switched_on parse_bool l s lg.
Proof.
  intros St D l c H. pose proof (value_all cmd parse_bool s lg field St l c H) as V. unfold switched_on.
  destruct (last_of l s lg) as [v|].
  - split; [intros E; exists v; rewrite <- E; auto|]. intros (v' & E & P). injection E as <-. rewrite V in P. injection P as ->. reflexivity.
  - rewrite V, D. split; [discriminate|]. intros (v' & E & _). discriminate.
Qed.

Section Conditions.
Context {RE : Type}.
Variable Compile : string -> RE + string.
Variable MatchString : RE -> string -> bool.
Lemma other_conditions_wanted cmd l c tr : configure cmd l = Some c ->
  other_conditions Compile MatchString (flags_of c) tr <-> wanted Compile MatchString parse_bool parse_duration l tr.
Proof.
  intros H. unfold other_conditions, wanted. unfold flags_of at 1 2 3 4 5 6 7 8. cbn [flag_sources flag_ids flag_category flag_success flag_errored flag_query].
  pose proof (list_in cmd _ _ _ (step_sources cmd) eq_refl l c H) as L1. pose proof (list_in cmd _ _ _ (step_ids cmd) eq_refl l c H) as L2.
  pose proof (text_all cmd _ _ _ (step_category cmd) l c H) as T1. pose proof (text_all cmd _ _ _ (step_query cmd) l c H) as T2.
  pose proof (bool_all cmd _ _ _ (step_isSuccess cmd) eq_refl l c H) as B1. pose proof (bool_all cmd _ _ _ (step_isErrored cmd) eq_refl l c H) as B2.
  pose proof (duration_all cmd l c H) as D1.
  rewrite <- B1, <- B2.
  assert (E : forall (l1 l2 : list string) x, (forall x, In x l1 <-> In x l2) -> ((l1 <> [] -> In x l1) <-> (l2 = [] \/ In x l2))).
  { intros l1 l2 x I. rewrite I. destruct l1 as [|y l1], l2 as [|z l2]; try tauto.
    - exfalso. apply (I z). left. reflexivity.
    - exfalso. apply (I y). left. reflexivity.
    - split; [intros K; right; apply K; discriminate|intros [K|K] _; [discriminate|exact K]]. }
  rewrite (E _ _ _ L1), (E _ _ _ L2).
  assert (C : (c_category c <> "" -> TraceCategory tr = c_category c) <-> (forall v, last_of l (Some "c"%char) "category" = Some v -> v = "" \/ TraceCategory tr = v)).
  { rewrite T1. destruct (last_of l (Some "c"%char) "category") as [v|].
    - split; [intros K v' Q; injection Q as <-; destruct (string_dec v ""); auto|]. intros K N. destruct (K v eq_refl); [contradiction|assumption].
    - split; [discriminate|]. intros _ N. exfalso. apply N. reflexivity. }
  rewrite C.
  assert (Q : query_condition Compile MatchString (c_query c) tr <-> (forall v, last_of l (Some "q"%char) "query" = Some v -> query_condition Compile MatchString v tr)).
  { rewrite T2. destruct (last_of l (Some "q"%char) "query") as [v|].
    - split; [intros K v' Z; injection Z as <-; exact K|]. intros K. apply K. reflexivity.
    - split; [discriminate|]. intros _. cbn. unfold query_condition. destruct (Compile ""); [|exact Logic.I]. intros N. exfalso. apply N. reflexivity. }
  rewrite Q.
  assert (D : (forall d, flag_duration (flags_of c) = Some d -> TraceFinished tr = true /\ d <= TraceDuration tr) <->
    (forall v d, last_of l (Some "d"%char) "duration" = Some v -> parse_duration v = Some d -> TraceFinished tr = true /\ d <= TraceDuration tr)).
  { destruct (last_of l (Some "d"%char) "duration") as [v|].
    - destruct D1 as (d & P & ->). split.
      + intros K v' d' Z P'. injection Z as <-. rewrite P in P'. injection P' as <-. apply K. reflexivity.
      + intros K d' Z. injection Z as <-. apply (K v d eq_refl P).
    - rewrite D1. split; [|discriminate]. intros _ v d Z. discriminate. }
  rewrite D. tauto.
Qed.
End Conditions.

Lemma number_all cmd s lg field : value_step cmd parse_int s lg field ->
  forall l c, configure cmd l = Some c -> number parse_int l s lg (field default_config) (field c).
Proof. intros St l c H. exact (value_all cmd parse_int s lg field St l c H). Qed.
Lemma length_all cmd s lg field : value_step cmd parse_duration s lg field ->
  forall l c, configure cmd l = Some c -> duration parse_duration l s lg (field default_config) (field c).
Proof. intros St l c H. exact (value_all cmd parse_duration s lg field St l c H). Qed.

(** trc search: the request selects the traces the flags ask for, with the limit and the depth they ask for, and the response
    has the parts they ask for. *)
Theorem C105_search_flags :
  forall (RE : Type) (Compile : string -> RE + string) (MatchString : RE -> string -> bool) l c,
  configure Csearch l = Some c ->
  let req := cli_search_request (flags_of c) (c_limit c) (c_stackDepth c) in
  (forall tr, snd (Allow Compile MatchString (req_Filter req) tr) = true <->
     wanted Compile MatchString parse_bool parse_duration l tr /\
     (switched_on parse_bool l (Some "a"%char) "active" -> TraceFinished tr = false) /\
     (switched_on parse_bool l (Some "f"%char) "finished" -> TraceFinished tr = true)) /\
  number parse_int l (Some "n"%char) "limit" 10 (req_Limit req) /\
  (exists depth, number parse_int l None "stack-depth" 0 depth /\ (depth <> 0 -> req_StackDepth req = depth) /\ (depth = 0 -> req_StackDepth req = -1)) /\
  (c_includeRequest c = true <-> switched_on parse_bool l None "include-request") /\
  (c_includeStats c = true <-> switched_on parse_bool l None "include-stats").
Proof.
  intros RE C M l c H req. split; [|split; [|split; [|split]]].
  - intros tr. unfold req. rewrite C64_search_filter, (other_conditions_wanted C M Csearch l c tr H).
    rewrite <- (bool_all Csearch _ _ _ (step_isActive Csearch) eq_refl l c H), <- (bool_all Csearch _ _ _ (step_isFinished Csearch) eq_refl l c H).
    cbn [flags_of flag_active flag_finished]. tauto.
  - exact (number_all Csearch _ _ _ step_limit l c H).
  - exists (c_stackDepth c). split; [exact (number_all Csearch _ _ _ step_stackDepth l c H)|]. unfold req, cli_search_request. cbn [req_StackDepth].
    destruct (Z.eqb_spec (c_stackDepth c) 0); split; intros; try reflexivity; contradiction.
  - exact (bool_all Csearch _ _ _ step_includeRequest eq_refl l c H).
  - exact (bool_all Csearch _ _ _ step_includeStats eq_refl l c H).
Qed.

(** trc stream: so does the filter, with finished traces only unless events are asked for; --active and --finished do not matter. *)
Theorem C105_stream_flags :
  forall (RE : Type) (Compile : string -> RE + string) (MatchString : RE -> string -> bool) l c,
  configure Cstream l = Some c ->
  (forall tr, snd (Allow Compile MatchString (stream_filter (flags_of c) (c_streamEvents c)) tr) = true <->
     wanted Compile MatchString parse_bool parse_duration l tr /\
     (~ switched_on parse_bool l (Some "e"%char) "events" -> TraceFinished tr = true)) /\
  number parse_int l None "send-buffer" 100 (c_sendBuf c) /\
  number parse_int l None "recv-buffer" 100 (c_recvBuf c) /\
  duration parse_duration l None "stats-interval" (10 * Second) (c_statsInterval c) /\
  duration parse_duration l None "retry-interval" (1 * Second) (c_retryInterval c).
Proof.
  intros RE C M l c H. split; [|split; [|split; [|split]]].
  - intros tr. rewrite C64_stream_filter, (other_conditions_wanted C M Cstream l c tr H).
    rewrite <- (bool_all Cstream _ _ _ step_streamEvents eq_refl l c H). destruct (c_streamEvents c); intuition congruence.
  - exact (number_all Cstream _ _ _ step_sendBuf l c H).
  - exact (number_all Cstream _ _ _ step_recvBuf l c H).
  - exact (length_all Cstream _ _ _ step_statsInterval l c H).
  - exact (length_all Cstream _ _ _ step_retryInterval l c H).
Qed.

(** Both: each address once, where it was given first; and the path, log level and format given last. *)
Theorem C105_common_flags :
  forall cmd l c, configure cmd l = Some c ->
  c_uris c = rev (nodup string_dec (rev (values_of l (Some "u"%char) "uri"))) /\
  c_uriPath c = match last_of l None "uri-path" with Some v => v | None => "" end /\
  c_logLevel c = match last_of l (Some "l"%char) "log" with Some v => v | None => "info" end /\
  c_output c = match last_of l (Some "o"%char) "output" with Some v => v | None => "ndjson" end.
Proof.
  intros cmd l c H. split; [|split; [|split]].
  - exact (list_all cmd _ _ _ (step_uris cmd) eq_refl l c H).
  - exact (text_all cmd _ _ _ (step_uriPath cmd) l c H).
  - exact (text_all cmd _ _ _ (step_logLevel cmd) l c H).
  - exact (text_all cmd _ _ _ (step_output cmd) l c H).
Qed.

(** A command line is refused exactly if one of its flags does not belong to the command or has a wrong value. *)
Definition acceptable_entry (g : name * string) (e : option ascii * string * kind) : Prop :=
  is_named (fst (fst e)) (snd (fst e)) (fst g) = true /\ valid parse_bool parse_int parse_duration (snd e) (snd g).
Lemma acceptable_Exists cmd g : acceptable parse_bool parse_int parse_duration cmd g <-> Exists (acceptable_entry g) (kinds cmd).
Proof.
  rewrite Exists_exists. split.
  - intros (s & lg & k & I & N & V). exists (s, lg, k). split; [exact I|]. split; assumption.
  - intros ([[s lg] k] & I & N & V). exists s, lg, k. auto.
Qed.
Lemma one_of v l : existsb (String.eqb v) l = true <-> In v l.
Proof. rewrite existsb_exists. split; [intros (x & I & E); apply String.eqb_eq in E; subst; exact I|intros I; exists v; split; [exact I|apply String.eqb_refl]]. Qed.
Ltac find_entry := first [apply Exists_cons_hd; split; [reflexivity|cbn; try congruence; try exact Logic.I] | apply Exists_cons_tl; find_entry].
Lemma give_acceptable cmd g c : give (command_flags cmd) g c <> None <-> acceptable parse_bool parse_int parse_duration cmd g.
Proof.
  rewrite acceptable_Exists. split.
  - destruct (give (command_flags cmd) g c) as [c'|] eqn:H; [|intros N; exfalso; apply N; reflexivity]. intros _. revert g c c' H.
    destruct cmd; intros [n v] c c' H; unfold give in H; cbn [fst snd] in *; destruct n as [a|w];
    cbn [command_flags M_Flags.command_flags app search_flags stream_flags trc_flags filter_flags base_flags find named fl_short fl_long] in H;
    repeat match type of H with
    | context [Ascii.eqb ?x ?y] => destruct (Ascii.eqb_spec x y); [subst a|]
    | context [String.eqb ?x ?y] => lazymatch x with w => destruct (String.eqb_spec x y); [subst w|] end
    end; try discriminate H; cbn [fl_set] in H;
    unfold option_of, text, enum in H;
    repeat match type of H with context [match ?x with _ => _ end] => destruct x eqn:?; try discriminate H end;
    cbn [kinds common_kinds app]; find_entry.
    all: match goal with E : existsb _ _ = true |- _ => apply one_of in E; cbn in E; tauto end.
  - intros E. apply Exists_exists in E. destruct E as ([[s lg] k] & I & N & V). destruct g as [n v]. cbn [fst snd] in *.
    assert (D : n = Long lg \/ exists a, s = Some a /\ n = Short a).
    { destruct n as [a|w]; cbn in N; [destruct s as [b|]; [|discriminate]; apply Ascii.eqb_eq in N; subst; right; eauto|apply String.eqb_eq in N; subst; left; reflexivity]. }
    destruct cmd; cbn [kinds common_kinds app] in I; repeat (destruct I as [I|I]; [injection I as <- <- <-|]); try destruct I;
    (destruct D as [->|(a & Ea & ->)]; [|first [discriminate Ea|injection Ea as <-]]); unfold give; cbn - [enum]; cbn in V; unfold option_of, text, enum; try discriminate.
    all: try (match goal with |- match ?x with _ => _ end <> None => destruct x eqn:?; congruence end).
    all: match goal with |- (if existsb ?f ?l then _ else _) <> None => assert (X : existsb f l = true) by (apply one_of; cbn; tauto); rewrite X; discriminate end.
Qed.
Lemma parse_none flags : (forall g c c', give flags g c = None <-> give flags g c' = None) ->
  forall l c, parse flags l c = None <-> exists g, In g l /\ give flags g c = None.
Proof.
  intros U. induction l as [|g l IH]; intros c; cbn; [split; [discriminate|intros (g & [] & _)]|].
  destruct (give flags g c) as [c1|] eqn:G.
  - rewrite IH. split; intros (g' & I & N).
    + exists g'. split; [right; exact I|]. apply (U g' c c1). exact N.
    + destruct I as [<-|I]; [congruence|]. exists g'. split; [exact I|]. apply (U g' c c1). exact N.
  - split; [|reflexivity]. intros _. exists g. auto.
Qed.
Theorem C105_refused :
  forall cmd l, configure cmd l = None <-> exists g, In g l /\ ~ acceptable parse_bool parse_int parse_duration cmd g.
Proof.
  intros cmd l. unfold configure, M_Flags.configure. rewrite parse_none.
  - split; intros (g & I & N); exists g; (split; [exact I|]).
    + rewrite <- (give_acceptable cmd g default_config). intros K. apply K. exact N.
    + rewrite <- (give_acceptable cmd g default_config) in N. destruct (give (command_flags cmd) g default_config); [exfalso; apply N; discriminate|reflexivity].
  - intros g c c'. pose proof (give_acceptable cmd g c) as A. pose proof (give_acceptable cmd g c') as B.
    destruct (give (command_flags cmd) g c), (give (command_flags cmd) g c'); split; intros; try discriminate; try reflexivity; exfalso.
    + apply (proj2 B); [apply A; discriminate|reflexivity].
    + apply (proj2 A); [apply B; discriminate|reflexivity].
Qed.
End Flags.
Print Assumptions C105_search_flags.
Print Assumptions C105_stream_flags.
Print Assumptions C105_common_flags.
Print Assumptions C105_refused.

(** Finding: trc search cannot ask for all frames of the stacks, which a request does with depth 0; 0 on the command line
    asks for none. *)
Theorem C105_all_frames_refuted :
  forall parse_bool parse_int parse_duration (RE : Type) l c,
  configure parse_bool parse_int parse_duration Csearch l = Some c ->
  req_StackDepth (@cli_search_request RE (flags_of c) (c_limit c) (c_stackDepth c)) <> 0.
Proof. intros pb pi pd RE l c H. unfold cli_search_request. cbn [req_StackDepth]. destruct (Z.eqb_spec (c_stackDepth c) 0); [discriminate|assumption]. Qed.
Print Assumptions C105_all_frames_refuted.

(** trc search -u a --uri=b -u a -c x --category=y --errored -n 5 --stack-depth=0, and a wrong one *)
Definition demo_bool (s : string) : option bool := if String.eqb s "true" then Some true else if String.eqb s "false" then Some false else None.
Definition demo_int (s : string) : option Z := if String.eqb s "5" then Some 5 else if String.eqb s "0" then Some 0 else None.
Definition demo_duration (s : string) : option Z := if String.eqb s "3s" then Some (3 * Second) else None.
Definition demo_line : list (name * string) :=
  [(Short "u"%char, "a"); (Long "uri", "b"); (Short "u"%char, "a"); (Short "c"%char, "x"); (Long "category", "y"); (Long "errored", "true"); (Short "n"%char, "5"); (Long "stack-depth", "0")].
Example C105_instance :
  (exists c, configure demo_bool demo_int demo_duration Csearch demo_line = Some c /\
     c_uris c = ["a"; "b"] /\ c_category c = "y" /\ c_isErrored c = true /\ c_isSuccess c = false /\ c_limit c = 5 /\ c_logLevel c = "info") /\
  configure demo_bool demo_int demo_duration Cstream demo_line = None /\
  (exists c, configure demo_bool demo_int demo_duration Cstream [(Short "e"%char, "true"); (Long "retry-interval", "3s")] = Some c /\
     c_streamEvents c = true /\ c_retryInterval c = 3 * Second /\ c_statsInterval c = 10 * Second) /\
  configure demo_bool demo_int demo_duration Csearch [(Long "active", "maybe")] = None.
Proof. split; [eexists; vm_compute; repeat split|]. split; [reflexivity|]. split; [eexists; vm_compute; repeat split|reflexivity]. Qed.

(** C98: the command as a process. *)
From Verif Require Import Go L_List M_Strings M_Types M_Frame M_Filter M_Stats M_Search M_Decor M_Web M_Json M_Cli L_Strings M_Main S_Main S_TraceView.
From Coq Require Import Permutation.
Open Scope string_scope.
Open Scope list_scope.
Open Scope Z_scope.

Lemma concat_nil_app a b : (String.concat "" (a ++ b) = String.concat "" a ++ String.concat "" b)%string.
Proof.
  assert (C : forall x l, String.concat "" (x :: l) = (x ++ String.concat "" l)%string).
  { intros x [|y l]; cbn; [|reflexivity]. induction x; cbn; congruence. }
  induction a as [|x a IH]; [reflexivity|]. cbn [app]. rewrite !C, IH. clear. induction x; cbn; congruence.
Qed.
Lemma text_on_app s a b : text_on s (a ++ b) = (text_on s a ++ text_on s b)%string.
Proof. unfold text_on. rewrite filter_app, map_app. apply concat_nil_app. Qed.
Lemma str_nil_r s : (s ++ "")%string = s.
Proof. induction s; cbn; congruence. Qed.
Lemma str_assoc a b c : (a ++ (b ++ c) = (a ++ b) ++ c)%string.
Proof. induction a; cbn; congruence. Qed.

Definition loggers_of (level : Z) : loggers := MkLoggers (1 <=? level) (2 <=? level) (3 <=? level).
Lemma level_spec name : log_level name = option_map loggers_of (level_of name).
Proof.
  unfold log_level, level_of. cbn [map_get]. 
  repeat match goal with |- context [String.eqb name ?x] => destruct (String.eqb_spec name x) as [->|?]; [reflexivity|]; cbn [orb] end. reflexivity.
Qed.
Lemma concat_cons x l : String.concat "" (x :: l) = (x ++ String.concat "" l)%string.
Proof. change (x :: l) with ([x] ++ l). rewrite concat_nil_app. cbn. reflexivity. Qed.
Lemma perform_stdout l actions : text_on Stdout (perform_all l actions) = printed actions.
Proof.
  unfold perform_all, printed. induction actions as [|a actions IH]; [reflexivity|]. cbn [flat_map]. rewrite text_on_app, IH, concat_nil_app. f_equal.
  destruct a; cbn; try destruct (l_info l); try destruct (l_debug l); try destruct (l_trace l); reflexivity.
Qed.
Lemma log_line_spec prefix line : log_line prefix line = (prefix ++ as_line line)%string.
Proof.
  unfold log_line. assert (E : as_line line = if HasSuffix line nl then line else (line ++ nl)%string); [|rewrite E; destruct (HasSuffix line nl); reflexivity].
  induction line as [|c line IH]; [reflexivity|]. destruct line as [|d line].
  - cbn [as_line]. destruct (Ascii.eqb_spec c end_of_line) as [->|N]; [reflexivity|].
    replace (HasSuffix (String c "") nl) with false; [reflexivity|]. symmetry. destruct (HasSuffix (String c "") nl) eqn:K; [|reflexivity].
    apply HasSuffix_iff in K as ([|x q] & Q); [injection Q as Q; contradiction|]. injection Q as _ Q. destruct q; discriminate.
  - assert (K : HasSuffix (String c (String d line)) nl = HasSuffix (String d line) nl).
    { apply eq_true_iff_eq. rewrite !HasSuffix_iff. split.
      - intros ([|x q] & Q); [discriminate|]. injection Q as _ Q. exists q. exact Q.
      - intros (q & Q). exists (String c q). cbn. congruence. }
    rewrite K. change (as_line (String c (String d line))) with (String c (as_line (String d line))). rewrite IH. destruct (HasSuffix (String d line) nl); reflexivity.
Qed.
Lemma perform_stderr level actions : text_on Stderr (perform_all (loggers_of level) actions) = shown_lines level actions.
Proof.
  unfold perform_all, shown_lines. induction actions as [|a actions IH]; [reflexivity|]. cbn [flat_map map]. rewrite text_on_app, IH, concat_cons. f_equal.
  destruct a; cbn [perform loggers_of l_info l_debug l_trace shown_line]; try (destruct (_ <=? level)); try reflexivity; cbn [text_on]; unfold text_on; cbn; rewrite log_line_spec; try apply str_nil_r; reflexivity.
Qed.
Lemma shown_app level a b : shown_lines level (a ++ b) = (shown_lines level a ++ shown_lines level b)%string.
Proof. unfold shown_lines. rewrite map_app. apply concat_nil_app. Qed.
Lemma printed_debug l : Forall is_debug l -> printed l = "".
Proof. intros H. unfold printed. induction H as [|a l [x ->] H IH]; [reflexivity|]. cbn [flat_map app]. exact IH. Qed.

Section Main.
Context {URL C : Type}.
Variable ParseRequestURI : string -> URL + string.
Variable with_path : URL -> string -> URL.
Variable url_string : URL -> string.
Variable Parse : list string -> @config C + error.
Variable Run : C -> list string -> list action * option error.
Variable help : string.
Variable quote : string -> string.
Notation main := (main ParseRequestURI with_path url_string Parse Run help quote).
Notation exec_body := (exec_body ParseRequestURI with_path url_string Parse Run quote).
Notation exec_uris := (exec_uris ParseRequestURI with_path url_string).
Notation in_order := (in_order ParseRequestURI with_path url_string Parse).
Notation opt := (fun u => match ParseRequestURI u with inl x => Some x | inr _ => None end).

Lemma exec_uris_spec path uris : Forall is_debug (fst (exec_uris path uris)) /\
  match snd (exec_uris path uris), prepare_loop opt with_path url_string path uris with
  | inl us, Some us' => us = us'
  | inr e, None => e_wraps e = []
  | _, _ => False
  end.
Proof.
  induction uris as [|uri uris [IH1 IH2]]; [split; [constructor|reflexivity]|]. cbn [M_Main.exec_uris prepare_loop]. unfold prepare_uri.
  destruct (String.eqb (TrimSpace uri) "").
  - destruct (exec_uris path uris) as [lines r]. cbn [fst snd] in *. split; [exact IH1|].
    destruct r as [us|e], (prepare_loop opt with_path url_string path uris) as [us'|]; try destruct IH2; cbn [option_map]; congruence.
  - destruct (ParseRequestURI _) as [u|err].
    + destruct (exec_uris path uris) as [lines r]. cbn [fst snd] in *. split; [constructor; [eexists; reflexivity|exact IH1]|].
      destruct r as [us|e], (prepare_loop opt with_path url_string path uris) as [us'|]; try destruct IH2; cbn [option_map]; congruence.
    + cbn. split; [constructor|reflexivity].
Qed.

(** how main ends *)
Lemma ending writes err always args : exec_body args = (writes, err, always) ->
  snd (main args) = status err /\ text_on Stdout (fst (main args)) = text_on Stdout writes /\
  text_on Stderr (fst (main args)) = (text_on Stderr writes ++ last_words help always err)%string.
Proof.
  intros E. unfold M_Main.main, exec. rewrite E. destruct err as [e|].
  - assert (A : errors_is e ErrHelp || errors_is e ErrNoExec = asks_for_help e).
    { unfold errors_is, asks_for_help. induction (e_wraps e) as [|k l IH]; [reflexivity|]. cbn [existsb]. rewrite <- IH. destruct k; cbn; rewrite ?orb_true_r; reflexivity. }
    assert (B : e_wraps e <> [] -> asks_for_help e = false -> errors_is e Canceled || errors_is e SignalError = true).
    { unfold errors_is, asks_for_help. destruct (e_wraps e) as [|k l]; [congruence|]. cbn [existsb]. destruct k; cbn; rewrite ?orb_true_r; auto; discriminate. }
    rewrite A. unfold last_words, status. destruct (asks_for_help e) eqn:Eh.
    + rewrite orb_true_r. cbn [fst snd]. assert (N : e_wraps e <> []) by (unfold asks_for_help in Eh; destruct (e_wraps e); discriminate). destruct (e_wraps e) eqn:Ew; [congruence|].
      rewrite !text_on_app. cbn. rewrite !str_nil_r. auto.
    + destruct (e_wraps e) as [|k l] eqn:Ew.
      * unfold errors_is. rewrite Ew. cbn [existsb orb fst snd]. rewrite !text_on_app. destruct always; cbn; rewrite ?str_nil_r; repeat split; try reflexivity.
        rewrite <- str_assoc. reflexivity.
      * rewrite B by congruence. cbn [fst snd]. rewrite !text_on_app. destruct always; cbn; rewrite ?str_nil_r; auto.
  - unfold last_words. destruct always; cbn [orb fst snd]; rewrite !text_on_app; cbn; rewrite ?str_nil_r; auto.
Qed.

(** If the arguments are in order, the command is run: standard output has what it prints and
    nothing else; stderr has the lines of the chosen level, the help if the command's error asks for
    it, and the error, if it is one; the exit status is 1 exactly for errors. *)
Theorem C98_command_runs :
  forall args cfg level uris, in_order args cfg level uris ->
    let '(actions, err) := Run (c_rest cfg) uris in
    text_on Stdout (fst (main args)) = printed actions /\ snd (main args) = status err /\
    exists prelude, Forall is_debug prelude /\
      text_on Stderr (fst (main args)) = (shown_lines level (prelude ++ actions) ++ last_words help false err)%string.
Proof.
  intros args cfg level uris (H1 & H2 & H3). destruct (Run (c_rest cfg) uris) as [actions err] eqn:ER.
  unfold prepare_uris in H3. destruct (zlen (c_uris cfg) <=? 0) eqn:Ez; [discriminate|].
  destruct (exec_uris_spec (c_uriPath cfg) (c_uris cfg)) as [D U]. rewrite H3 in U. destruct (exec_uris (c_uriPath cfg) (c_uris cfg)) as [lines r] eqn:EU. cbn [fst snd] in *.
  destruct r as [us|]; [|destruct U]. subst us.
  set (pre := lines ++ match c_duration cfg with Some d => [Debug ("using --duration " ++ d)%string] | None => [] end).
  assert (E : exec_body args = (perform_all (loggers_of level) pre ++ perform_all (loggers_of level) actions, err, false)).
  { unfold M_Main.exec_body. rewrite H1, level_spec, H2. cbn [option_map]. rewrite Ez, EU, ER. reflexivity. }
  destruct (ending _ _ _ _ E) as (E1 & E2 & E3).
  assert (DP : Forall is_debug pre) by (apply Forall_app; split; [exact D|]; destruct (c_duration cfg); constructor; [eexists; reflexivity|constructor]).
  split; [rewrite E2, text_on_app, !perform_stdout, (printed_debug pre DP); reflexivity|]. split; [exact E1|].
  exists pre. split; [exact DP|]. rewrite E3, text_on_app, !perform_stderr, shown_app. reflexivity.
Qed.
(** If they are not, the command is not run: nothing is printed on standard output and the help is
    shown; the exit status is 1 and the error is reported, unless help was asked for (or parsing
    failed with another known error). *)
Theorem C98_command_does_not_run :
  forall args, (forall cfg level uris, ~ in_order args cfg level uris) ->
    text_on Stdout (fst (main args)) = "" /\
    exists err lines level, (Parse args = inr err \/ e_wraps err = []) /\ Forall is_debug lines /\ snd (main args) = status (Some err) /\
      text_on Stderr (fst (main args)) = (shown_lines level lines ++ last_words help true (Some err))%string.
Proof.
  intros args H.
  assert (B : exists lines level err, exec_body args = (perform_all (loggers_of level) lines, Some err, true) /\ Forall is_debug lines /\ (Parse args = inr err \/ e_wraps err = [])).
  { unfold M_Main.exec_body. destruct (Parse args) as [cfg|err] eqn:EP; [|exists [], 0, err; auto].
    rewrite level_spec. destruct (level_of (c_level cfg)) as [level|] eqn:El; cbn [option_map]; [|exists [], 0; eexists; split; [reflexivity|split; [constructor|right; reflexivity]]].
    destruct (zlen (c_uris cfg) <=? 0) eqn:Ez; [exists [], 0; eexists; split; [reflexivity|split; [constructor|right; reflexivity]]|].
    destruct (exec_uris_spec (c_uriPath cfg) (c_uris cfg)) as [D U]. destruct (exec_uris (c_uriPath cfg) (c_uris cfg)) as [lines r]. cbn [fst snd] in *. destruct r as [us|err].
    - exfalso. destruct (prepare_loop opt with_path url_string (c_uriPath cfg) (c_uris cfg)) as [us'|] eqn:EL; [|destruct U].
      apply (H cfg level us'). split; [exact EP|]. split; [exact El|]. unfold prepare_uris. rewrite Ez. exact EL.
    - destruct (prepare_loop opt with_path url_string (c_uriPath cfg) (c_uris cfg)); [destruct U|]. exists lines, level, err. auto. }
  destruct B as (lines & level & err & E & D & W). destruct (ending _ _ _ _ E) as (E1 & E2 & E3).
  split; [rewrite E2, perform_stdout; apply printed_debug; exact D|]. exists err, lines, level. rewrite E3, perform_stderr. auto.
Qed.
End Main.

(** A chattier level adds lines to stderr and changes nothing else. *)
Lemma subseq_refl {A} (l : list A) : subseq l l.
Proof. induction l; constructor; assumption. Qed.
Lemma subseq_app {A} (a a' b b' : list A) : subseq a a' -> subseq b b' -> subseq (a ++ b) (a' ++ b').
Proof. intros H HB. induction H; cbn; [exact HB|constructor; assumption|constructor; assumption]. Qed.
Lemma subseq_nil_l {A} (l : list A) : subseq [] l.
Proof. induction l; constructor; assumption. Qed.
Lemma perform_levels n m actions : n <= m -> subseq (perform_all (loggers_of n) actions) (perform_all (loggers_of m) actions).
Proof.
  intros H. induction actions as [|a actions IH]; [constructor|]. cbn. apply subseq_app; [|exact IH].
  destruct a; cbn; [..|apply subseq_refl];
    match goal with |- subseq (if ?k <=? n then _ else _) _ => destruct (Z.leb_spec k n); [rewrite (proj2 (Z.leb_le k m)) by lia; apply subseq_refl|apply subseq_nil_l] end.
Qed.
Theorem C98_levels_only_add_lines :
  forall {URL C} (ParseRequestURI : string -> URL + string) with_path url_string (Run : C -> list string -> list action * option error) help quote
         (Parse1 Parse2 : list string -> @config C + error) args cfg quiet chatty n m,
    level_of quiet = Some n -> level_of chatty = Some m -> n <= m ->
    Parse1 args = inl (MkConfig quiet (c_uris cfg) (c_uriPath cfg) (c_duration cfg) (c_rest cfg)) ->
    Parse2 args = inl (MkConfig chatty (c_uris cfg) (c_uriPath cfg) (c_duration cfg) (c_rest cfg)) ->
    let r1 := main ParseRequestURI with_path url_string Parse1 Run help quote args in
    let r2 := main ParseRequestURI with_path url_string Parse2 Run help quote args in
    snd r1 = snd r2 /\ text_on Stdout (fst r1) = text_on Stdout (fst r2) /\ subseq (fst r1) (fst r2).
Proof.
  intros URL C PR wp us Run help quote P1 P2 args cfg quiet chatty n m L1 L2 Hnm E1 E2.
  assert (B : exists w1 w2 err always, exec_body PR wp us P1 Run quote args = (w1, err, always) /\ exec_body PR wp us P2 Run quote args = (w2, err, always) /\
             text_on Stdout w1 = text_on Stdout w2 /\ subseq w1 w2).
  { unfold exec_body. rewrite E1, E2. cbn [c_level c_uris c_uriPath c_duration c_rest]. rewrite !level_spec, L1, L2. cbn [option_map].
    destruct (zlen (c_uris cfg) <=? 0); [do 4 eexists; repeat split; constructor|].
    destruct (exec_uris PR wp us (c_uriPath cfg) (c_uris cfg)) as [lines [uris|err]].
    - destruct (Run (c_rest cfg) uris) as [actions err]. do 4 eexists. split; [reflexivity|]. split; [reflexivity|].
      split; [rewrite !text_on_app, !perform_stdout; reflexivity|]. apply subseq_app; apply perform_levels; exact Hnm.
    - do 4 eexists. split; [reflexivity|]. split; [reflexivity|]. split; [rewrite !perform_stdout; reflexivity|apply perform_levels; exact Hnm]. }
  destruct B as (w1 & w2 & err & always & B1 & B2 & B3 & B4). cbn zeta.
  destruct (ending PR wp us P1 Run help quote w1 err always args B1) as (S1 & S2 & _). destruct (ending PR wp us P2 Run help quote w2 err always args B2) as (T1 & T2 & _).
  split; [congruence|]. split; [congruence|]. unfold main, exec. rewrite B1, B2. cbn [fst].
  destruct err as [e|]; [destruct (errors_is e ErrHelp || errors_is e ErrNoExec); [|destruct (errors_is e Canceled || errors_is e SignalError)]|]; cbn [fst];
    repeat apply subseq_app; try exact B4; apply subseq_refl.
Qed.

Print Assumptions C98_command_runs.
Print Assumptions C98_command_does_not_run.
Print Assumptions C98_levels_only_add_lines.

(** Finding: trc search ends with status 0 although every server failed. *)
Definition failed (t : tuple) : Prop := t_res t = None /\ exists err, t_err t = Some err.
Lemma gather_failures orders : forall ts n agg, Forall failed ts ->
  exists problems, length problems = length ts /\
    gather orders n agg ts = Ok (MkResp (resp_Sources agg) (resp_TotalCount agg) (resp_MatchCount agg) (resp_Traces agg) (resp_Stats agg) (resp_Problems agg ++ problems)).
Proof.
  induction ts as [|t ts IH]; intros n agg H; cbn [gather].
  - exists []. rewrite app_nil_r. destruct agg. auto.
  - inversion H as [|? ? [R [err E]] H']; subst. unfold gather1. rewrite R, E. cbn [bind].
    destruct (IH (S n) (MkResp (resp_Sources agg) (resp_TotalCount agg) (resp_MatchCount agg) (resp_Traces agg) (resp_Stats agg) (resp_Problems agg ++ [err])) H') as (problems & L & ->).
    exists (err :: problems). cbn [resp_Sources resp_TotalCount resp_MatchCount resp_Traces resp_Stats resp_Problems length]. rewrite L, <- app_assoc. auto.
Qed.
Theorem C98_no_server_answers_refuted :
  forall {URL RE : Type} (ParseRequestURI : string -> URL + string) with_path url_string help quote (Compile : string -> RE + string) encode lines sort orders arrivals duration
         (Parse : list string -> @config search_config + error) args cfg level uris r,
    in_order ParseRequestURI with_path url_string Parse args cfg level uris ->
    (forall out, exists text, encode out = inl text) -> (forall l, Permutation (sort l) l) ->
    Forall failed arrivals -> search_exec Compile encode lines sort orders arrivals duration (c_rest cfg) = Ok r ->
    snd (main ParseRequestURI with_path url_string Parse (fun _ _ => r) help quote args) = 0 /\
    exists out, cli_search Compile sort orders arrivals duration (c_rest cfg) = Ok out /\ resp_Traces (wr_Response out) = [] /\
      (length arrivals <= length (resp_Problems (wr_Response out)))%nat.
Proof.
  intros URL RE PR wp us help quote Compile encode lines sort orders arrivals duration Parse args cfg level uris r HO HE HS HF HR.
  pose proof (C98_command_runs PR wp us Parse (fun _ _ => r) help quote args cfg level uris HO) as M. unfold search_exec in HR.
  destruct (cli_search Compile sort orders arrivals duration (c_rest cfg)) as [out|] eqn:EC; [|discriminate]. cbn [bind] in HR. destruct (HE out) as [text Et]. rewrite Et in HR. injection HR as <-.
  cbn beta iota in M. destruct M as (_ & -> & _). split; [reflexivity|]. exists out. split; [reflexivity|].
  unfold cli_search, MultiSearch in EC. destruct (Normalize _ _) as [[req errs]|]; [|discriminate]. cbn [bind] in EC.
  destruct (gather_failures orders arrivals 1%nat (MkResp [] 0 0 [] (Some (NewSearchStats (req_Bucketing req))) errs) HF) as (problems & L & G). rewrite G in EC. cbn [bind resp_Traces resp_Problems] in EC.
  injection EC as <-. cbn [wr_Response resp_Traces resp_Problems]. split.
  - pose proof (HS []) as P. apply Permutation_sym, Permutation_nil in P. rewrite P. unfold limit_traces. destruct (_ <? _); [destruct (Z.to_nat _)|]; reflexivity.
  - rewrite app_length. lia.
Qed.
Print Assumptions C98_no_server_answers_refuted.

(** trc search prints the result it has, encoded, and nothing else; if it cannot be encoded it
    prints nothing and ends with an error. *)
Theorem C98_search_prints_its_result :
  forall {RE : Type} (Compile : string -> RE + string) encode lines sort orders arrivals duration cfg out,
    cli_search Compile sort orders arrivals duration cfg = Ok out ->
    exists actions err, search_exec Compile encode lines sort orders arrivals duration cfg = Ok (actions, err) /\
      match encode out with
      | inl text => printed actions = text /\ status err = 0
      | inr e => printed actions = "" /\ exists text, err = Some (MkErr text (e_wraps e))
      end.
Proof.
  intros RE Compile encode lines sort orders arrivals duration cfg out E. unfold search_exec. rewrite E. cbn [bind].
  assert (P0 : printed (map Debug lines) = "") by (apply printed_debug; apply Forall_forall; intros a Ha; apply in_map_iff in Ha as (x & <- & _); eexists; reflexivity).
  destruct (encode out) as [text|e]; eexists _, _; (split; [reflexivity|]).
  - split; [|reflexivity]. unfold printed in *. rewrite flat_map_app, concat_nil_app, P0. reflexivity.
  - split; [exact P0|]. eexists. reflexivity.
Qed.
Print Assumptions C98_search_prints_its_result.

(** An instance: trc -u localhost:8080 -l debug, with a command that prints and logs, and how it
    ends for some errors; and a call without addresses. *)
Definition demo_main (level : string) (uris : list string) (err : option error) : list write * Z :=
  main (URL := string) (fun u => if String.eqb u "http://bad" then inr "no host" else inl u) (fun _ p => p) (fun u => u)
    (fun _ => inl (MkConfig level uris "" (Some "1s") tt)) (fun _ us => ([Info "hello"; Print "{}"; Debug "bye"; Trace "x"], err)) "HELP" (fun s => s) [].
Example C98_instance :
  in_order (URL := string) (fun u => inl u) (fun _ p => p) (fun u => u) (fun _ => inl (MkConfig "d" ["localhost:8080"] "" None tt)) []
    (MkConfig "d" ["localhost:8080"] "" None tt) 2 ["http://localhost:8080"] /\
  demo_main "d" ["localhost:8080"] None =
    ([(Stderr, "[DEBUG] URI: http://localhost:8080" ++ nl); (Stderr, "[DEBUG] using --duration 1s" ++ nl); (Stderr, "hello" ++ nl); (Stdout, "{}"); (Stderr, "[DEBUG] bye" ++ nl)]%string, 0) /\
  demo_main "none" ["localhost:8080"] (Some (MkErr "oops" [])) = ([(Stdout, "{}"); (Stderr, "error: oops" ++ nl)]%string, 1) /\
  demo_main "n" ["localhost:8080"] (Some (MkErr "got signal" [SignalError])) = ([(Stdout, "{}")], 0) /\
  demo_main "n" ["localhost:8080"] (Some (MkErr "no exec" [ErrNoExec])) = ([(Stdout, "{}"); (Stderr, nl ++ "HELP" ++ nl)]%string, 0) /\
  demo_main "i" [] None = ([(Stderr, nl ++ "HELP" ++ nl); (Stderr, "error: at least one URI is required" ++ nl)]%string, 1) /\
  demo_main "debug" ["ok"; "bad"; "ok"] None =
    ([(Stderr, "[DEBUG] URI: http://ok" ++ nl); (Stderr, nl ++ "HELP" ++ nl); (Stderr, "error: http://bad: invalid: no host" ++ nl)]%string, 1) /\
  Forall failed [MkTuple "1" None (Some "connection refused"); MkTuple "2" None (Some "timeout")].
Proof. repeat split; try (vm_compute; reflexivity). repeat constructor; eexists; reflexivity. Qed.
Example C98_no_server_instance :
  search_exec (RE := string) (fun s => inl s) (fun _ => inl "{}") ["asking"] (fun l => l) (fun _ l => l)
    [MkTuple "2" None (Some "timeout"); MkTuple "1" None (Some "connection refused")] 0 (MkSC (MkFlags [] [] "" false false None false false "") 2 0 false true) =
  Ok ([Debug "asking"; Print "{}"], None).
Proof. vm_compute. reflexivity. Qed.

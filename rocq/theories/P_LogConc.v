(** C93: the log of a trace used by several goroutines, and the log as text. *)
From Verif Require Import Go L_List M_Strings M_Types S_Trace M_Trace S_TraceView L_Trace M_Text L_Strings M_Humanize M_Fmt L_Fmt M_Decor L_Decor M_LogConc S_LogConc L_LogConc P_Filter P_Decor.
From Coq Require Import Lia.
Open Scope string_scope.
Open Scope list_scope.

Definition TrimSuffix_nl := @TrimSuffix_newline unit unit unit (fun _ _ _ _ => "") (fun _ _ => "") (fun _ _ _ _ => "") (fun _ => inl tt) (fun _ _ => true) (fun _ => tt) (fun _ => 0%Z).
Definition TrimSuffix_err := @TrimSuffix_error unit unit unit (fun _ _ _ _ => "") (fun _ _ => "") (fun _ _ _ _ => "") (fun _ => inl tt) (fun _ _ => true) (fun _ => tt) (fun _ => 0%Z).

Section Conc.
Context {arg world pc : Type}.
Variable printArg : world -> string -> ascii -> arg -> string.
Variable printExtra : world -> arg -> string.
Variable special : world -> string -> string -> list arg -> string.
Notation Sprintf := (Sprintf printArg printExtra special).
Variable CallersFrames : list pc -> list rframe.
Variable str : string -> arg.
Notation env := (env arg world pc).
Notation coreTrace := (coreTrace arg pc).
Notation run := (run Sprintf CallersFrames).
Notation lrun := (lrun Sprintf CallersFrames str).
Notation lstart := (lstart Sprintf str).

(** However the goroutines are scheduled: the lines of each are those of its first n event
    calls and Finishes, each exactly once and in the order of the calls; when the goroutine
    has returned from all its calls, these are all of them. *)
Theorem C93_one_line_per_call :
  forall w (c0 : coreTrace) before programs xs i p,
    let m := lrun xs (lstart w c0 before programs) in
    Finished c0 = false -> nth_error programs i = Some p ->
    exists n, (n <= length p)%nat /\ lines_by i (lm_out m) = logged_calls p n /\ (returned i m -> n = length p).
Proof.
  intros w c0 before programs xs i p m H0 Hp. destruct (inv_run Sprintf CallersFrames str c0 programs w before xs H0) as [_ Hg _ _ _ _ _]. fold m in Hg.
  destruct (Hg i p Hp) as (g & Hi & [n A B C D|n c part wr t A B C D E]).
  - exists n. split; [exact A|]. split; [exact C|]. intros (g' & Hi' & Ht). rewrite Hi in Hi'. injection Hi' as <-. rewrite B in Ht.
    destruct (Nat.eq_dec n (length p)) as [|Hne]; [assumption|]. destruct (nth_error p n) as [c|] eqn:Hc; [|apply nth_error_None in Hc; lia].
    rewrite (skipn_nth p n c Hc) in Ht. destruct c; discriminate.
  - pose proof (nth_error_lt _ _ _ A) as Hlt. exists (if wr then S n else n). split; [destruct wr; lia|]. split.
    + rewrite D. destruct B as [k f a| | |]; rewrite ?app_nil_r; try reflexivity. rewrite (logged_calls_S _ _ _ A). reflexivity.
    + intros (g' & Hi' & Ht). rewrite Hi in Hi'. injection Hi' as <-. rewrite C in Ht. destruct B; discriminate.
Qed.

(** What the line of an event call says, ... *)
Theorem C93_line_of_an_event :
  forall w0 (c0 : coreTrace) before programs xs i n text k f a,
    let m := lrun xs (lstart w0 c0 before programs) in
    Finished c0 = false -> literal (ID c0) -> takes (TrimSuffix f newline) = Some (length a) ->
    In (MkEntry (Some (i, n)) text) (lm_out m) -> the_call programs i n (LLog k f a) ->
    exists w, text = line (ID c0) ((if is_error_kind k then "ERROR: " else "") ++ Sprintf w (TrimSuffix f newline) a).
Proof.
  intros w0 c0 before programs xs i n text k f a m H0 Hid Hf Hin Hcall. destruct (inv_run Sprintf CallersFrames str c0 programs w0 before xs H0) as [Hcore _ _ Hs _ _ _].
  destruct (Hs i n text Hin) as (c & w & Hc & E). rewrite (the_call_fun _ _ _ _ _ Hc Hcall) in E. exists w. rewrite E. unfold log_text.
  rewrite Hcore. assert (Eid : forall h, ID (run h c0) = ID c0).
  { intros h. revert Hid. clear. generalize c0. induction h as [|x h IH]; intros c Hc; [reflexivity|]. cbn. unfold M_Trace.run in IH. rewrite IH; rewrite do_call_id; [reflexivity|exact Hc]. }
  rewrite Eid.
  assert (Ht : TrimSuffix (if is_error_kind k then "ERROR: " ++ f else f) newline = ((if is_error_kind k then "ERROR: " else "") ++ TrimSuffix f newline)%string) by (destruct (is_error_kind k); [apply TrimSuffix_err|reflexivity]).
  rewrite Ht. assert (Hm : literal (if is_error_kind k then "ERROR: " else "")) by (destruct (is_error_kind k); intros x -> H; vm_compute in H; intuition discriminate).
  rewrite logged_text; [|exact Hid|].
  - rewrite (Sprintf_literal_app printArg printExtra special) by exact Hm. reflexivity.
  - rewrite (takes_app _ _ _ _ (literal_takes _ Hm) Hf). reflexivity.
Qed.
(** ... and the line of a Finish: the trace is finished, and the outcome and the duration are
    those it has from then on, whatever the others did meanwhile. *)
Theorem C93_done_is_final :
  prints_strings printArg str ->
  forall w0 (c0 : coreTrace) before programs xs later i n text,
    let m := lrun xs (lstart w0 c0 before programs) in
    let m' := lrun later m in
    Finished c0 = false -> literal (ID c0) ->
    In (MkEntry (Some (i, n)) text) (lm_out m) -> the_call programs i n LFinish ->
    Finished (lm_core m') = true /\
    forall now, text = line (ID c0) ("done, " ++ (if Errored (lm_core m') then "errored" else "success") ++ ", " ++ HumanizeDuration (Duration now (lm_core m'))).
Proof.
  intros Hp w0 c0 before programs xs later i n text m m' H0 Hid Hin Hcall.
  assert (Em : m' = lrun (xs ++ later) (lstart w0 c0 before programs)) by (unfold m', m, M_LogConc.lrun; rewrite fold_left_app; reflexivity).
  assert (Hin' : In (MkEntry (Some (i, n)) text) (lm_out m')).
  { destruct (out_grows Sprintf CallersFrames str later m) as (o & E). unfold m'. rewrite E. apply in_or_app. left. exact Hin. }
  rewrite Em in *. clear Em Hin m m'. set (m := lrun (xs ++ later) (lstart w0 c0 before programs)) in *.
  destruct (inv_run Sprintf CallersFrames str c0 programs w0 before (xs ++ later) H0) as [Hcore _ _ Hs _ _ _]. fold m in Hcore, Hs.
  destruct (Hs i n text Hin') as (c & w & Hc & E). rewrite (the_call_fun _ _ _ _ _ Hc Hcall) in E. destruct E as [Hf E]. split; [exact Hf|]. intros now.
  rewrite E. unfold log_text, Errored, Duration. rewrite Hf.
  assert (Eid : forall h, ID (run h c0) = ID c0).
  { intros h. revert Hid. clear. generalize c0. induction h as [|x h IH]; intros c Hc; [reflexivity|]. cbn. unfold M_Trace.run in IH. rewrite IH; rewrite do_call_id; [reflexivity|exact Hc]. }
  assert (Ei : ID (lm_core m) = ID c0) by (rewrite Hcore; apply Eid). rewrite Ei.
  change (TrimSuffix "done, %s, %s" newline) with "done, %s, %s".
  rewrite logged_text; [|exact Hid|reflexivity]. f_equal. unfold M_Fmt.Sprintf. cbn. rewrite !Hp, append_nil_r. reflexivity.
Qed.

(** The calls of each goroutine reach the trace in their order, and the state of the trace is
    the outcome of these calls. *)
Theorem C93_calls_reach_the_trace :
  forall w (c0 : coreTrace) before programs xs,
    let m := lrun xs (lstart w c0 before programs) in
    Finished c0 = false ->
    lm_core m = run (map snd (lm_calls m)) c0 /\
    forall i p, nth_error programs i = Some p -> exists n, (n <= length p)%nat /\ calls_by i (lm_calls m) = seq 0 n /\ (returned i m -> n = length p).
Proof.
  intros w c0 before programs xs m H0. destruct (inv_run Sprintf CallersFrames str c0 programs w before xs H0) as [Hcore Hg _ _ _ _ _]. fold m in Hg.
  split; [exact Hcore|]. intros i p Hp.
  destruct (Hg i p Hp) as (g & Hi & [n A B C D|n c part wr t A B C D E]).
  - exists n. split; [exact A|]. split; [exact D|]. intros (g' & Hi' & Ht). rewrite Hi in Hi'. injection Hi' as <-. rewrite B in Ht.
    destruct (Nat.eq_dec n (length p)) as [|Hne]; [assumption|]. destruct (nth_error p n) as [c|] eqn:Hc; [|apply nth_error_None in Hc; lia].
    rewrite (skipn_nth p n c Hc) in Ht. destruct c; discriminate.
  - pose proof (nth_error_lt _ _ _ A) as Hlt. exists (if t then S n else n). split; [destruct t; lia|]. split.
    + rewrite E. destruct t; [rewrite seq_S; reflexivity|apply app_nil_r].
    + intros (g' & Hi' & Ht). rewrite Hi in Hi'. injection Hi' as <-. rewrite C in Ht. destruct B; discriminate.
Qed.

(** Every event call that the trace has received has its line; if it came before the first
    Finish, its line is before every line "done". *)
Theorem C93_events_are_logged_before_done :
  forall w (c0 : coreTrace) before programs xs j n e k f a c1 c2,
    let m := lrun xs (lstart w c0 before programs) in
    Finished c0 = false -> lm_calls m = c1 ++ (j, n, (e, CallLog k f a)) :: c2 ->
    In (Some (j, n)) (map en_call (lm_out m)) /\
    (unfinished c1 -> forall o1 d o2, lm_out m = o1 ++ d :: o2 -> is_done programs d -> In (Some (j, n)) (map en_call o1)).
Proof.
  intros w c0 before programs xs j n e k f a c1 c2 m H0 Ec. destruct (inv_run Sprintf CallersFrames str c0 programs w before xs H0) as [_ _ _ _ _ Hr Ht].
  split.
  - apply (Hr j n e k f a). fold m. rewrite Ec. apply in_or_app. right. left. reflexivity.
  - intros U o1 d o2 Eo Hd. eapply Ht; eauto.
Qed.

(** The line about the creation of the trace comes before all of these. *)
Theorem C93_started_is_first :
  prints_strings printArg str ->
  forall w (c0 : coreTrace) before programs xs, literal (ID c0) ->
    let m := lrun xs (lstart w c0 before programs) in
    exists rest, map en_text (lm_out m) = before ++ line (ID c0) ("started, source '" ++ Source c0 ++ "', category '" ++ Category c0 ++ "'") :: rest /\
      forall i n text k, In (MkEntry (Some (i, n)) text) (firstn k (lm_out m)) -> (length before < k)%nat.
Proof.
  intros Hp w c0 before programs xs Hid m. destruct (out_grows Sprintf CallersFrames str xs (lstart w c0 before programs)) as (o & E). fold m in E.
  exists (map en_text o). rewrite E. split.
  - cbn [lm_out M_LogConc.lstart]. rewrite map_app, map_map. cbn [en_text]. rewrite map_id, <- app_assoc. cbn [app]. f_equal. f_equal. unfold log_text.
    change (TrimSuffix "started, source '%s', category '%s'" newline) with "started, source '%s', category '%s'".
    rewrite logged_text; [|exact Hid|reflexivity]. f_equal. unfold M_Fmt.Sprintf. cbn. rewrite !Hp. reflexivity.
  - intros i n text k Hin. destruct (Nat.lt_ge_cases (length before) k) as [|Hk]; [assumption|]. exfalso.
    cbn [lm_out M_LogConc.lstart] in Hin. rewrite firstn_app, map_length, app_length in Hin. cbn [length] in Hin.
    replace (k - (length before + 1))%nat with 0%nat in Hin by lia. rewrite app_nil_r in Hin.
    rewrite firstn_map in Hin. apply in_map_iff in Hin as (x & Ex & _). discriminate.
Qed.
End Conc.
Print Assumptions C93_one_line_per_call.
Print Assumptions C93_line_of_an_event.
Print Assumptions C93_done_is_final.
Print Assumptions C93_calls_reach_the_trace.
Print Assumptions C93_events_are_logged_before_done.
Print Assumptions C93_started_is_first.

(** *** The log as text *)
Lemma split_lines_cons c s : split_lines (String c s) =
  (if Ascii.eqb c (Ascii.ascii_of_nat 10) then "" :: split_lines s
   else match split_lines s with [] => [String c ""] | l :: ls => String c l :: ls end).
Proof. reflexivity. Qed.
Lemma split_lines_ne s : split_lines s <> [].
Proof. destruct s as [|c s]; [discriminate|]. rewrite split_lines_cons. destruct (Ascii.eqb c _); [discriminate|]. destruct (split_lines s); discriminate. Qed.
Lemma split_lines_nl a b : split_lines (a ++ newline ++ b) = split_lines a ++ split_lines b.
Proof.
  induction a as [|c a IH]; [reflexivity|]. change ((String c a ++ newline ++ b)%string) with (String c (a ++ newline ++ b)). rewrite !split_lines_cons, IH.
  destruct (Ascii.eqb c (Ascii.ascii_of_nat 10)); [reflexivity|]. pose proof (split_lines_ne a). destruct (split_lines a) as [|l ls]; [contradiction|reflexivity].
Qed.
Lemma concat_cons x (l : list string) : String.concat "" (x :: l) = (x ++ String.concat "" l)%string.
Proof. destruct l; [symmetry; apply append_nil_r|reflexivity]. Qed.
(** Texts that end in a newline: the lines of the log are the lines of the texts, ... *)
Lemma split_lines_concat (l : list string) :
  split_lines (String.concat "" (map (fun t => t ++ newline)%string l)) = flat_map split_lines l ++ [""].
Proof.
  induction l as [|t l IH]; [reflexivity|]. cbn [map flat_map]. rewrite concat_cons, append_assoc, split_lines_nl, IH, app_assoc. reflexivity.
Qed.
(** With LogDecorator, if every format takes its arguments (so that each text is that of a
    line), the lines of the log are exactly these texts, in order, if they have no newline. *)
Theorem C93_log_is_lines :
  forall entries : list (string * string),
    (forall id text, In (id, text) entries -> no_newline (id ++ " " ++ text)%string) ->
    split_lines (String.concat "" (map (fun x => line (fst x) (snd x)) entries)) = map (fun x => fst x ++ " " ++ snd x)%string entries ++ [""].
Proof.
  intros entries H.
  replace (map (fun x => line (fst x) (snd x)) entries) with (map (fun t => t ++ newline)%string (map (fun x => fst x ++ " " ++ snd x)%string entries)).
  2: { rewrite map_map. apply map_ext. intros [id text]. unfold line. cbn [fst snd]. rewrite !append_assoc. reflexivity. }
  rewrite split_lines_concat. f_equal. induction entries as [|[id text] l IH]; [reflexivity|]. cbn [map flat_map fst snd].
  rewrite (H id text (or_introl eq_refl)), IH; [reflexivity|]. intros id' text' Hin. apply H. right. exact Hin.
Qed.
(** With LoggerDecorator every text, whatever the format and the arguments, begins on a line of
    its own, after its header. *)
Theorem C93_logger_entries_are_separate :
  forall entries : list (string * string),
    split_lines (String.concat "" (map (fun x => logger_entry (fst x) (snd x)) entries)) =
    flat_map (fun x => split_lines (fst x ++ TrimSuffix (snd x) newline)%string) entries ++ [""].
Proof.
  intros entries.
  replace (map (fun x => logger_entry (fst x) (snd x)) entries) with (map (fun t => t ++ newline)%string (map (fun x => fst x ++ TrimSuffix (snd x) newline)%string entries)).
  { rewrite split_lines_concat. f_equal. rewrite flat_map_concat_map, map_map, <- flat_map_concat_map. reflexivity. }
  rewrite map_map. apply map_ext. intros [h t]. unfold logger_entry. cbn [fst snd]. rewrite append_assoc. f_equal.
  destruct (TrimSuffix_nl t) as [(g & E & E')|[Hn E']]; rewrite E'.
  - assert (Hs : HasSuffix t newline = true) by (apply HasSuffix_iff; exists g; exact E). rewrite Hs, append_nil_r. symmetry. exact E.
  - destruct (HasSuffix t newline) eqn:Es; [|reflexivity]. exfalso. apply HasSuffix_iff in Es as (q & Eq). exact (Hn q Eq).
Qed.
(** Finding: a text with a newline in it can pretend to be several lines; the log cannot be told
    from that of a trace with these events, or of a finished one. *)
Theorem C93_forged_line_refuted :
  forall id text forged, line id (text ++ newline ++ id ++ " " ++ forged) = (line id text ++ line id forged)%string.
Proof. intros id text forged. unfold line. rewrite !append_assoc. reflexivity. Qed.
Print Assumptions C93_log_is_lines.
Print Assumptions C93_logger_entries_are_separate.
Print Assumptions C93_forged_line_refuted.

(** *** Instances and findings *)
Definition lc_core : coreTrace string Z := newCoreTrace (MkGlobals 10 false) 100 "A" zeroCoreTrace "src" "cat".
Definition lc_run (programs : list (list (lcall string))) (xs : list (event (arg := string) (world := unit) (pc := Z))) :=
  lrun dd_Sprintf dd_frames (fun x => x) xs (lstart dd_Sprintf (fun x => x) tt lc_core [] programs).
Definition lc_at (i : nat) (now : Z) (n : nat) : list (event (arg := string) (world := unit) (pc := Z)) := repeat (Step i (dd_env now)) n.
Definition lc_texts (m : lmachine (arg := string) (world := unit) (pc := Z)) : list string :=
  map What (snd (Events dd_Sprintf dd_frames (dd_env 999) (lm_core m))).
Definition lc_nl (s : string) : string := (s ++ newline)%string.

Example C93_instance :
  let programs := [[LLog KTracef "one %s" ["x"]; LFinish]; [LLog KErrorf "two" []; LRead (-1) true]] in
  let m := lc_run programs (lc_at 0 101 2 ++ lc_at 1 102 1 ++ [Others "hello"] ++ lc_at 1 103 1 ++ lc_at 0 105 2 ++ lc_at 1 107 1 ++ lc_at 0 108 2) in
  Finished lc_core = false /\ literal (ID lc_core) /\ returned 0 m /\ returned 1 m /\
  map en_text (lm_out m) = [lc_nl "A started, source 'src', category 'cat'"; lc_nl "A one x"; lc_nl "A ERROR: two"; "hello"; lc_nl "A done, errored, 5ns"] /\
  map en_call (lm_out m) = [None; Some (0, 0); Some (1, 0); None; Some (0, 1)]%nat /\
  lc_texts m = ["one x"; "two"] /\ logged_calls (nth 1 programs []) 2 = [0%nat] /\
  is_done programs (MkEntry (Some (0, 1)%nat) (lc_nl "A done, errored, 5ns")).
Proof.
  cbn zeta. split; [reflexivity|]. split; [intros c -> H; vm_compute in H; intuition discriminate|].
  split; [eexists; split; vm_compute; reflexivity|]. split; [eexists; split; vm_compute; reflexivity|].
  split; [vm_compute; reflexivity|]. split; [vm_compute; reflexivity|]. split; [vm_compute; reflexivity|]. split; [reflexivity|].
  exists 0%nat, 1%nat. split; [reflexivity|]. eexists. split; reflexivity.
Qed.
(** Finding: the lines can be in a different order from the events of the trace, ... *)
Theorem C93_order_refuted :
  exists programs xs, let m := lc_run programs xs in
    (forall i, (i < length programs)%nat -> returned i m) /\
    map en_text (lm_out m) = [lc_nl "A started, source 'src', category 'cat'"; lc_nl "A one"; lc_nl "A two"] /\
    lc_texts m = ["two"; "one"].
Proof.
  exists [[LLog KTracef "one" []]; [LLog KTracef "two" []]], (lc_at 0 101 1 ++ lc_at 1 102 2 ++ lc_at 0 103 1). cbn zeta. split.
  - intros [|[|i]] Hi; [| |cbn in Hi; lia]; eexists; split; vm_compute; reflexivity.
  - split; vm_compute; reflexivity.
Qed.
(** ... and an event can have its line before the line "done" and yet not be in the trace. *)
Theorem C93_logged_but_not_stored_refuted :
  exists programs xs, let m := lc_run programs xs in
    (forall i, (i < length programs)%nat -> returned i m) /\
    map en_text (lm_out m) = [lc_nl "A started, source 'src', category 'cat'"; lc_nl "A ERROR: one"; lc_nl "A done, success, 2ns"] /\
    lc_texts m = [].
Proof.
  exists [[LLog KErrorf "one" []]; [LFinish]], (lc_at 0 101 1 ++ lc_at 1 102 4 ++ lc_at 0 103 1). cbn zeta. split.
  - intros [|[|i]] Hi; [| |cbn in Hi; lia]; eexists; split; vm_compute; reflexivity.
  - split; vm_compute; reflexivity.
Qed.
Example C93_logger_instance :
  split_lines (String.concat "" (map (fun x => logger_entry (fst x) (snd x)) [("12:00 ", "A one" ++ newline ++ "%!(EXTRA string=x)"); ("12:01 ", "A two" ++ newline)]))%string
  = ["12:00 A one"; "%!(EXTRA string=x)"; "12:01 A two"; ""] /\ no_newline "A one".
Proof. split; vm_compute; reflexivity. Qed.
Print Assumptions C93_order_refuted.
Print Assumptions C93_logged_but_not_stored_refuted.

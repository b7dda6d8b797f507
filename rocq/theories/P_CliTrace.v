(** C121: the trace log of the command. *)
From Verif Require Import Go L_List M_Strings M_Types M_Filter S_Trace M_Trace L_Trace M_Text L_Strings M_Fmt L_Fmt M_Broker M_Decor S_Decor L_Decor P_Decor P_Filter M_CliTrace.
From Coq Require Import Lia.
Open Scope string_scope.
Open Scope list_scope.

(** A context derived from another without a further trace. *)
Inductive derived {arg} (c : ctx arg) : ctx arg -> Prop :=
| DSame : derived c c
| DFrom c' : derived c c' -> derived c (WithOther c').
(** What else happens at the broker. *)
Definition at_the_broker {arg world pc RE} (us : list (ucall arg world pc RE)) : list (bop RE) :=
  flat_map (fun u => match u with UBroker o => [o] | _ => [] end) us.

Section CliTrace.
Context {arg world pc RE : Type}.
Variable printArg : world -> string -> ascii -> arg -> string.
Variable printExtra : world -> arg -> string.
Variable special : world -> string -> string -> list arg -> string.
Variable CallersFrames : list pc -> list rframe.
Variable Compile : string -> RE + string.
Variable MatchString : RE -> string -> bool.
Variable str : string -> arg.
Variable caps : string -> Z.
Notation Sprintf := (M_Fmt.Sprintf printArg printExtra special).
Notation newTrace := (newTrace Sprintf CallersFrames Compile MatchString str caps).
Notation t_run := (t_run Sprintf CallersFrames Compile MatchString str caps).
Notation run := (run Sprintf CallersFrames).
Notation Events := (Events Sprintf CallersFrames).
Notation expected_lines := (expected_lines printArg printExtra special CallersFrames).

Lemma cli_broker i id dst us : forall s s' : sys arg pc RE, t_run (TLog (TCore i) id dst) us s = Ok s' -> s_broker s' = s_broker s ++ at_the_broker us.
Proof.
  induction us as [|u us IH]; intros s s'; cbn [S_Decor.t_run].
  - intros [= <-]. cbn. rewrite app_nil_r. reflexivity.
  - intros H. apply bind_ok in H as (s1 & E1 & E2). rewrite (IH _ _ E2).
    destruct u as [k f a es|es|e|o]; cbn in E1.
    + injection E1 as <-. reflexivity.
    + injection E1 as <-. reflexivity.
    + injection E1 as <-. unfold t_Events. destruct (M_Trace.Events _ _ _ _). reflexivity.
    + injection E1 as <-. cbn. rewrite <- app_assoc. reflexivity.
Qed.

(** Whatever the command's context was and whatever the command then does with its trace:
    the trace is the one that the code called with the context gets; nothing panics; the trace
    log gets a line when the trace begins, one for each event, and one at each Finish; the
    events are recorded as they would be without the log; and nothing is published. *)
Theorem C121_trace_of_the_command :
  prints_strings printArg str ->
  forall b c category d (s : sys arg pc RE), literal (b_id b) ->
  exists c1 t s1, newTrace b c category d s = Ok (c1, t, s1) /\
    (forall c2 b2 (s2 : sys arg pc RE), derived c1 c2 -> Get b2 c2 s2 = (s2, t)) /\
    forall us, Forall fits us ->
      exists s2, t_run t us s1 = Ok s2 /\
        let begun := newCoreTrace (b_globals b) (b_now b) (b_id b) (b_pooled b) "trc" category in
        let ended := run (bare t us) begun in
        lines "trace" s2 = lines "trace" s ++
          line (b_id b) ("started, source 'trc', category '" ++ category ++ "'") :: expected_lines t (b_id b) begun [] us /\
        ID (core_at s2 (t_core t)) = b_id b /\ Source (core_at s2 (t_core t)) = "trc" /\ Category (core_at s2 (t_core t)) = category /\
        Finished (core_at s2 (t_core t)) = Finished ended /\ Errored (core_at s2 (t_core t)) = Errored ended /\
        (forall e, length (snd (Events e (core_at s2 (t_core t)))) = length (snd (Events e ended))) /\
        s_broker s2 = s_broker s ++ at_the_broker us.
Proof.
  intros Hs b c category d s Hid. set (begun := newCoreTrace (b_globals b) (b_now b) (b_id b) (b_pooled b) "trc" category).
  set (s0 := MkSys (s_cores s ++ [begun]) (s_broker s) (s_out s)). set (i := length (s_cores s)).
  assert (C0 : core_at s0 i = begun) by (unfold core_at, s0, i; cbn [s_cores]; rewrite app_nth2, Nat.sub_diag by lia; reflexivity).
  destruct (C49_line_at_creation printArg printExtra special CallersFrames Compile MatchString str caps Hs d (TCore i) "trace" s0) as (s1 & D & L).
  { cbn [t_core]. rewrite C0. exact Hid. }
  cbn [t_core] in D, L. rewrite C0 in D, L.
  exists (WithTrace (WithTrace c (TCore i)) (TLog (TCore i) (b_id b) "trace")), (TLog (TCore i) (b_id b) "trace"), s1.
  assert (N : newTrace b c category d s = Ok (WithTrace (WithTrace c (TCore i)) (TLog (TCore i) (b_id b) "trace"), TLog (TCore i) (b_id b) "trace", s1)).
  { unfold M_CliTrace.newTrace, New, new_core. cbn [decorate_all bind Put]. fold begun. fold s0. fold i. change trace_log with "trace". rewrite D. reflexivity. }
  split; [exact N|]. split.
  { intros c2 b2 s2 H. unfold Get. assert (M : MaybeGet c2 = Some (TLog (TCore i) (b_id b) "trace")) by (induction H; [reflexivity|assumption]). rewrite M. reflexivity. }
  cbn [M_Decor.decorate] in D. injection D as _ D.
  assert (C1 : core_at s1 i = begun) by (rewrite <- D; exact C0).
  assert (X : exists_ s1 (TLog (TCore i) (b_id b) "trace")).
  { unfold exists_. rewrite <- D. cbn [t_core logEvent s_cores s0]. rewrite app_length. cbn. unfold i. lia. }
  intros us Hf.
  destruct (C48_never_panics Sprintf CallersFrames Compile MatchString str caps (TLog (TCore i) (b_id b) "trace") us s1 eq_refl) as (s2 & R).
  exists s2. split; [exact R|]. cbv zeta. cbn [t_core].
  pose proof (C49_one_line_per_call printArg printExtra special CallersFrames Compile MatchString str caps Hs (TCore i) (b_id b) "trace" us s1 s2 Hid eq_refl X Hf R) as E.
  cbn [t_core] in E. rewrite C1, L, <- app_assoc in E. split; [exact E|].
  destruct (C48_decorators_preserve_the_trace Sprintf CallersFrames Compile MatchString str caps (TLog (TCore i) (b_id b) "trace") us s1 s2 X R) as (A1 & A2 & A3 & _ & A5 & A6 & _ & A8 & _).
  cbn [t_core] in *. rewrite C1 in *.
  destruct (run_const Sprintf CallersFrames (bare (TLog (TCore i) (b_id b) "trace") us) begun) as (B1 & B2 & B3 & _).
  split; [rewrite A1; exact B2|]. split; [rewrite A2; exact B1|]. split; [rewrite A3; exact B3|].
  split; [exact A5|]. split; [exact A6|]. split; [exact A8|].
  rewrite (cli_broker _ _ _ _ _ _ R), <- D. reflexivity.
Qed.
End CliTrace.
Print Assumptions C121_trace_of_the_command.

(** A search whose trace fails, with a request to the broker meanwhile. *)
Definition ct_calls : list (ucall string unit Z string) :=
  [ULog KTracef "one %s" ["x"] (dd_es 101); UBroker (BReceive "c"); ULog KErrorf ("two" ++ newline)%string [] (dd_es 103); UFinish (dd_es 1500100)].
Example C121_instance :
  literal "A" /\ Forall fits ct_calls /\
  exists c t s1 s2, newTrace dd_Sprintf dd_frames demo_compile demo_match (fun x => x) dd_caps (dd_birth 100 "A") (WithOther Background) "search" (dd_d 100) dd_sys = Ok (c, t, s1) /\
    dd_run t ct_calls s1 = Ok s2 /\
    lines "trace" s2 = map (line "A") ["started, source 'trc', category 'search'"; "one x"; "ERROR: two"; "done, errored, 1.5ms"] /\
    dd_texts s2 0 = ["one x"; ("two" ++ newline)%string].
Proof.
  split; [intros c -> H; vm_compute in H; intuition discriminate|]. split; [repeat constructor|].
  do 4 eexists. split; [vm_compute; reflexivity|]. split; [vm_compute; reflexivity|]. split; vm_compute; reflexivity.
Qed.

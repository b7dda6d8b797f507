(** C13, C14: which settings a trace has. *)
From Verif Require Import Go L_List M_Strings M_Types M_Frame S_Trace M_Trace S_TraceView L_Trace P_Trace D_Demo M_Settings.
Open Scope string_scope.
Open Scope list_scope.
Open Scope Z_scope.

Section Spec.
Context {arg world pc : Type}.
Notation set_op := (set_op arg world pc).
(** what the last call of SetTraceStacks said; stacks are recorded if there was none *)
Fixpoint stacks_in_force (ops : list set_op) (default : bool) : bool :=
  match ops with
  | [] => default
  | SetStacks enable :: ops => stacks_in_force ops enable
  | _ :: ops => stacks_in_force ops default
  end.
(** what the last call of SetTraceMaxEvents said, within bounds; 1000 if there was none *)
Fixpoint limit_in_force (ops : list set_op) (default : Z) : Z :=
  match ops with
  | [] => default
  | SetMax n :: ops => limit_in_force ops (clamp n)
  | _ :: ops => limit_in_force ops default
  end.
Definition is_new (o : set_op) : bool := match o with NewTrace _ _ => true | _ => false end.
Definition traces_made (ops : list set_op) : nat := length (filter is_new ops).
(** the calls of methods of trace i *)
Definition calls_on (i : nat) (ops : list set_op) : history arg (env arg world pc) :=
  flat_map (fun o => match o with Call j c => if Nat.eqb i j then [c] else [] | _ => [] end) ops.
End Spec.

Section Settings.
Context {arg world pc : Type}.
Variable Sprintf : world -> string -> list arg -> string.
Variable CallersFrames : list pc -> list rframe.
Variable now : nat -> Z.
Variable ids : nat -> string.
Variable pooled : nat -> coreTrace arg pc.
Notation set_op := (set_op arg world pc).
Notation set_step := (set_step Sprintf CallersFrames now ids pooled).
Notation set_run := (set_run Sprintf CallersFrames now ids pooled).

Lemma clamp_spec g n : g_maxEvents (SetTraceMaxEvents g n) = clamp n.
Proof.
  unfold SetTraceMaxEvents, clamp, traceMaxEventsMin, traceMaxEventsMax. cbn [g_maxEvents].
  destruct (Z.ltb_spec n 10); [rewrite Z.max_l by lia; reflexivity|]. rewrite Z.max_r by lia. destruct (Z.ltb_spec 10000 n); [rewrite Z.min_l by lia|rewrite Z.min_r by lia]; reflexivity.
Qed.
Lemma globals_in_force ops : forall p,
  ps_globals (fold_left set_step ops p) =
    MkGlobals (limit_in_force ops (g_maxEvents (ps_globals p))) (negb (stacks_in_force ops (negb (g_noStacks (ps_globals p))))).
Proof.
  induction ops as [|o ops IH]; intros p; cbn [fold_left limit_in_force stacks_in_force].
  - rewrite Bool.negb_involutive. destruct (ps_globals p); reflexivity.
  - rewrite IH. destruct o as [n|enable|s c|i c]; cbn [M_Settings.set_step ps_globals]; try reflexivity.
    + rewrite clamp_spec. reflexivity.
    + unfold SetTraceStacks. cbn [g_maxEvents g_noStacks]. rewrite Bool.negb_involutive. reflexivity.
    + destruct (nth_error (ps_traces p) i); reflexivity.
Qed.
Lemma replace_length {A} (l : list A) i x y : nth_error l i = Some x -> length (firstn i l ++ y :: skipn (S i) l) = length l.
Proof.
  intros E. assert (H : (i < length l)%nat) by (apply nth_error_Some; congruence).
  rewrite app_length, firstn_length_le by lia. cbn [length]. rewrite skipn_length. lia.
Qed.
Lemma replace_nth {A} (l : list A) i x y j : nth_error l i = Some x ->
  nth_error (firstn i l ++ y :: skipn (S i) l) j = if Nat.eqb j i then Some y else nth_error l j.
Proof.
  revert l j. induction i as [|i IH]; intros l j E; destruct l as [|a l]; try discriminate; destruct j as [|j]; try reflexivity.
  cbn [nth_error] in E. cbn [firstn skipn app nth_error Nat.eqb]. apply IH. exact E.
Qed.
Lemma made ops : forall p, length (ps_traces (fold_left set_step ops p)) = (length (ps_traces p) + traces_made ops)%nat.
Proof.
  unfold traces_made. induction ops as [|o ops IH]; intros p; cbn [fold_left filter]; [cbn; lia|]. rewrite IH.
  destruct o as [n|enable|s c|i c]; cbn [M_Settings.set_step ps_traces is_new]; try reflexivity.
  - rewrite app_length. cbn [length]. lia.
  - destruct (nth_error (ps_traces p) i) eqn:E; [|reflexivity]. cbn [ps_traces]. rewrite (replace_length _ _ _ _ E). reflexivity.
Qed.
Lemma followed ops i : forall p tr, nth_error (ps_traces p) i = Some tr ->
  nth_error (ps_traces (fold_left set_step ops p)) i = Some (run Sprintf CallersFrames (calls_on i ops) tr).
Proof.
  induction ops as [|o ops IH]; intros p tr E; cbn [fold_left]; [exact E|].
  destruct o as [n|enable|s c|j c]; unfold calls_on; cbn [flat_map app]; fold (calls_on i ops).
  - apply IH. exact E.
  - apply IH. exact E.
  - apply IH. cbn [M_Settings.set_step ps_traces]. rewrite nth_error_app1; [exact E|]. apply nth_error_Some. congruence.
  - cbn [M_Settings.set_step]. destruct (nth_error (ps_traces p) j) as [x|] eqn:Ej.
    + destruct (Nat.eqb_spec i j) as [->|N].
      * rewrite E in Ej. injection Ej as ->. cbn [app]. apply (IH _ (do_call Sprintf CallersFrames x c)). cbn [ps_traces]. rewrite (replace_nth _ _ _ _ _ E), Nat.eqb_refl. reflexivity.
      * apply IH. cbn [ps_traces]. rewrite (replace_nth _ _ _ _ _ Ej). destruct (Nat.eqb_spec i j); [contradiction|exact E].
    + destruct (Nat.eqb_spec i j) as [->|N]; [congruence|]. apply IH. exact E.
Qed.

(** A trace has the limit and the stack setting in force when it was made, by default 1000 events
    and stacks; afterwards only what is called on it changes it. *)
Theorem C13_settings_in_force :
  forall before source category after,
    let i := traces_made before in
    nth_error (ps_traces (set_run (before ++ NewTrace source category :: after))) i =
      Some (run Sprintf CallersFrames (calls_on i after)
              (MkCT source (ids i) category (now i) false false 0 (negb (stacks_in_force before true)) [] (limit_in_force before 1000) 0)).
Proof.
  intros before source category after i. unfold M_Settings.set_run. rewrite fold_left_app. cbn [fold_left]. apply followed.
  cbn [M_Settings.set_step ps_traces]. pose proof (made before (MkProcess initial_globals [])) as L. cbn [ps_traces length Nat.add] in L. fold i in L. rewrite L.
  rewrite nth_error_app2 by lia. rewrite L, Nat.sub_diag. cbn [nth_error]. f_equal. unfold newCoreTrace. rewrite globals_in_force. reflexivity.
Qed.

(** So the stack of an event is shown exactly if stacks were enabled when its trace was made,
    whatever the settings were when it was logged or read. *)
Theorem C14_stacks_in_force :
  forall before source category after1 after2 e k f a er n p,
    let i := traces_made before in
    forall tr1 tr,
    nth_error (ps_traces (set_run (before ++ NewTrace source category :: after1))) i = Some tr1 ->
    nth_error (ps_traces (set_run (before ++ NewTrace source category :: after1 ++ Call i (e, CallLog k f a) :: after2))) i = Some tr ->
    Finished tr1 = false -> zlen (ct_events tr1) < ct_eventsmax tr1 ->
    position n (zlen (ct_events tr)) (ct_truncated tr) (length (ct_events tr1)) = Some p ->
    exists ev, nth_error (snd (EventsDetail Sprintf CallersFrames er n true tr)) p = Some ev /\
      Stack ev = if stacks_in_force before true then reported_stack CallersFrames false (e_pcs e) else [].
Proof.
  intros before source category after1 after2 e k f a er n p i tr1 tr E1 E2 HF HL HP.
  rewrite C13_settings_in_force in E1, E2. injection E1 as <-. injection E2 as <-. fold i in HF, HL, HP |- *.
  assert (C : calls_on i (after1 ++ Call i (e, CallLog k f a) :: after2) = calls_on i after1 ++ (e, CallLog k f a) :: calls_on i after2).
  { unfold calls_on. rewrite flat_map_app. cbn [flat_map]. rewrite Nat.eqb_refl. reflexivity. }
  rewrite C in HP |- *.
  destruct (C14_reported_stack _ _ _ Sprintf CallersFrames _ _ e k f a (calls_on i after2) er n true p HF HL HP) as (ev & E & S).
  exists ev. split; [exact E|]. rewrite S. cbn [ct_nostack]. destruct (stacks_in_force before true); reflexivity.
Qed.
End Settings.
Print Assumptions C13_settings_in_force.
Print Assumptions C14_stacks_in_force.

(** An instance: three traces, the second one without stacks, each with an event logged after the
    settings changed again. *)
Definition demo_settings : list (set_op nat demo_world Z) :=
  [NewTrace "s" "a"; SetStacks false; SetMax 3; NewTrace "s" "b"; SetStacks true; NewTrace "s" "c"; SetStacks false; SetMax 20000;
   Call 0 (demo_log 1 KTracef "x"); Call 1 (demo_log 2 KErrorf "y"); Call 2 (demo_log 3 KLazyTracef "z")].
Example C14_settings_instance :
  let trs := ps_traces (set_run demo_Sprintf demo_frames (fun _ => 0) (fun _ => "id") (fun _ => demo_dirty) demo_settings) in
  map ct_eventsmax trs = [1000; 10; 10] /\
  map (fun tr => map (fun ev => map Function (Stack ev)) (snd (Events demo_Sprintf demo_frames (demo_e 9) tr))) trs = [[["main.f1"]]; [[]]; [["main.f1"]]].
Proof. vm_compute. split; reflexivity. Qed.

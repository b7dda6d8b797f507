(** Setting up a collector. *)
From Verif Require Import Go L_List S_HappensBefore M_Setup S_Setup L_HappensBefore.
From Coq Require Import Lia.
Open Scope list_scope.
Open Scope nat_scope.

(** *** What setters do, one after the other *)
Definition apply (s : settings) (o : op) : settings :=
  match o with
  | SetSourceName x => MkSet x (s_newTrace s) (s_decorators s)
  | SetNewTrace f => MkSet (s_source s) f (s_decorators s)
  | SetDecorators ds => MkSet (s_source s) (s_newTrace s) ds
  | _ => s
  end.
Definition applied (cfg : settings) (l : list op) : settings := fold_left apply l (NewCollector cfg).
Lemma applied_snoc cfg l o : applied cfg (l ++ [o]) = apply (applied cfg l) o.
Proof. unfold applied. rewrite fold_left_app. reflexivity. Qed.
Section Final.
Context {A : Type} (setter : A -> op) (get : settings -> A) (of : op -> option A).
Hypothesis Hget : forall s o, get (apply s o) = match of o with Some x => x | None => get s end.
Hypothesis Hof : forall o x, of o = Some x <-> o = setter x.
Lemma applied_final cfg l x : final setter (get (NewCollector cfg)) l x -> get (applied cfg l) = x.
Proof.
  assert (K : forall l s, (forall y, ~ In (setter y) l) -> get (fold_left apply l s) = get s).
  { clear l. induction l as [|o l IH]; intros s N; [reflexivity|]. cbn. rewrite IH by (intros y H; apply (N y); right; exact H).
    rewrite Hget. destruct (of o) as [y|] eqn:E; [|reflexivity]. apply Hof in E. destruct (N y). left. exact E. }
  unfold applied. intros [(l1 & l2 & -> & N)|[-> N]]; [|apply K, N].
  rewrite fold_left_app. cbn. rewrite K by exact N. rewrite Hget. rewrite (proj2 (Hof (setter x) x) eq_refl). reflexivity.
Qed.
End Final.
Lemma final_source cfg l x : final SetSourceName (initial_source cfg) l x -> s_source (applied cfg l) = x.
Proof.
  apply (applied_final SetSourceName s_source (fun o => match o with SetSourceName x => Some x | _ => None end)).
  - intros s []; reflexivity.
  - intros [] y; split; intros H; try discriminate; injection H as ->; reflexivity.
Qed.
Lemma final_newTrace cfg l x : final SetNewTrace (initial_newTrace cfg) l x -> s_newTrace (applied cfg l) = x.
Proof.
  apply (applied_final SetNewTrace s_newTrace (fun o => match o with SetNewTrace x => Some x | _ => None end)).
  - intros s []; reflexivity.
  - intros [] y; split; intros H; try discriminate; injection H as ->; reflexivity.
Qed.
Lemma final_decorators cfg l x : final SetDecorators (s_decorators cfg) l x -> s_decorators (applied cfg l) = x.
Proof.
  apply (applied_final SetDecorators s_decorators (fun o => match o with SetDecorators x => Some x | _ => None end)).
  - intros s []; reflexivity.
  - intros [] y; split; intros H; try discriminate; injection H as ->; reflexivity.
Qed.

(** *** The invariant *)
Section Run.
Variables (cfg : settings) (setup mine : list op) (others : list (list op)).
Hypothesis Hsetup : Forall is_setter setup.
Hypothesis Hmine : Forall is_use mine.
Hypothesis Hothers : Forall (Forall is_use) others.
Let s_end := applied cfg setup.
Definition good (o : outcome) : Prop := agrees (s_source s_end) (s_newTrace s_end) (s_decorators s_end) o.
Definition waiting (g : goroutine) : Prop := exists u, g = MkG Outside (Await :: u) /\ Forall is_use u.
Definition in_use (g : goroutine) : Prop :=
  Forall is_use (g_ops g) /\ match g_phase g with Making f x => s_newTrace s_end = Some f /\ x = s_source s_end | Outside => True end.
Definition before_start (w : world) : Prop :=
  exists done todo, setup = done ++ todo /\ w_set w = applied cfg done /\ w_told w = false /\ w_seen w = [] /\
    nth_error (w_gs w) 0 = Some (MkG Outside (todo ++ Signal :: mine)) /\
    (forall i g, nth_error (w_gs w) (S i) = Some g -> waiting g) /\
    (forall p g a, nth_error (w_log w) p = Some (g, a) -> g = 0).
Definition after_start (w : world) : Prop :=
  w_set w = s_end /\ w_told w = true /\ Forall (fun x => good (snd x)) (w_seen w) /\
  (forall i g, nth_error (w_gs w) i = Some g -> waiting g \/
     (in_use g /\ forall p gp f, nth_error (w_log w) p = Some (gp, Writes f) -> know (w_log w) i p)) /\
  (forall p gp f, nth_error (w_log w) p = Some (gp, Writes f) -> passed (w_log w) tt p).
Definition Inv (w : world) : Prop := no_race (w_log w) /\ (before_start w \/ after_start w).

Lemma nth_set {A} (l : list A) i x j y : nth_error (set_nth l i x) j = Some y -> (j = i /\ y = x) \/ (j <> i /\ nth_error l j = Some y).
Proof.
  revert i j. induction l as [|z l IH]; intros i j H; [destruct j; discriminate|].
  destruct i, j; cbn in *; [left; injection H as <-; auto|right; auto|right; auto|].
  destruct (IH _ _ H) as [[-> ->]|[N E]]; [left|right]; auto.
Qed.
Lemma nth_set_same {A} (l : list A) i x y : nth_error l i = Some y -> nth_error (set_nth l i x) i = Some x.
Proof. revert i. induction l as [|z l IH]; intros [|i] H; try discriminate; [reflexivity|apply IH, H]. Qed.

(** one goroutine alone does not race *)
Lemma alone (l : history field unit) script : (forall p g a, nth_error l p = Some (g, a) -> g = 0) -> no_race l -> no_race (does l 0 script).
Proof.
  intros H N. apply does_no_race; [exact N|]. intros p g a loc x k b x' Hp _ Hk _ _. rewrite (H _ _ _ Hp) in Hp.
  eapply before_program; [|apply nth_old; exact Hp|apply does_new; exact Hk]. apply old_bound in Hp. lia.
Qed.
Lemma alone_log (l : history field unit) script : (forall p g a, nth_error l p = Some (g, a) -> g = 0) ->
  forall p g a, nth_error (does l 0 script) p = Some (g, a) -> g = 0.
Proof. intros H p g a Hp. destruct (does_inv _ _ _ _ _ _ Hp) as [O|(k & _ & -> & _)]; [eauto|reflexivity]. Qed.

(** a use, once the collector is set up *)
Lemma use_inv w i g g' seen script : no_race (w_log w) -> after_start w -> nth_error (w_gs w) i = Some g ->
  in_use g -> (forall p gp f, nth_error (w_log w) p = Some (gp, Writes f) -> know (w_log w) i p) ->
  in_use g' -> Forall good seen -> (forall a, In a script -> exists f, a = Reads f) ->
  Inv (emit w i g' (w_set w) (w_told w) seen script).
Proof.
  intros N (E & T & S & G & P) Hi U K U' Hs R.
  assert (O : forall p gp f, nth_error (does (w_log w) i script) p = Some (gp, Writes f) -> nth_error (w_log w) p = Some (gp, Writes f)).
  { intros p gp f H. destruct (does_inv _ _ _ _ _ _ H) as [O|(k & -> & -> & Hk)]; [exact O|]. destruct (R _ (nth_error_In _ _ Hk)). discriminate. }
  split.
  - apply does_no_race; [exact N|]. intros p gp a loc x k b x' Hp Ha Hk Hb W. destruct (R _ (nth_error_In _ _ Hk)) as [f ->].
    injection Hb as -> <-. destruct W as [->|W]; [|discriminate]. destruct a; cbn in Ha; try discriminate. injection Ha as ->.
    eapply know_next; [eapply K; exact Hp|exact Hk].
  - right. split; [exact E|]. split; [exact T|]. split; [|split].
    + cbn. apply Forall_app. split; [exact S|]. rewrite Forall_forall in *. intros x Hx. apply in_map_iff in Hx as (o & <- & Ho). auto.
    + intros j h Hj. cbn [w_gs emit] in Hj. destruct (nth_set _ _ _ _ _ Hj) as [[-> ->]|[_ Hj']].
      * right. split; [exact U'|]. intros p gp f H. apply know_mono. eapply K, O, H.
      * destruct (G _ _ Hj') as [Wt|[Us Kn]]; [left; exact Wt|right]. split; [exact Us|]. intros p gp f H. apply know_mono. eapply Kn, O, H.
    + intros p gp f H. apply passed_mono. eapply P, O, H.
Qed.

Lemma step_inv w i : Inv w -> Inv (w_step w i).
Proof.
  intros [N [B|A]].
  - destruct B as (dn & todo & Es & Ew & T & Sn & G0 & Gs & L). unfold w_step.
    destruct i as [|i].
    + rewrite G0. destruct todo as [|o todo]; cbn [app].
      * rewrite app_nil_r in Es. split; [apply alone; assumption|]. right. split; [rewrite Ew, <- Es; reflexivity|]. split; [reflexivity|].
        split; [cbn; rewrite Sn; constructor|]. split.
        -- intros j g Hj. cbn [w_gs emit] in Hj. destruct (nth_set _ _ _ _ _ Hj) as [[-> ->]|[Nj Hj']].
           ++ right. split; [split; [exact Hmine|exact Logic.I]|]. intros p gp f H.
              pose proof (alone_log _ [Release tt] L _ _ _ H) as ->. exists p, (Writes f). split; [exact H|left; reflexivity].
           ++ left. destruct j as [|j]; [congruence|]. eapply Gs; exact Hj'.
        -- intros p gp f H. cbn in H. destruct (does_inv _ _ [Release tt] _ _ _ H) as [O|(k & -> & -> & Hk)]; [|destruct k as [|[]]; discriminate].
           rewrite (L _ _ _ O) in O. exists (length (w_log w) + 0), 0. split; [apply (does_new _ 0 [Release tt] 0); reflexivity|right].
           eapply before_program; [|apply nth_old; exact O|apply (does_new _ 0 [Release tt] 0); reflexivity]. apply old_bound in O. lia.
      * assert (So : is_setter o) by (rewrite Es in Hsetup; apply Forall_app in Hsetup as [_ H]; inversion H; assumption).
        assert (R : forall script, Inv (emit w 0 (MkG Outside (todo ++ Signal :: mine)) (apply (w_set w) o) (w_told w) [] script)).
        { intros script. split; [apply alone; assumption|]. left. exists (dn ++ [o]), todo. rewrite <- app_assoc, applied_snoc, <- Ew.
          split; [exact Es|]. split; [reflexivity|]. split; [exact T|]. split; [cbn; rewrite Sn; reflexivity|].
          split; [cbn [w_gs emit]; apply (nth_set_same (w_gs w) 0 _ _ G0)|]. split; [|apply alone_log, L].
          intros j g Hj. cbn [w_gs emit] in Hj. destruct (nth_set _ _ _ _ _ Hj) as [[Hx _]|[_ Hj']]; [discriminate|]. eapply Gs; exact Hj'. }
        destruct o; try contradiction; apply R.
    + destruct (nth_error (w_gs w) (S i)) as [g|] eqn:Hi.
      * destruct (Gs _ _ Hi) as (u & -> & _). rewrite T. split; [exact N|]. left. exists dn, todo. auto 10.
      * split; [exact N|]. left. exists dn, todo. auto 10.
  - pose proof A as (E & T & Sn & G & P). unfold w_step. destruct (nth_error (w_gs w) i) as [g|] eqn:Hi; [|split; [exact N|right; exact A]].
    destruct (G _ _ Hi) as [(u & -> & Hu)|[U K]].
    + rewrite T. split.
      * apply does_no_race; [exact N|]. intros p gp a loc x [|[]] b x' _ _ Hk Hb _; try discriminate. injection Hk as <-. discriminate.
      * assert (O : forall p gp f, nth_error (does (w_log w) i [Acquire tt]) p = Some (gp, Writes f) -> nth_error (w_log w) p = Some (gp, Writes f)).
        { intros p gp f H. destruct (does_inv _ _ _ _ _ _ H) as [O|([|[]] & -> & -> & Hk)]; [exact O|discriminate..]. }
        right. split; [exact E|]. split; [reflexivity|]. split; [cbn; rewrite app_nil_r; exact Sn|]. split.
        -- intros j h Hj. cbn [w_gs emit] in Hj. destruct (nth_set _ _ _ _ _ Hj) as [[-> ->]|[_ Hj']].
           ++ right. split; [split; [exact Hu|exact Logic.I]|]. intros p gp f H. eapply (passed_know _ _ [Acquire tt] tt 0); [eapply P, O, H|reflexivity].
           ++ destruct (G _ _ Hj') as [Wt|[Us Kn]]; [left; exact Wt|right]. split; [exact Us|]. intros p gp f H. apply know_mono. eapply Kn, O, H.
        -- intros p gp f H. apply passed_mono. eapply P, O, H.
    + pose proof U as [Uo Up]. destruct g as [ph ops]. cbn in Uo, Up. destruct ph as [|f x].
      * destruct ops as [|o ops]; [split; [exact N|right; exact A]|]. inversion Uo as [|? ? Ho Hops]; subst.
        destruct o; try contradiction.
        -- destruct (s_newTrace (w_set w)) as [f|] eqn:F; (eapply use_inv; try eassumption).
           ++ split; [exact Hops|]. cbn. rewrite <- E. auto.
           ++ constructor.
           ++ intros a [<-|[<-|[]]]; eauto.
           ++ split; [constructor|exact Logic.I].
           ++ repeat constructor. unfold good. cbn. rewrite <- E. exact F.
           ++ intros a [<-|[<-|[]]]; eauto.
        -- eapply use_inv; try eassumption.
           ++ split; [exact Hops|exact Logic.I].
           ++ repeat constructor. unfold good. cbn. rewrite E. reflexivity.
           ++ intros a [<-|[]]; eauto.
      * destruct Up as [F ->]. eapply use_inv; try eassumption.
        -- split; [exact Uo|exact Logic.I].
        -- repeat constructor; unfold good; cbn; [exact F|rewrite E; reflexivity].
        -- intros a [<-|[]]; eauto.
Qed.
Lemma start_inv : Inv (w_start cfg (orderly setup mine others)).
Proof.
  split; [intros p q _ (? & ? & ? & ? & ? & ? & ? & H & _); destruct p; discriminate|]. left. exists [], setup.
  split; [reflexivity|]. split; [reflexivity|]. split; [reflexivity|]. split; [reflexivity|]. split; [reflexivity|]. split.
  - intros i g H. cbn in H. apply nth_error_In in H. rewrite map_map in H. apply in_map_iff in H as (u & <- & Hu). exists u.
    split; [reflexivity|]. rewrite Forall_forall in Hothers. auto.
  - intros [] ? ? H; discriminate.
Qed.
Lemma run_inv sched : forall w, Inv w -> Inv (w_run sched w).
Proof. induction sched as [|i sched IH]; intros w I; [exact I|]. apply IH, step_inv, I. Qed.
End Run.

(** If a collector is set up before it is shared, then in every schedule nothing races, and whatever goroutines see agrees with
    what was set last: each trace has that source, function and decorators, and each search names that source. *)
Theorem C107_settled : forall cfg setup mine others sched source f ds,
  Forall is_setter setup -> Forall is_use mine -> Forall (Forall is_use) others ->
  final SetSourceName (initial_source cfg) setup source ->
  final SetNewTrace (initial_newTrace cfg) setup f ->
  final SetDecorators (s_decorators cfg) setup ds ->
  let w := w_run sched (w_start cfg (orderly setup mine others)) in
  no_race (w_log w) /\ forall g o, In (g, o) (w_seen w) -> agrees source f ds o.
Proof.
  intros cfg setup mine others sched source f ds H1 H2 H3 F1 F2 F3 w.
  destruct (run_inv cfg setup mine H1 H2 sched _ (start_inv cfg setup mine others H3)) as [N B]. split; [exact N|].
  intros g o Ho. apply final_source in F1. apply final_newTrace in F2. apply final_decorators in F3. fold w in B.
  destruct B as [(? & ? & _ & _ & _ & Sn & _)|(_ & _ & Sn & _)]; [rewrite Sn in Ho; destruct Ho|].
  rewrite Forall_forall in Sn. specialize (Sn _ Ho). unfold good in Sn. cbn in Sn. rewrite F1, F2, F3 in Sn. exact Sn.
Qed.
(** In particular NewTrace panics only if the last SetNewTrace gave it nil. *)
Theorem C107_no_panic : forall cfg setup mine others sched g,
  Forall is_setter setup -> Forall is_use mine -> Forall (Forall is_use) others -> ~ In (SetNewTrace None) setup ->
  ~ In (g, Panicked) (w_seen (w_run sched (w_start cfg (orderly setup mine others)))).
Proof.
  intros cfg setup mine others sched g H1 H2 H3 NN Ho.
  destruct (run_inv cfg setup mine H1 H2 sched _ (start_inv cfg setup mine others H3)) as [_ [(? & ? & _ & _ & _ & Sn & _)|(_ & _ & Sn & _)]];
    [rewrite Sn in Ho; destruct Ho|].
  rewrite Forall_forall in Sn. specialize (Sn _ Ho). unfold good in Sn. cbn in Sn. revert Sn NN. clear. unfold applied.
  assert (K : forall l s, s_newTrace s <> None -> ~ In (SetNewTrace None) l -> s_newTrace (fold_left apply l s) <> None).
  { induction l as [|o l IH]; intros s Hs N; [exact Hs|]. apply IH; [|intros H; apply N; right; exact H].
    destruct o as [|[f|]| | | | |]; cbn; try exact Hs; [discriminate|]. destruct N. left. reflexivity. }
  intros Sn NN. revert Sn. apply K; [|exact NN]. unfold NewCollector. cbn. destruct (s_newTrace cfg); discriminate.
Qed.

(** *** Findings *)
(** A setter called while others use the collector races with them. *)
Theorem C107_late_setter_refuted : exists cfg programs sched, ~ no_race (w_log (w_run sched (w_start cfg programs))).
Proof.
  exists (MkSet "a" None []), [[SetSourceName "b"%string]; [NewTrace]], [0; 1]. cbn. intros N.
  assert (B : @before field unit [(0, Writes FSource); (1, Reads FNewTrace); (1, Reads FSource)] 0 2).
  { apply N; [lia|]. do 7 eexists. split; [reflexivity|]. split; [reflexivity|]. split; [reflexivity|]. split; [reflexivity|]. left; reflexivity. }
  apply (covers_before (fun _ _ => true) (fun _ => eq_refl) _ (fun i j => (i =? 1) && (j =? 2))) in B; [|reflexivity]. destruct B. discriminate.
Qed.
(** What _examples/trc-basic/main.go does: it starts the goroutine that makes requests (lines 31-33), and then sets the decorators
    (line 44).  The second goroutine makes a trace per request; the two race. *)
Theorem C107_example_refuted : forall requests ds, exists sched,
  let w := w_run sched (w_start (MkSet "default" (Some 0) []) [[Signal; SetDecorators ds]; Await :: NewTrace :: repeat NewTrace requests]) in
  In (1, Made 0 "default"%string []) (w_seen w) /\ ~ no_race (w_log w).
Proof.
  intros requests ds. exists [0; 1; 1; 1; 0]. cbn. split; [left; reflexivity|]. intros N.
  assert (B : @before field unit [(0, Release tt); (1, Acquire tt); (1, Reads FNewTrace); (1, Reads FSource); (1, Reads FDecorators); (0, Writes FDecorators)] 4 5).
  { apply N; [lia|]. do 7 eexists. split; [reflexivity|]. split; [reflexivity|]. split; [reflexivity|]. split; [reflexivity|]. right; reflexivity. }
  apply (covers_before (fun _ _ => true) (fun _ => eq_refl) _ (fun i j => (i <? j) && (j <? 5) || (i =? 0) && (j =? 5))) in B; [|reflexivity].
  destruct B. discriminate.
Qed.
(** And may give a trace settings that the collector never had: of the settings before, between and after two calls
    of setters, none has the source and the decorators of the trace. *)
Theorem C107_torn_refuted : exists cfg set1 set2 sched source f ds,
  is_setter set1 /\ is_setter set2 /\
  In (1, Made f source ds) (w_seen (w_run sched (w_start cfg [[set1; set2]; [NewTrace]]))) /\
  forall n, let s := w_set (w_run (repeat 0 n) (w_start cfg [[set1; set2]; [NewTrace]])) in ~ (s_source s = source /\ s_decorators s = ds).
Proof.
  exists (MkSet "a" None [0]), (SetSourceName "b"), (SetDecorators [1]), [1; 0; 0; 1], "a"%string, 0, [1].
  split; [exact Logic.I|]. split; [exact Logic.I|]. split; [left; reflexivity|].
  intros n. destruct n as [|[|[|n]]]; cbn; try (intros [? ?]; discriminate).
  match goal with |- context [w_run (repeat 0 n) ?x] => remember x as w eqn:Ew end.
  assert (F : forall m, w_run (repeat 0 m) w = w) by (induction m as [|m IH]; [reflexivity|cbn; rewrite Ew at 1; cbn; rewrite <- Ew; exact IH]).
  cbn. rewrite F, Ew. cbn. intros [? ?]. discriminate.
Qed.
(** A collector configured without a source names itself "default"; one that is told the empty name uses the empty name. *)
Theorem C107_empty_name_refuted : forall ds, let cfg := MkSet "" None ds in
  w_seen (w_run [0; 1; 1; 1; 1] (w_start cfg (orderly [] [] [[NewTrace; Search]]))) = [(1, Made 0 "default" ds); (1, Searched "default")]%string /\
  w_seen (w_run [0; 0; 1; 1; 1; 1] (w_start cfg (orderly [SetSourceName ""] [] [[NewTrace; Search]]))) = [(1, Made 0 "" ds); (1, Searched "")]%string.
Proof. split; reflexivity. Qed.
(** A collector told to use nil, which in a configuration means New, panics at the first trace. *)
Theorem C107_nil_refuted : forall cfg,
  w_seen (w_run [0; 0; 1; 1] (w_start cfg (orderly [SetNewTrace None] [] [[NewTrace]]))) = [(1, Panicked)].
Proof. reflexivity. Qed.

Example C107_instance :
  let setup := [SetSourceName "x"; SetDecorators [4]; SetNewTrace (Some 7); SetSourceName "api"; SetDecorators [1; 2]]%string in
  let w := w_run [0; 1; 0; 0; 2; 0; 0; 0; 1; 1; 2; 0; 2; 1; 2; 0; 2] (w_start (MkSet "" None [9]) (orderly setup [NewTrace] [[NewTrace]; [Search; NewTrace]])) in
  final SetSourceName (initial_source (MkSet "" None [9])) setup "api"%string /\
  final SetNewTrace (initial_newTrace (MkSet "" None [9])) setup (Some 7) /\
  final SetDecorators [9] setup [1; 2] /\ no_race (w_log w) /\
  w_seen w = [(2, Searched "api"); (1, Made 7 "api" [1; 2]); (0, Made 7 "api" [1; 2]); (2, Made 7 "api" [1; 2])]%string.
Proof.
  cbv zeta.
  assert (F1 : final SetSourceName (initial_source (MkSet "" None [9])) [SetSourceName "x"; SetDecorators [4]; SetNewTrace (Some 7); SetSourceName "api"; SetDecorators [1; 2]] "api"%string).
  { left. exists [SetSourceName "x"; SetDecorators [4]; SetNewTrace (Some 7)]%string, [SetDecorators [1; 2]]. split; [reflexivity|]. intros y [?|[]]; discriminate. }
  assert (F2 : final SetNewTrace (initial_newTrace (MkSet "" None [9])) [SetSourceName "x"; SetDecorators [4]; SetNewTrace (Some 7); SetSourceName "api"; SetDecorators [1; 2]] (Some 7)).
  { left. exists [SetSourceName "x"; SetDecorators [4]]%string, [SetSourceName "api"; SetDecorators [1; 2]]%string. split; [reflexivity|]. intros y [?|[?|[]]]; discriminate. }
  assert (F3 : final SetDecorators [9] [SetSourceName "x"; SetDecorators [4]; SetNewTrace (Some 7); SetSourceName "api"; SetDecorators [1; 2]] [1; 2]).
  { left. exists [SetSourceName "x"; SetDecorators [4]; SetNewTrace (Some 7); SetSourceName "api"]%string, []. split; [reflexivity|]. intros y []. }
  split; [exact F1|]. split; [exact F2|]. split; [exact F3|]. split.
  - eapply (C107_settled (MkSet "" None [9])); [| | |exact F1|exact F2|exact F3]; repeat constructor.
  - reflexivity.
Qed.

Print Assumptions C107_settled.
Print Assumptions C107_no_panic.
Print Assumptions C107_late_setter_refuted.
Print Assumptions C107_example_refuted.
Print Assumptions C107_torn_refuted.
Print Assumptions C107_empty_name_refuted.
Print Assumptions C107_nil_refuted.

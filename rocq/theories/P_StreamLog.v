(** C115: what the trace of a stream request says. *)
From Verif Require Import Go M_Strings M_Types M_Filter S_Filter L_Filter M_Text M_Json S_Json P_Json M_Broker S_Broker S_TraceView P_Filter P_Search P_Broker M_StreamHttp S_StreamHttp L_StreamHttp P_StreamHttp M_StreamClient M_SearchLog M_StreamLog S_StreamLog D_Demo P_JsonFindings.
From Coq Require Import ZifyBool.
Open Scope string_scope.
Open Scope list_scope.
Open Scope Z_scope.

Section Log.
Context {RE : Type}.
Variable Compile : string -> RE + string.
Variable MatchString : RE -> string -> bool.
Variable time_text : Z -> option string.
Variable parse_time : string -> option Z.
Hypothesis time_ok : forall t s, time_text t = Some s -> parse_time s = Some t.
Variable caps : string -> Z.
Variable conn : string.
Variable f : Filter RE.
Variable own : string.
Variable interval : Z.
Notation run := (b_run Compile MatchString caps).
Notation tracec := (tracec Compile MatchString caps conn).
Notation conn_state := (conn_state RE).
Notation conn_step := (conn_step Compile MatchString time_text parse_time caps conn f own interval).
Notation conn_steps := (conn_steps Compile MatchString time_text parse_time caps conn f own interval).
Notation reachable := (conn_reachable Compile MatchString time_text parse_time caps conn f own interval).
Notation talk := (talk Compile MatchString time_text parse_time caps conn f own interval).
Notation talks := (talks Compile MatchString time_text parse_time caps conn f own interval).
Notation talked := (talked Compile MatchString time_text parse_time caps conn f own interval).
Notation history_ok := (history_ok conn f).
Notation ok := (reachable_ok Compile MatchString time_text parse_time time_ok caps conn f own interval).

Lemma case_step (s s' : conn_state) said : case_talk s s' said -> other_case s s'.
Proof. intros []; constructor; assumption. Qed.
Lemma step_case (s s' : conn_state) : other_case s s' -> exists said, case_talk s s' said.
Proof. intros []; eexists; constructor; try assumption. Unshelve. exact "". Qed.
Lemma talk_step s s' said : talk s s' said -> conn_step s s'.
Proof.
  intros []; try (assumption || (econstructor; eassumption)).
  - eapply XOther; [eassumption|]. eapply case_step. eassumption.
  - eapply XUnblock; [eassumption|eassumption|]. eapply case_step. eassumption.
Qed.
Lemma waiting_stats s : reachable s -> x_goroutine s = GWaiting ->
  exists h1 h2 st, x_history s = h1 ++ BStream conn f :: h2 /\ Forall valid_bop (x_history s) /\ quiet conn h1 /\ quiet conn h2 /\
    snd (b_step Compile MatchString (run (x_history s)) (BStats conn)) = RStats st /\ snd (b_step Compile MatchString (run (x_history s)) (BDone conn)) = RStats st.
Proof.
  intros H Hg. destruct (ok s H) as ((Hv & Hh & _) & _). rewrite Hg in Hh. destruct Hh as (h1 & h2 & E & Q1 & Q2).
  assert (S : subscription conn (x_history s) <> None).
  { rewrite E. unfold subscription. rewrite fold_left_app, (quiet_subscription conn h1 None Q1). cbn [fold_left sub_after]. rewrite String.eqb_refl, quiet_subscription by exact Q2. discriminate. }
  destruct (proj1 (C37_stats_while_subscribed Compile MatchString caps conn (x_history s) Hv) S) as [st Hst].
  destruct (C37_stream_ends Compile MatchString caps conn (x_history s) [] Hv (Forall_nil _) S eq_refl) as [Hd _].
  exists h1, h2, st. repeat (split; [assumption|]). rewrite Hd. exact Hst.
Qed.
Lemma step_talk s s' : reachable s -> conn_step s s' -> exists said, talk s s' said.
Proof.
  intros H Hs. pose proof Hs as Hs0. destruct Hs;
    try (exists []; apply TElse; [exact Hs0|reflexivity|reflexivity]);
    try (eexists; econstructor; eassumption);
    try (eexists; econstructor; try eassumption; left; reflexivity).
  - destruct (waiting_stats s H H0) as (_ & _ & st & _ & _ & _ & _ & _ & Hst). eexists. eapply TUnsubscribe; eassumption.
  - destruct (step_case _ _ H1) as [said Hc]. exists said. eapply TOther; eassumption.
  - destruct (step_case _ _ H2) as [said Hc]. exists said. eapply TUnblock; eassumption.
  - destruct (StreamStats_ conn (run (x_history s))) eqn:E; try (unfold StreamStats_ in E; destruct (map_get conn _); discriminate).
    + eexists. eapply TNoStats; eassumption.
    + eexists. eapply TTickFailed; [eassumption|eassumption|left; reflexivity].
  Unshelve. all: exact "".
Qed.

(** Saying something does not change what can happen. *)
Theorem C115_log_is_a_log : forall s, reachable s <-> exists said, talked s said.
Proof.
  intros s. split.
  - intros (past & s0 & Hi & Hs). assert (G : exists said, talks s0 s said).
    { induction Hs as [s0|s0 s1 s2 Hs IH Hone]; [exists []; constructor|]. destruct (IH Hi) as [said Ht].
      destruct (step_talk s1 s2) as [more Hm]; [exists past, s0; split; assumption|exact Hone|]. exists (said ++ more). econstructor; eassumption. }
    destruct G as [said G]. exists said, past, s0. split; assumption.
  - intros (said & past & s0 & Hi & Ht). exists past, s0. split; [exact Hi|]. clear Hi. induction Ht; [constructor|]. econstructor; [eassumption|eapply talk_step; eassumption].
Qed.

(** *** The invariant *)
Lemma by_handler_app a b : by_handler (a ++ b) = by_handler a ++ by_handler b.
Proof. unfold by_handler. rewrite filter_app, map_app. reflexivity. Qed.
Lemma by_goroutine_app a b : by_goroutine (a ++ b) = by_goroutine a ++ by_goroutine b.
Proof. unfold by_goroutine. rewrite filter_app, map_app. reflexivity. Qed.

Definition shape (m : handler) (l : list call) : Prop :=
  match m with
  | HStart => l = []
  | HDeferred true => exists mid why, l = started :: mid ++ [why] /\ Forall is_report mid /\ is_reason why
  | HDeferred false => l = [started]
  | HReturned => l = [started] \/ exists mid why, l = started :: mid ++ [why] /\ Forall is_report mid /\ is_reason why
  | _ => exists mid, l = started :: mid /\ Forall is_report mid
  end.
Definition counts_ok (s : conn_state) (l : list call) : Prop :=
  Forall2 matching (filter is_stats l) (stats_sent (x_read s ++ x_wire s)) /\
  (x_failed s = true <-> existsb (about "trace") l = true) /\
  (looping (x_handler s) -> (inits_sent (x_read s ++ x_wire s) + length (filter (about "init") l) +
     (if x_initc s then 1 else 0) + match x_handler s with HInit => 1 | _ => 0 end = 1)%nat) /\
  (x_handler s = HStart -> x_read s ++ x_wire s = []).
Definition final_ok (s : conn_state) (l : list call) : Prop :=
  match x_goroutine s with
  | GDone => exists st err h1 h2 h3, l = [MkCall true false "%s (error: %v)" [AStr (StreamStats_String st); AErr err]] /\
      x_history s = h1 ++ BStream conn f :: h2 ++ BDone conn :: h3 /\ Forall valid_bop (h1 ++ BStream conn f :: h2) /\
      quiet conn h1 /\ quiet conn h2 /\
      snd (b_step Compile MatchString (run (h1 ++ BStream conn f :: h2)) (BStats conn)) = RStats st
  | _ => l = []
  end.

Lemma else_same s s' : conn_step s s' -> x_handler s' = x_handler s -> x_goroutine s' = x_goroutine s ->
  x_read s' ++ x_wire s' = x_read s ++ x_wire s /\ x_failed s' = x_failed s /\ x_initc s' = x_initc s /\ exists h, x_history s' = x_history s ++ h.
Proof.
  assert (D : forall A (l : list A), l = l ++ []) by (intros; symmetry; apply app_nil_r).
  intros Hs Hm Hg. destruct Hs; cbn in *;
    try (match goal with H : x_wire _ = _ |- _ => rewrite H; rewrite <- app_assoc end);
    try (split; [reflexivity|]; split; [reflexivity|]; split; [reflexivity|]; try (exists []; apply D); eexists; reflexivity); try congruence.
  all: match goal with H : other_case _ _ |- _ => destruct H; cbn in *; congruence | _ => idtac end.
Qed.

Definition inv (s : conn_state) (said : list line) : Prop :=
  shape (x_handler s) (by_handler said) /\ counts_ok s (by_handler said) /\ final_ok s (by_goroutine said).

(** the handler goes on, and says something or nothing *)
Lemma shape_more m m' l more : looping m -> looping m' -> shape m l -> Forall is_report more -> shape m' (l ++ more).
Proof.
  intros Hm Hm' Hs Hr. assert (H : exists mid, l = started :: mid /\ Forall is_report mid) by (destruct m; try contradiction; exact Hs).
  destruct H as (mid & -> & Hf). assert (G : exists mid', (started :: mid) ++ more = started :: mid' /\ Forall is_report mid').
  { exists (mid ++ more). split; [reflexivity|]. apply Forall_app. split; assumption. }
  destruct m'; try contradiction; exact G.
Qed.
Lemma shape_end m l why : looping m -> shape m l -> is_reason why -> shape (HDeferred true) (l ++ [why]).
Proof.
  intros Hm Hs Hr. assert (H : exists mid, l = started :: mid /\ Forall is_report mid) by (destruct m; try contradiction; exact Hs).
  destruct H as (mid & -> & Hf). exists mid, why. split; [reflexivity|]. split; assumption.
Qed.
Lemma final_history s s' l h : x_goroutine s' = x_goroutine s -> x_history s' = x_history s ++ h -> final_ok s l -> final_ok s' l.
Proof.
  intros Hg Hh H. unfold final_ok in *. rewrite Hg. destruct (x_goroutine s); try exact H.
  destruct H as (st & err & h1 & h2 & h3 & E & Eh & V). exists st, err, h1, h2, (h3 ++ h). split; [exact E|]. split; [|exact V].
  rewrite Hh, Eh, <- app_assoc. cbn. rewrite <- app_assoc. reflexivity.
Qed.
Lemma stats_sent_app a b : stats_sent (a ++ b) = stats_sent a ++ stats_sent b.
Proof. unfold stats_sent. apply flat_map_app. Qed.
Lemma inits_sent_app a b : inits_sent (a ++ b) = (inits_sent a + inits_sent b)%nat.
Proof. unfold inits_sent. rewrite filter_app, app_length. reflexivity. Qed.
Lemma matching_app la lb ja jb : Forall2 matching la ja -> Forall2 matching lb jb -> Forall2 matching (la ++ lb) (ja ++ jb).
Proof. apply Forall2_app. Qed.

(** The counts, when lines and events are added *)
Lemma counts_more s s' l more wire :
  counts_ok s l -> x_read s' ++ x_wire s' = (x_read s ++ x_wire s) ++ wire ->
  Forall2 matching (filter is_stats more) (stats_sent wire) ->
  x_failed s' = (x_failed s || existsb (about "trace") more)%bool ->
  (looping (x_handler s') -> looping (x_handler s) /\
     (inits_sent wire + length (filter (about "init") more) + (if x_initc s' then 1 else 0) + match x_handler s' with HInit => 1 | _ => 0 end =
      (if x_initc s then 1 else 0) + match x_handler s with HInit => 1 | _ => 0 end)%nat) ->
  x_handler s' <> HStart ->
  counts_ok s' (l ++ more).
Proof.
  intros (C1 & C2 & C3 & C4) Hw Hs Hf Hi Hh. unfold counts_ok. rewrite Hw, filter_app, stats_sent_app, existsb_app, inits_sent_app, (filter_app (about "init")), app_length. split; [apply Forall2_app; assumption|]. split.
  - rewrite Hf. rewrite !orb_true_iff. rewrite C2. reflexivity.
  - split; [|congruence]. intros Hl. destruct (Hi Hl) as [Hl' He]. specialize (C3 Hl'). lia.
Qed.

Lemma case_inv s s' more l : case_talk s s' more -> looping (x_handler s) -> x_handler s <> HInit -> shape (x_handler s) l -> counts_ok s l ->
  shape (x_handler s') (l ++ by_handler more) /\ counts_ok s' (l ++ by_handler more) /\ by_goroutine more = [] /\ x_goroutine s' = x_goroutine s /\ x_history s' = x_history s.
Proof.
  intros Hc Hl Hni Hs Hco.
  assert (HX : (match x_handler s with HInit => 1 | _ => 0 end = 0)%nat) by (destruct (x_handler s); congruence || reflexivity).
  destruct Hc; cbn [by_handler by_goroutine filter fst snd map]; (split; [|split; [|split; [reflexivity|split; reflexivity]]]).
  - eapply (shape_more (x_handler s)); [exact Hl|exact Logic.I|exact Hs|constructor].
  - eapply counts_more with (wire := []); [exact Hco|rewrite app_nil_r; reflexivity|constructor|cbn; rewrite orb_false_r; reflexivity| |discriminate].
    intros _. split; [exact Hl|]. rewrite HX, H. reflexivity.
  - eapply (shape_more (x_handler s)); [exact Hl|exact Logic.I|exact Hs|constructor].
  - eapply counts_more with (wire := []); [exact Hco|rewrite app_nil_r; reflexivity|constructor|cbn; rewrite orb_false_r; reflexivity| |discriminate].
    intros _. split; [exact Hl|]. rewrite HX. cbn. lia.
  - eapply shape_end; [exact Hl|exact Hs|]. split; [reflexivity|left; reflexivity].
  - eapply counts_more with (wire := []); [exact Hco|rewrite app_nil_r; reflexivity|constructor|cbn; rewrite orb_false_r; reflexivity|intros []|discriminate].
  - eapply shape_end; [exact Hl|exact Hs|]. split; [reflexivity|right; reflexivity].
  - eapply counts_more with (wire := []); [exact Hco|rewrite app_nil_r; reflexivity|constructor|cbn; rewrite orb_false_r; reflexivity|intros []|discriminate].
Qed.

Lemma counts_history s o l : counts_ok s l -> counts_ok (on_broker o s) l.
Proof. intros H. exact H. Qed.

Lemma go_on s s' said more wire h :
  inv s said -> looping (x_handler s) -> looping (x_handler s') ->
  Forall is_report (by_handler more) -> by_goroutine more = [] ->
  x_read s' ++ x_wire s' = (x_read s ++ x_wire s) ++ wire ->
  Forall2 matching (filter is_stats (by_handler more)) (stats_sent wire) ->
  x_failed s' = (x_failed s || existsb (about "trace") (by_handler more))%bool ->
  (inits_sent wire + length (filter (about "init") (by_handler more)) + (if x_initc s' then 1 else 0) + match x_handler s' with HInit => 1 | _ => 0 end =
      (if x_initc s then 1 else 0) + match x_handler s with HInit => 1 | _ => 0 end)%nat ->
  x_goroutine s' = x_goroutine s -> x_history s' = x_history s ++ h ->
  inv s' (said ++ more).
Proof.
  intros (I1 & I2 & I3) Hl Hl' Hr Hb Hw Hs Hf Hi Hg Hh. unfold inv. rewrite by_handler_app, by_goroutine_app, Hb, app_nil_r. split; [|split].
  - apply (shape_more (x_handler s)); assumption.
  - eapply counts_more; try eassumption; [intros _; split; assumption|]. intros E. rewrite E in Hl'. exact Hl'.
  - eapply final_history; eassumption.
Qed.

Lemma inv_step s s' said more : reachable s -> talk s s' more -> inv s said -> inv s' (said ++ more).
Proof.
  intros Hr Ht HI. pose proof HI as (I1 & I2 & I3).
  assert (D : forall A (l : list A), l ++ [] = l) by (intros; apply app_nil_r).
  assert (R : forall format err, In format ["JSON marshal init: %v"; "encode init: %v"; "JSON marshal stats: %v"; "encode stats: %v"; "JSON marshal trace: %v"; "encode trace: %v"; "get stats: %v"] ->
     is_report (error_call format err)).
  { intros format err Hin. unfold is_report. cbn in Hin. destruct Hin as [<-|[<-|[<-|[<-|[<-|[<-|[<-|[]]]]]]]]; cbn; auto 10. }
  destruct Ht.
  - (* somebody else *)
    destruct (else_same _ _ H H0 H1) as (E1 & E2 & E3 & h & E4). rewrite D. split; [rewrite H0; exact I1|]. split.
    + unfold counts_ok in *. rewrite E1, E2, E3, H0. exact I2.
    + eapply final_history; eassumption.
  - rewrite D. split; [exact I1|]. split; [exact I2|]. unfold final_ok in *. rewrite H in I3. exact I3.
  - unfold inv. rewrite by_handler_app, by_goroutine_app. cbn [by_handler by_goroutine filter map fst snd]. rewrite !D. split; [exact I1|]. split; [exact I2|]. unfold final_ok in *. rewrite H in I3. rewrite I3.
    destruct (waiting_stats s Hr H) as (h1 & h2 & st' & W1 & W2 & W3 & W4 & W5 & W6). rewrite W6 in H1. injection H1 as <-.
    exists st', err, h1, h2, []. split; [reflexivity|]. split; [cbn; rewrite W1, <- app_assoc; reflexivity|]. split; [rewrite <- W1; exact W2|]. split; [exact W3|]. split; [exact W4|]. rewrite <- W1. exact W5.
  - unfold inv. rewrite by_handler_app, by_goroutine_app. cbn [by_handler by_goroutine filter map fst snd]. rewrite !D. rewrite H in I1. cbn in I1. rewrite I1 in *. split; [exists []; split; [reflexivity|constructor]|]. split; [|exact I3].
    destruct I2 as (C1 & C2 & _ & C4). specialize (C4 H). split; [exact C1|]. split; [exact C2|]. split; [|discriminate]. intros _. cbn. rewrite C4. reflexivity.
  - unfold inv. rewrite by_handler_app, by_goroutine_app. cbn [by_handler by_goroutine filter map fst snd]. rewrite !D. rewrite H in I1. cbn in I1. rewrite I1 in *. split; [reflexivity|]. split; [|exact I3].
    destruct I2 as (C1 & C2 & _ & C4). specialize (C4 H). split; [exact C1|]. split; [exact C2|]. split; [intros []|discriminate].
  - eapply (go_on s _ said [] []); try exact HI; try (rewrite H); try exact Logic.I; try constructor; try reflexivity; cbn; rewrite ?D, ?orb_false_r; reflexivity.
  - eapply (go_on s _ said [] []); try exact HI; try (rewrite H); try exact Logic.I; try constructor; try reflexivity; cbn; rewrite ?D, ?orb_false_r; reflexivity.
  - destruct (case_inv s s' said0 (by_handler said)) as (G1 & G2 & G3 & G4 & G5); try assumption; try (rewrite H; (exact Logic.I || discriminate)).
    unfold inv. rewrite by_handler_app, by_goroutine_app. split; [exact G1|]. split; [exact G2|]. rewrite G3, D. eapply final_history; [exact G4|rewrite G5; symmetry; apply D|exact I3].
  - eapply (go_on s _ said [] []); try exact HI; try (rewrite H); try exact Logic.I; try constructor; try reflexivity; cbn; rewrite ?D, ?orb_false_r; reflexivity.
  - destruct (case_inv (on_broker (BGiveUp conn) s) s' said0 (by_handler said)) as (G1 & G2 & G3 & G4 & G5); try assumption; try (cbn; rewrite H; (exact Logic.I || discriminate)).
    unfold inv. rewrite by_handler_app, by_goroutine_app. split; [exact G1|]. split; [exact G2|]. rewrite G3, D. eapply (final_history s); [exact G4|exact G5|exact I3].
  - eapply (go_on s _ said [] [WInit]); try exact HI; try (rewrite H); try exact Logic.I; try constructor; try reflexivity; cbn; rewrite ?D, ?orb_false_r, ?app_assoc; try reflexivity; lia.
  - assert (Hf : is_report (error_call format err)) by (apply R; cbn in *; tauto). cbn in H0; destruct H0 as [<-|[<-|[]]];
    (eapply (go_on s _ said [(Handler, error_call _ err)] []); try exact HI; try (rewrite H); try exact Logic.I; try reflexivity; cbn; rewrite ?D, ?orb_false_r, ?orb_true_r; try reflexivity; try (repeat constructor; exact Hf); lia).
  - eapply (go_on s _ said [(Handler, stats_call st)] [WStats (enc_stream_stats st)]); try exact HI; try (rewrite H); try exact Logic.I; try reflexivity;
      cbn; rewrite ?D, ?orb_false_r, ?app_assoc; try reflexivity.
    + repeat constructor.
    + repeat constructor. exists st. split; [destruct st; reflexivity|reflexivity].
  - eapply (go_on s _ said [(Handler, error_call "get stats: %v" err)] []); try exact HI; try (rewrite H); try exact Logic.I; try reflexivity;
      cbn; rewrite ?D, ?orb_false_r, ?app_assoc; try reflexivity; try constructor. apply R; cbn; tauto. constructor.
  - assert (Hf : is_report (error_call format err)) by (apply R; cbn in *; tauto). cbn in H1; destruct H1 as [<-|[<-|[]]];
    (eapply (go_on s _ said [(Handler, error_call _ err)] []); try exact HI; try (rewrite H); try exact Logic.I; try reflexivity; cbn; rewrite ?D, ?orb_false_r, ?orb_true_r; try reflexivity; try (repeat constructor; exact Hf); lia).
  - eapply (go_on s _ said [] []); try exact HI; try (rewrite H); try exact Logic.I; try constructor; try reflexivity; cbn; rewrite ?D, ?orb_false_r; reflexivity.
  - eapply (go_on s _ said [] [WTrace j]); try exact HI; try (rewrite H); try exact Logic.I; try constructor; try reflexivity; cbn; rewrite ?D, ?orb_false_r, ?app_assoc; reflexivity.
  - assert (Hf : is_report (error_call format err)) by (apply R; cbn in *; tauto). cbn in H1; destruct H1 as [<-|[<-|[]]];
    (eapply (go_on s _ said [(Handler, error_call _ err)] []); try exact HI; try (rewrite H); try exact Logic.I; try reflexivity; cbn; rewrite ?D, ?orb_false_r, ?orb_true_r; try reflexivity; try (repeat constructor; exact Hf); lia).
  - rewrite D. split.
    + rewrite H in I1. cbn. destruct started; [right|left]; exact I1.
    + split; [|exact I3]. destruct I2 as (C1 & C2 & _ & C4). split; [exact C1|]. split; [exact C2|]. split; [intros []|discriminate].
Qed.
Lemma talked_inv s said : talked s said -> inv s said.
Proof.
  intros (past & s0 & Hi & Ht). induction Ht as [s0|s0 s1 s2 said more Ht IH Hm].
  - destruct Hi as [_ ->]. unfold inv, shape, counts_ok, final_ok. cbn. repeat split; try constructor; try discriminate. intros [].
  - apply (inv_step s1); [|exact Hm|exact (IH Hi)]. apply C115_log_is_a_log. exists said, past, s0. split; assumption.
Qed.

(** What the handler says, in order: that it started; reports; why it stops.  The goroutine: nothing, or one line. *)
Theorem C115_lines :
  forall s said, talked s said ->
    (by_handler said = [] <-> x_handler s = HStart) /\
    (looping (x_handler s) -> exists reports, by_handler said = S_StreamLog.started :: reports /\ Forall is_report reports) /\
    (x_handler s = HReturned -> 0 < interval ->
       exists reports why, by_handler said = S_StreamLog.started :: reports ++ [why] /\ Forall is_report reports /\ is_reason why).
Proof.
  intros s said H. pose proof (talked_inv s said H) as (I1 & _ & _). split; [|split].
  - unfold shape in I1. split; [|intros E; rewrite E in I1; exact I1].
    destruct (x_handler s) as [| | | | | |[]|]; intros E; try reflexivity; rewrite E in I1; try discriminate; try (destruct I1 as (? & I1 & _); discriminate); try (destruct I1 as (? & ? & I1 & _); discriminate).
    destruct I1 as [I1|(? & ? & I1 & _)]; discriminate.
  - intros Hl. unfold shape in I1. destruct (x_handler s); try contradiction; exact I1.
  - intros E Hi. rewrite E in I1. destruct I1 as [I1|I1]; [|exact I1]. exfalso.
    assert (G : forall s said, talked s said -> (x_handler s = HDeferred false -> False) /\ (x_handler s = HReturned -> by_handler said <> [started])).
    { clear -Hi time_ok. intros s said (past & s0 & Hin & Ht). induction Ht as [s0|s0 s1 s2 said more Ht IH Hm]; [destruct Hin as [_ ->]; split; discriminate|].
      specialize (IH Hin) as (J1 & J2). assert (T1 : talked s1 said) by (exists past, s0; split; assumption).
      pose proof (talked_inv s1 said T1) as (S1 & _ & _).
      destruct Hm; cbn [x_handler with_handler with_goroutine with_initc with_failed with_cancel on_broker with_history write with_wire]; rewrite ?by_handler_app, ?app_nil_r;
        try (split; [exact J1|exact J2]); try (split; discriminate).
      - rewrite H0. split; [exact J1|exact J2].
      - lia.
      - destruct H0; split; discriminate.
      - destruct H1; split; discriminate.
      - split; [discriminate|]. intros _. rewrite H in S1. destruct started as [|]; [|exfalso; exact (J1 H)].
        destruct S1 as (mid & why & -> & _). destruct mid; discriminate. }
    exact (proj2 (G s said H) E I1).
Qed.

(** The reports: the statistics that were sent, in order; the trace was marked for a trace that could not be
    sent exactly if there was one; the init event was sent, or a failure was reported, or it is still to come. *)
Theorem C115_reports :
  forall s said, talked s said ->
    Forall2 matching (filter is_stats (by_handler said)) (stats_sent (x_read s ++ x_wire s)) /\
    (x_failed s = true <-> existsb (about "trace") (by_handler said) = true) /\
    (looping (x_handler s) -> (inits_sent (x_read s ++ x_wire s) + length (filter (about "init") (by_handler said)) +
       (if x_initc s then 1 else 0) + match x_handler s with HInit => 1 | _ => 0 end = 1)%nat).
Proof. intros s said H. pose proof (talked_inv s said H) as (_ & (C1 & C2 & C3 & _) & _). split; [exact C1|]. split; [exact C2|exact C3]. Qed.

(** The last word of the goroutine accounts for everything that was published while the stream was
    subscribed, and it is said before the handler returns. *)
Theorem C115_final :
  forall s said, talked s said ->
    (x_handler s = HReturned -> x_goroutine s = GDone) /\
    (x_goroutine s <> GDone -> by_goroutine said = []) /\
    (x_goroutine s = GDone -> exists st err before during after,
       by_goroutine said = [MkCall true false "%s (error: %v)" [AStr (StreamStats_String st); AErr err]] /\
       x_history s = before ++ BStream conn f :: during ++ BDone conn :: after /\
       Skips st + Sends st + Drops st = zlen (published during) /\
       Skips st = zlen (filter (fun tr => negb (matches Compile MatchString f tr)) (published during)) /\
       Sends st = zlen (delivered (b_chans (run (before ++ BStream conn f :: during)) conn))).
Proof.
  intros s said H. pose proof (talked_inv s said H) as (_ & _ & I3). assert (Hr : reachable s) by (apply C115_log_is_a_log; exists said; exact H).
  split; [|split].
  - intros E. destruct (ok s Hr) as ((_ & _ & K) & _). rewrite E in K. exact K.
  - intros Hg. unfold final_ok in I3. destruct (x_goroutine s); try exact I3. congruence.
  - intros Hg. unfold final_ok in I3. rewrite Hg in I3. destruct I3 as (st & err & h1 & h2 & h3 & E & Eh & V & Q1 & Q2 & Hst).
    exists st, err, h1, h2, h3. split; [exact E|]. split; [exact Eh|].
    destruct (C34_statistics_account_for_every_publish Compile MatchString caps conn f h1 h2 V) as (st' & sent & E1 & E2 & E3 & E4 & E5 & E6).
    { unfold subscription. apply quiet_subscription. exact Q1. }
    { apply Q2. }
    rewrite Hst in E1. injection E1 as <-. split; [exact E2|]. split; [exact E3|]. rewrite E4.
    assert (E0 : delivered (b_chans (run h1) conn) = []).
    { apply Forall_app in V as [V _]. pose proof (C35_matching_traces_in_order Compile MatchString caps conn h1 V) as K.
      unfold S_Broker.wanted in K. rewrite quiet_wanted in K by exact Q1. inversion K. reflexivity. }
    rewrite E0. symmetry. exact E5.
Qed.

(** Statistics are missing only before the goroutine has subscribed and after the request's end. *)
Theorem C115_no_stats :
  forall s s' said c, reachable s -> talk s s' said -> In (Handler, c) said -> no_stats c = true -> x_goroutine s = GStart \/ ctx_done s = true.
Proof.
  intros s s' said c Hr Ht Hin Hc. destruct (x_goroutine s) eqn:Hg; [left; reflexivity| |right].
  - exfalso. destruct (waiting_stats s Hr Hg) as (_ & _ & st & _ & _ & _ & _ & W & _). cbn [b_step snd] in W.
    destruct Ht; cbn in Hin; try (destruct Hin as [E|[]]; try discriminate; injection E as <-); try contradiction; try discriminate; try congruence;
      try (match goal with HF : In _ _ |- _ => cbn in HF; destruct HF as [<-|[<-|[]]]; discriminate end).
    + match goal with HK : case_talk _ _ _ |- _ => destruct HK; cbn in Hin; try contradiction; destruct Hin as [E|[]]; injection E as <-; discriminate end.
    + match goal with HK : case_talk _ _ _ |- _ => destruct HK; cbn in Hin; try contradiction; destruct Hin as [E|[]]; injection E as <-; discriminate end.
  - destruct (ok s Hr) as ((_ & K & _) & _). rewrite Hg in K. apply K.
Qed.

(** Finding: every interval adds a line, so the log of a stream that lasts outgrows every limit on events;
    what the trace then shows is C113_long_request_refuted. *)
Theorem C115_long_stream_refuted :
  0 < interval ->
  forall limit : nat, exists s said, talked s said /\ looping (x_handler s) /\ existsb c_err (map snd said) = false /\ (limit < length said)%nat.
Proof.
  intros Hi limit.
  assert (G : forall n, exists s said, talked s said /\ x_handler s = HLoop /\ x_goroutine s = GWaiting /\ existsb c_err (map snd said) = false /\ length said = S n).
  { induction n as [|n (s & said & T & Hh & Hg & He & Hn)].
    - do 2 eexists. split; [|split; [|split; [|split]]].
      + exists [], (MkConn [] GStart HStart false false false false [] [] CReading false []). split; [split; [constructor|reflexivity]|].
        eapply TSome; [eapply TSome; [constructor|apply TSubscribe; reflexivity]|apply TStart; [reflexivity|exact Hi]].
      + reflexivity.
      + reflexivity.
      + reflexivity.
      + reflexivity.
    - assert (Hr : reachable s) by (apply C115_log_is_a_log; exists said; exact T).
      destruct (waiting_stats s Hr Hg) as (_ & _ & st & _ & _ & _ & _ & W & _). cbn [b_step snd] in W.
      destruct T as (past & s0 & Hin & Ht). do 2 eexists. split; [|split; [|split; [|split]]].
      + exists past, s0. split; [exact Hin|]. eapply TSome; [eapply TSome; [exact Ht|]|].
        * eapply TOther; [exact Hh|]. apply KTick.
        * eapply TTick; [reflexivity|exact W].
      + reflexivity.
      + exact Hg.
      + rewrite !map_app, !existsb_app. cbn. rewrite !orb_false_r. exact He.
      + rewrite !app_length, Hn. cbn. lia. }
  destruct (G limit) as (s & said & T & Hh & _ & He & Hn). exists s, said. split; [exact T|]. rewrite Hh. split; [exact Logic.I|]. split; [exact He|]. lia.
Qed.
End Log.
Print Assumptions C115_log_is_a_log.
Print Assumptions C115_lines.
Print Assumptions C115_reports.
Print Assumptions C115_final.
Print Assumptions C115_no_stats.
Print Assumptions C115_long_stream_refuted.

(** Finding: a client that goes away while the ticker fires leaves an error in the trace, although
    everything could be sent. *)
Notation demo_talked := (talked (RE := string) demo_compile demo_match demo_time demo_parse_time (fun _ => 1) "tracec" no_filter "own" 10).
Definition demo_said : list line :=
  [(Handler, started_call);
   (Handler, stats_call (MkStreamStats 0 0 0));
   (Background, final_call (MkStreamStats 0 0 0) "context canceled");
   (Handler, error_call "get stats: %v" "not subscribed");
   (Handler, context_call "context canceled")].
Theorem C115_clean_end_refuted :
  exists s, demo_talked s demo_said /\ x_handler s = HReturned /\ x_failed s = false /\ existsb c_err (map snd demo_said) = true /\
    forall c, In c (by_handler demo_said) -> about "init" c = false /\ about "stats" c = false /\ about "trace" c = false.
Proof.
  eexists. split; [|split; [|split; [|split]]].
  - exists [], (MkConn [] GStart HStart false false false false [] [] CReading false []). split; [split; [constructor|reflexivity]|].
    change demo_said with ((((((((((([] ++ []) ++ [(Handler, started_call)]) ++ []) ++ []) ++ []) ++ [(Handler, stats_call (MkStreamStats 0 0 0))]) ++ []) ++
      [(Background, final_call (MkStreamStats 0 0 0) "context canceled")]) ++ []) ++ [(Handler, error_call "get stats: %v" "not subscribed")]) ++ [(Handler, context_call "context canceled")] ++ []).
    rewrite app_assoc.
    eapply TSome; [eapply TSome; [eapply TSome; [eapply TSome; [eapply TSome; [eapply TSome; [eapply TSome; [eapply TSome; [eapply TSome; [eapply TSome; [eapply TSome; [eapply TSome; [apply TNone|]|]|]|]|]|]|]|]|]|]|]|].
    + apply TSubscribe. reflexivity.
    + apply TStart; [reflexivity|lia].
    + apply TOther; [reflexivity|]. apply KInit. reflexivity.
    + apply TInit. reflexivity.
    + apply TOther; [reflexivity|]. apply KTick.
    + apply TTick; [reflexivity|vm_compute; reflexivity].
    + eapply TElse; [apply XRequestDone|reflexivity|reflexivity].
    + apply TUnsubscribe; [reflexivity|reflexivity|vm_compute; reflexivity].
    + apply TOther; [reflexivity|]. apply KTick.
    + apply TNoStats; [reflexivity|vm_compute; reflexivity].
    + apply TOther; [reflexivity|]. apply KDone. reflexivity.
    + eapply TReturn; reflexivity.
  - reflexivity.
  - reflexivity.
  - reflexivity.
  - intros c Hc. cbn in Hc. destruct Hc as [<-|[<-|[<-|[<-|[]]]]]; repeat split.
Qed.
Print Assumptions C115_clean_end_refuted.

Example C115_instance :
  times_read_back demo_time demo_parse_time /\
  by_handler demo_said = S_StreamLog.started :: [stats_call (MkStreamStats 0 0 0); error_call "get stats: %v" "not subscribed"] ++ [context_call "context canceled"] /\
  Forall is_report [stats_call (MkStreamStats 0 0 0); error_call "get stats: %v" "not subscribed"] /\ is_reason (context_call "context canceled") /\
  map c_args (by_goroutine demo_said) = [[AStr "skips=0 sends=0 drops=0"; AErr "context canceled"]].
Proof.
  split; [exact demo_times|]. split; [reflexivity|]. split; [|split; [split; [reflexivity|left; reflexivity]|reflexivity]].
  constructor; [left; split; reflexivity|]. constructor; [|constructor]. unfold is_report. cbn. auto 10.
Qed.

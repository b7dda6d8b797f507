(** Invariants of a stream connection. *)
From Verif Require Import Go M_Strings M_Types M_Filter S_Filter L_Filter M_Text M_Json S_Json M_Broker S_Broker L_Broker S_TraceView P_Filter P_Broker P_Json M_StreamHttp S_StreamHttp.
From Coq Require Import ZifyBool.
Open Scope string_scope.
Open Scope list_scope.
Open Scope Z_scope.

Section Lemmas.
Context {RE : Type}.
Variable Compile : string -> RE + string.
Variable MatchString : RE -> string -> bool.
Variable time_text : Z -> option string.
Variable parse_time : string -> option Z.
Hypothesis time_ok : forall t s, time_text t = Some s -> parse_time s = Some t.
Variable caps : string -> Z.
Variable conn : string.
Variable f : Filter RE.
Variable own : string.
Variable interval : Z.
Notation bop := (bop RE).
Notation run := (b_run Compile MatchString caps).
Notation conn_state := (conn_state RE).
Notation tracec := (tracec Compile MatchString caps conn).
Notation conn_step := (conn_step Compile MatchString time_text parse_time caps conn f own interval).
Notation conn_steps := (conn_steps Compile MatchString time_text parse_time caps conn f own interval).
Notation reachable := (conn_reachable Compile MatchString time_text parse_time caps conn f own interval).
Notation wanted := (wanted Compile MatchString conn).

Notation visible := (visible own).
Notation on_wire := (on_wire parse_time).

Lemma visible_app l l' : visible (l ++ l') = visible l ++ visible l'.
Proof. unfold S_StreamHttp.visible. rewrite filter_app, map_app. reflexivity. Qed.
Lemma on_wire_app l l' : on_wire (l ++ l') = on_wire l ++ on_wire l'.
Proof. apply flat_map_app. Qed.
Lemma visible_own recv : TraceID recv = own -> visible [recv] = [].
Proof. intros E. unfold S_StreamHttp.visible. cbn. rewrite E, String.eqb_refl. reflexivity. Qed.
Lemma visible_not_own recv : TraceID recv <> own -> visible [recv] = [sent_trace recv].
Proof. intros H. unfold S_StreamHttp.visible. cbn. apply String.eqb_neq in H. rewrite H. reflexivity. Qed.

(** *** The history *)
Lemma tracec_snoc s o : Forall valid_bop (x_history s) -> valid_bop o ->
  tracec (on_broker o s) = snd (fold_left (step1 Compile MatchString) (own1 conn o) (view_of conn (run (x_history s)))).
Proof.
  intros Hv Ho. unfold M_StreamHttp.tracec, on_broker. cbn [x_history with_history].
  rewrite <- (snd_view conn), run_split by (auto; repeat constructor; auto). unfold concerning. cbn [flat_map]. rewrite app_nil_r. reflexivity.
Qed.
Lemma tracec_ok s : Forall valid_bop (x_history s) -> chan_ok (tracec s).
Proof.
  intros Hv. assert (H : view_ok (view_of conn (run (x_history s)))); [|exact H].
  rewrite run_view by exact Hv. apply view_ok_steps, view_ok_init.
Qed.
Lemma tracec_receive s : Forall valid_bop (x_history s) -> tracec (on_broker (BReceive conn) s) = receive (tracec s).
Proof. intros H. rewrite tracec_snoc by (try exact I; exact H). cbn [own1]. rewrite String.eqb_refl. reflexivity. Qed.
Lemma tracec_give_up s : Forall valid_bop (x_history s) -> tracec (on_broker (BGiveUp conn) s) = give_up (tracec s).
Proof. intros H. rewrite tracec_snoc by (try exact I; exact H). cbn [own1]. rewrite String.eqb_refl. reflexivity. Qed.
Lemma tracec_stream s : Forall valid_bop (x_history s) -> tracec (on_broker (BStream conn f) s) = tracec s.
Proof. intros H. rewrite tracec_snoc by (try exact I; exact H). cbn [own1]. rewrite String.eqb_refl. cbn. destruct (map_get conn _); reflexivity. Qed.
Lemma tracec_done s : Forall valid_bop (x_history s) -> tracec (on_broker (BDone conn) s) = tracec s.
Proof. intros H. rewrite tracec_snoc by (try exact I; exact H). cbn [own1]. rewrite String.eqb_refl. reflexivity. Qed.
Lemma tracec_elsewhere s o : Forall valid_bop (x_history s) -> elsewhere conn o ->
  tracec (on_broker o s) = tracec s \/ exists str, try_send (tracec s) str = Some (tracec (on_broker o s)).
Proof.
  intros H [Ho Hc]. rewrite tracec_snoc by assumption. destruct o as [c g|c|order [str|]|c|c|c]; cbn [own1]; try (left; reflexivity);
    try (apply String.eqb_neq in Hc; rewrite Hc; left; reflexivity).
  cbn [fold_left step1]. unfold deliver. cbn [view_of fst snd]. destruct (map_get conn (b_subs (run (x_history s)))) as [sub|]; [|left; reflexivity].
  destruct (Allow Compile MatchString (sub_filter sub) str) as [f' []]; [|left; reflexivity].
  unfold M_StreamHttp.tracec. destruct (try_send (b_chans (run (x_history s)) conn) str) eqn:E; [right; exists str; exact E|left; reflexivity].
Qed.
Lemma sub_snoc h (o : bop) : subscription conn (h ++ [o]) = sub_after conn (subscription conn h) o.
Proof. unfold subscription. rewrite fold_left_app. reflexivity. Qed.
Lemma sub_elsewhere cur (o : bop) : elsewhere conn o -> sub_after conn cur o = cur.
Proof. intros [_ H]. destruct o; cbn in *; try reflexivity; apply String.eqb_neq in H; rewrite H; reflexivity. Qed.

(** The history and the goroutine.  [h1]: before the subscription, [h2] since. *)
Definition quiet (h : list bop) : Prop := existsb (subscribes conn) h = false /\ existsb (cancels conn) h = false.
Definition history_ok (s : conn_state) : Prop :=
  Forall valid_bop (x_history s) /\
  match x_goroutine s with
  | GStart => quiet (x_history s)
  | GWaiting => exists h1 h2, x_history s = h1 ++ BStream conn f :: h2 /\ quiet h1 /\ quiet h2
  | GDone => (exists h1 h2 h3, x_history s = h1 ++ BStream conn f :: h2 ++ BDone conn :: h3 /\ quiet h1 /\ quiet h2 /\ quiet h3) /\ ctx_done s = true
  end /\
  match x_handler s with
  | HReturned => x_goroutine s = GDone
  | HStart | HDeferred false => x_cancel s = false
  | HDeferred true => ctx_done s = true
  | _ => True
  end.
Lemma quiet_snoc h o : quiet h -> subscribes conn o = false -> cancels conn o = false -> quiet (h ++ [o]).
Proof. intros [H1 H2] H3 H4. unfold quiet. rewrite !existsb_app. cbn. rewrite H1, H2, H3, H4. split; reflexivity. Qed.
Lemma quiet_nil : quiet []. Proof. split; reflexivity. Qed.
Lemma elsewhere_quiet (o : bop) : elsewhere conn o -> subscribes conn o = false /\ cancels conn o = false.
Proof. intros [_ H]. destruct o; cbn in *; try (split; reflexivity); apply String.eqb_neq in H; rewrite H; split; reflexivity. Qed.
Lemma history_snoc s o : history_ok s -> valid_bop o -> subscribes conn o = false -> cancels conn o = false -> history_ok (on_broker o s).
Proof.
  intros (H1 & H2 & H3) Ho Hs Hc. split; [apply Forall_app; repeat constructor; assumption|].
  split; [|exact H3]. cbn [x_goroutine x_history on_broker with_history]. destruct (x_goroutine s).
  - apply quiet_snoc; assumption.
  - destruct H2 as (h1 & h2 & -> & Q1 & Q2). exists h1, (h2 ++ [o]). rewrite <- app_assoc. split; [reflexivity|]. split; [exact Q1|apply quiet_snoc; assumption].
  - destruct H2 as [(h1 & h2 & h3 & -> & Q1 & Q2 & Q3) Hd]. split; [|exact Hd]. exists h1, h2, (h3 ++ [o]). rewrite <- app_assoc. cbn. rewrite <- app_assoc. cbn.
    split; [reflexivity|]. split; [exact Q1|]. split; [exact Q2|]. apply quiet_snoc; assumption.
Qed.
Lemma history_step s s' : conn_step s s' -> history_ok s -> history_ok s'.
Proof.
  assert (Hother : forall s s', other_case s s' -> history_ok s -> (match x_handler s with HLoop | HSelect => True | _ => False end) -> history_ok s').
  { intros s0 s0' Ho (H1 & H2 & H3) Hm. destruct Ho; cbn in *; (split; [exact H1|]); (split; [|try exact I]); cbn in *; try exact H2; try assumption; try reflexivity.
    destruct (x_goroutine s0); try exact H2. destruct H2 as [H2 _]. split; [exact H2|reflexivity]. }
  intros Hs H. destruct Hs; try (destruct H as (K1 & K2 & K3); (split; [exact K1|]); (split; [exact K2|]); cbn; try exact I; try exact K3;
      match goal with E : x_handler _ = _ |- _ => rewrite E in * end; cbn; try exact K3; exact I).
  - destruct (elsewhere_quiet _ H0). apply history_snoc; try assumption. apply H0.
  - destruct H as (H1 & H2 & H3). split; [exact H1|]. unfold ctx_done in *. cbn in *. split.
    + destruct (x_goroutine s); try exact H2. destruct H2 as [H2 _]. split; [exact H2|]. apply orb_true_r.
    + destruct (x_handler s); try exact H3. destruct started; [apply orb_true_r|exact H3].
  - destruct H as (H1 & H2 & H3). rewrite H0 in *. split; [apply Forall_app; split; [exact H1|repeat constructor]|]. split; [|cbn; destruct (x_handler s); try exact H3; discriminate].
    exists (x_history s), []. cbn. split; [reflexivity|]. split; [exact H2|exact quiet_nil].
  - destruct H as (H2 & H3 & H4). rewrite H0 in *. split; [apply Forall_app; split; [exact H2|repeat constructor]|]. split; [|cbn; destruct (x_handler s); try exact H4; discriminate].
    cbn. split; [|exact H1]. destruct H3 as (h1 & h2 & -> & Q1 & Q2). exists h1, h2, []. rewrite <- app_assoc. cbn. split; [reflexivity|].
    split; [exact Q1|]. split; [exact Q2|exact quiet_nil].
  - assert (G : history_ok (on_broker (BReceive conn) s)) by (apply history_snoc; try reflexivity; assumption).
    destruct G as (G1 & G2 & _). split; [exact G1|]. split; [exact G2|exact I].
  - assert (G : history_ok (on_broker (BReceive conn) s)) by (apply history_snoc; try reflexivity; assumption).
    destruct G as (G1 & G2 & _). split; [exact G1|]. split; [exact G2|exact I].
  - eapply Hother; [eassumption|assumption|]. rewrite H0. exact I.
  - eapply Hother; [eassumption| |].
    + apply history_snoc; try reflexivity; assumption.
    + cbn. rewrite H0. exact I.
  - destruct H as (H2 & H3 & H4). split; [exact H2|]. unfold ctx_done in *. cbn in *. rewrite H1 in *. split; [|reflexivity]. destruct H3 as [H3 _]. split; [exact H3|reflexivity].
Qed.

(** *** What is on its way.  [handled]: the traces the loop is done with. *)
Definition chan_part (m : handler) (c : chan) (handled : list StaticTrace) : Prop :=
  match m with
  | HTrace v => ch_waiting c = 0 /\ ch_received c = handled ++ [v]
  | HSelect => (ch_waiting c = 1 /\ ch_received c = handled) \/ (ch_waiting c = 0 /\ exists v, ch_received c = handled ++ [v])
  | _ => ch_waiting c = 0 /\ ch_received c = handled
  end.
Definition going (s : conn_state) : list StaticTrace := x_got s ++ in_client (x_client s) ++ on_wire (x_wire s).
Definition flow (s : conn_state) : Prop :=
  exists handled, chan_part (x_handler s) (tracec s) handled /\
    subseq (going s) (visible handled) /\ (x_failed s = false -> x_client_done s = false -> going s = visible handled).
Definition event_ok (h : list bop) (e : wire_event) : Prop :=
  match e with
  | WInit => True
  | WStats j => exists h1 h2 st, h = h1 ++ h2 /\ StreamStats_ conn (run h1) = RStats st /\ j = enc_stream_stats st
  | WTrace j => exists t, enc_static time_text t j
  end.
Definition wire_ok (s : conn_state) : Prop := Forall (event_ok (x_history s)) (x_read s ++ x_wire s).

Lemma chan_part_send m c handled str c' : chan_part m c handled -> try_send c str = Some c' -> chan_part m c' handled.
Proof.
  unfold chan_part, try_send. intros H. destruct (Z.ltb_spec 0 (ch_waiting c)) as [L|L].
  - intros [= <-]. cbn. destruct m; try (exfalso; lia); (destruct H as [[H1 H2]|[H1 _]]; [|lia]) || (exfalso; lia).
    right. split; [lia|]. exists str. rewrite H2. reflexivity.
  - destruct (_ <? _); [|discriminate]. intros [= <-]. exact H.
Qed.
Lemma chan_part_other m m' c handled : chan_part m c handled ->
  (match m with HSelect | HTrace _ => False | _ => True end) -> (match m' with HSelect | HTrace _ => False | _ => True end) -> chan_part m' c handled.
Proof. destruct m, m'; cbn; try contradiction; intros H _ _; exact H. Qed.
Lemma subseq_snoc_drop {A} (l l' l2 : list A) : subseq l l' -> subseq l (l' ++ l2).
Proof. intros H. rewrite <- (app_nil_r l). apply subseq_app; [exact H|apply subseq_nil_l]. Qed.

Lemma subseq_trans {A} (l1 l2 l3 : list A) : subseq l1 l2 -> subseq l2 l3 -> subseq l1 l3.
Proof.
  intros H1 H2. revert l1 H1. induction H2 as [|x l l' H2 IH|x l l' H2 IH]; intros l1 H1; [exact H1| |constructor; apply IH; exact H1].
  inversion H1; subst; constructor; apply IH; assumption.
Qed.
Lemma flow_step s s' : conn_step s s' -> history_ok s -> wire_ok s -> flow s -> flow s'.
Proof.
  assert (Hother : forall s s', other_case s s' -> (match x_handler s with HLoop => True | _ => False end) -> flow s -> flow s').
  { intros s0 s0' Ho Hm (handled & H1 & H2 & H3). destruct (x_handler s0) eqn:Em; try contradiction.
    destruct Ho; exists handled; (split; [exact H1|]); (split; [exact H2|exact H3]). }
  intros Hs Hh Hw Hf. pose proof Hh as (Hv & _ & _).
  destruct Hs;
    try (destruct Hf as (handled & K1 & K2 & K3); exists handled; split; [|split; [exact K2|exact K3]];
         cbn [x_handler with_handler with_initc with_cancel with_request_done with_client_done with_wire write with_client with_got with_failed with_goroutine]; try exact K1;
         match goal with E : x_handler _ = _ |- _ => rewrite E in K1 end; exact K1).
  - destruct Hf as (handled & K1 & K2 & K3). exists handled. split; [|split; [exact K2|exact K3]]. change (x_handler (on_broker o s)) with (x_handler s).
    destruct (tracec_elsewhere s o Hv H) as [E|[str E]]; [rewrite E; exact K1|]. eapply chan_part_send; eassumption.
  - destruct Hf as (handled & K1 & K2 & K3). exists handled. split; [|split; [exact K2|exact K3]].
    change (chan_part (x_handler s) (tracec (on_broker (BStream conn f) s)) handled). rewrite tracec_stream by exact Hv. exact K1.
  - destruct Hf as (handled & K1 & K2 & K3). exists handled. split; [|split; [exact K2|exact K3]].
    change (chan_part (x_handler s) (tracec (on_broker (BDone conn) s)) handled). rewrite tracec_done by exact Hv. exact K1.
  - destruct Hf as (handled & K1 & K2 & K3). exists handled. split; [|split; [exact K2|exact K3]]. rewrite H in K1. destruct K1 as [K0 K1].
    change (chan_part (HTrace recv) (tracec (on_broker (BReceive conn) s)) handled). rewrite tracec_receive by exact Hv. unfold receive. rewrite H0. cbn. split; [exact K0|]. rewrite K1. reflexivity.
  - destruct Hf as (handled & K1 & K2 & K3). exists handled. split; [|split; [exact K2|exact K3]]. rewrite H in K1. destruct K1 as [K0 K1].
    change (chan_part HSelect (tracec (on_broker (BReceive conn) s)) handled). rewrite tracec_receive by exact Hv. unfold receive. rewrite H0. cbn. left. split; [lia|exact K1].
  - eapply Hother; [eassumption| |exact Hf]. rewrite H. exact I.
  - destruct Hf as (handled & K1 & K2 & K3). exists handled. split; [|split; [exact K2|exact K3]]. rewrite H in K1.
    change (chan_part (HTrace recv) (tracec s) handled). destruct K1 as [[K1 _]|[K0 [v K1]]]; [lia|]. rewrite K1 in H1. apply app_inj_tail in H1 as [-> ->].
    split; [exact K0|exact K1].
  - assert (G : flow (with_handler HLoop (on_broker (BGiveUp conn) s))).
    { destruct Hf as (handled & K1 & K2 & K3). exists handled. split; [|split; [exact K2|exact K3]]. rewrite H in K1.
      change (chan_part HLoop (tracec (on_broker (BGiveUp conn) s)) handled). rewrite tracec_give_up by exact Hv. unfold give_up.
      apply Z.ltb_lt in H0. rewrite H0. destruct K1 as [[K0 K1]|[K0 _]]; [|lia]. cbn. split; [lia|exact K1]. }
    destruct H1; (apply (Hother (with_handler HLoop s0)); [|exact I|exact G]).
    + apply (OInit (with_handler HLoop s0)). exact H1.
    + apply (OTick (with_handler HLoop s0)).
    + apply (ODone (with_handler HLoop s0)). exact H1.
    + apply (OStop (with_handler HLoop s0)).
  - destruct Hf as (handled & K1 & K2 & K3). exists handled. split; [rewrite H in K1; exact K1|]. unfold going. cbn [x_got x_client x_wire with_handler write with_wire]. rewrite on_wire_app. cbn [S_StreamHttp.on_wire flat_map app]. rewrite app_nil_r. split; [exact K2|exact K3].
  - destruct Hf as (handled & K1 & K2 & K3). exists handled. split; [rewrite H in K1; exact K1|]. unfold going. cbn [x_got x_client x_wire with_handler write with_wire]. rewrite on_wire_app. cbn [S_StreamHttp.on_wire flat_map app]. rewrite app_nil_r. split; [exact K2|exact K3].
  - destruct Hf as (handled & K1 & K2 & K3). exists (handled ++ [recv]). rewrite H in K1. split; [exact K1|]. rewrite visible_app, (visible_own recv H0), app_nil_r. split; [exact K2|exact K3].
  - destruct Hf as (handled & K1 & K2 & K3). exists (handled ++ [recv]). rewrite H in K1. split; [exact K1|]. rewrite visible_app, (visible_not_own recv H0). unfold going in *. cbn [x_got x_client x_wire x_failed x_client_done with_handler write with_wire].
    rewrite on_wire_app. cbn [S_StreamHttp.on_wire flat_map app]. rewrite (static_ok time_text parse_time time_ok _ _ H1). cbn. rewrite !app_assoc. rewrite !app_assoc in K2. rewrite !app_assoc in K3.
    split; [apply subseq_app; [exact K2|apply subseq_refl]|]. intros E1 E2. rewrite (K3 E1 E2). reflexivity.
  - destruct Hf as (handled & K1 & K2 & K3). exists (handled ++ [recv]). rewrite H in K1. split; [exact K1|]. rewrite visible_app. split; [apply subseq_snoc_drop; exact K2|]. cbn. discriminate.
  - destruct Hf as (handled & K1 & K2 & K3). exists handled. split; [exact K1|]. split; [exact K2|]. cbn. intros _ [=].
  - destruct Hf as (handled & K1 & K2 & K3). exists handled. split; [exact K1|]. unfold going in *. cbn in *. rewrite H in *. split; [exact K2|exact K3].
  - destruct Hf as (handled & K1 & K2 & K3). exists handled. split; [exact K1|]. unfold going in *. cbn in *. rewrite H in *. split; [exact K2|exact K3].
  - destruct Hf as (handled & K1 & K2 & K3). exists handled. split; [exact K1|]. unfold going in *. rewrite H0 in *. cbn in *. split; [exact K2|exact K3].
  - destruct Hf as (handled & K1 & K2 & K3). exists handled. split; [exact K1|]. unfold going in *. rewrite H0 in *. cbn in *. split; [exact K2|exact K3].
  - exfalso. unfold wire_ok in Hw. rewrite H0 in Hw. apply Forall_app in Hw as [_ Hw]. inversion Hw as [|? ? He _]; subst. destruct He as (h1 & h2 & [] & _ & _ & ->). discriminate H1.
  - destruct Hf as (handled & K1 & K2 & K3). exists handled. split; [exact K1|]. unfold going in *. rewrite H, H0 in *. cbn in *. rewrite H1 in *. split; [exact K2|exact K3].
  - exfalso. unfold wire_ok in Hw. rewrite H0 in Hw. apply Forall_app in Hw as [_ Hw]. inversion Hw as [|? ? He _]; subst. destruct He as (t & He).
    apply (static_ok time_text parse_time time_ok) in He. congruence.
  - destruct Hf as (handled & K1 & K2 & K3). exists handled. split; [exact K1|]. unfold going in *. cbn in *. rewrite H in *. cbn in *. rewrite <- app_assoc. split; [exact K2|exact K3].
  - destruct Hf as (handled & K1 & K2 & K3). exists handled. split; [exact K1|]. unfold going in *. cbn in *. rewrite H in *. cbn in *. split; [|intros _; congruence].
    eapply subseq_trans; [|exact K2]. apply subseq_app; [apply subseq_refl|]. constructor. apply subseq_refl.
Qed.

Lemma wire_step s s' : conn_step s s' -> wire_ok s -> wire_ok s'.
Proof.
  assert (Hmono : forall h o e, event_ok h e -> event_ok (h ++ [o]) e).
  { intros h o [|j|j] H; [exact I| |exact H]. destruct H as (h1 & h2 & st & -> & E1 & E2). exists h1, (h2 ++ [o]), st. rewrite app_assoc. split; [reflexivity|]. split; assumption. }
  assert (Hsnoc : forall s o, wire_ok s -> wire_ok (on_broker o s)).
  { intros s0 o H. unfold wire_ok in *. cbn. eapply Forall_impl; [|exact H]. intros e. apply Hmono. }
  assert (Hwrite : forall s e, wire_ok s -> event_ok (x_history s) e -> wire_ok (write e s)).
  { intros s0 e H He. unfold wire_ok in *. cbn. rewrite app_assoc. apply Forall_app. split; [exact H|]. constructor; [exact He|constructor]. }
  assert (Hread : forall s e w, wire_ok s -> x_wire s = e :: w -> wire_ok (with_wire (x_read s ++ [e]) w s)).
  { intros s0 e w H E. unfold wire_ok in *. cbn. rewrite E in H. rewrite <- app_assoc. exact H. }
  assert (Hother : forall s s', other_case s s' -> wire_ok s -> wire_ok s') by (intros s0 s0' Ho H; destruct Ho; exact H).
  intros Hs H. destruct Hs; try exact H.
  - apply Hsnoc, H.
  - apply (Hsnoc s), H.
  - apply (Hsnoc s), H.
  - apply (Hsnoc s), H.
  - apply (Hsnoc s), H.
  - eapply Hother; eassumption.
  - eapply Hother; [eassumption|]. apply Hsnoc, H.
  - apply (Hwrite s WInit); [exact H|exact I].
  - apply (Hwrite s (WStats (enc_stream_stats st))); [exact H|]. exists (x_history s), [], st. rewrite app_nil_r. split; [reflexivity|]. split; [assumption|reflexivity].
  - apply (Hwrite s (WTrace j)); [exact H|]. exists recv. assumption.
  - apply Hread; assumption.
  - apply Hread; assumption.
  - eapply (Hread s); eassumption.
  - eapply (Hread s); eassumption.
  - eapply (Hread s); eassumption.
Qed.
(** at most one init event *)
Definition is_init (e : wire_event) : bool := match e with WInit => true | _ => false end.
Definition inits (s : conn_state) : Z := zlen (filter is_init (x_read s ++ x_wire s)).
Definition init_to_come (s : conn_state) : Z :=
  match x_handler s with HStart | HInit => 1 | HReturned | HDeferred _ => 0 | _ => if x_initc s then 1 else 0 end.
Lemma inits_step s s' : conn_step s s' -> (x_handler s = HStart \/ x_handler s = HInit -> x_initc s = false) -> inits s + init_to_come s <= 1 ->
  (x_handler s' = HStart \/ x_handler s' = HInit -> x_initc s' = false) /\ inits s' + init_to_come s' <= 1.
Proof.
  assert (Hread : forall s e w, x_wire s = e :: w -> inits (with_wire (x_read s ++ [e]) w s) = inits s).
  { intros s0 e w E. unfold inits. cbn. rewrite E, <- app_assoc. reflexivity. }
  assert (Hother : forall s s', other_case s s' -> (match x_handler s with HLoop | HSelect => True | _ => False end) -> inits s + init_to_come s <= 1 ->
            (x_handler s' = HStart \/ x_handler s' = HInit -> x_initc s' = false) /\ inits s' + init_to_come s' <= 1).
  { intros s0 s0' Ho Hm H. unfold init_to_come in *. destruct Ho; cbn in *.
    - split; [reflexivity|]. rewrite H0 in H. destruct (x_handler s0); try contradiction; exact H.
    - split; [intros [E|E]; discriminate|]. destruct (x_handler s0); try contradiction; exact H.
    - split; [intros [E|E]; discriminate|]. unfold inits in *. cbn. destruct (x_handler s0); try contradiction; destruct (x_initc s0); lia.
    - split; [intros [E|E]; discriminate|]. unfold inits in *. cbn. destruct (x_handler s0); try contradiction; destruct (x_initc s0); lia. }
  intros Hs H0 H. destruct Hs; try (split; [exact H0|exact H]);
    try (split; [intros [E|E]; discriminate E|]; unfold init_to_come in *; cbn in *; match goal with E : x_handler _ = _ |- _ => rewrite E in * end; unfold inits in *; cbn in *;
         try (destruct (x_initc s)); lia).
  - apply Hother with (s := s); [assumption| |exact H]. rewrite H1. exact I.
  - eapply Hother; [eassumption| |exact H]. cbn. rewrite H1. exact I.
  - split; [intros [E|E]; discriminate E|]. unfold init_to_come in *. cbn in *. rewrite H1 in *. specialize (H0 (or_intror eq_refl)). rewrite H0. unfold inits in *. cbn. unfold zlen in *. rewrite app_assoc, filter_app, app_length. cbn [filter is_init length]. lia.
  - split; [intros [E|E]; discriminate E|]. unfold init_to_come in *. cbn in *. rewrite H1 in *. unfold inits in *. cbn. rewrite app_assoc, filter_app. cbn. rewrite app_nil_r. exact H.
  - split; [intros [E|E]; discriminate E|]. unfold init_to_come in *. cbn in *. rewrite H1 in *. unfold inits in *. cbn. rewrite app_assoc, filter_app. cbn. rewrite app_nil_r. exact H.
  - split; [exact H0|]. rewrite Hread by assumption. exact H.
  - split; [exact H0|]. rewrite Hread by assumption. exact H.
  - split; [exact H0|]. change (inits (with_wire (x_read s ++ [WStats j]) wire s) + init_to_come s <= 1). rewrite Hread by assumption. exact H.
  - split; [exact H0|]. change (inits (with_wire (x_read s ++ [WTrace j]) wire s) + init_to_come s <= 1). rewrite Hread by assumption. exact H.
  - split; [exact H0|]. change (inits (with_wire (x_read s ++ [WTrace j]) wire s) + init_to_come s <= 1). rewrite Hread by assumption. exact H.
Qed.

Definition conn_ok (s : conn_state) : Prop :=
  history_ok s /\ wire_ok s /\ flow s /\ (x_handler s = HStart \/ x_handler s = HInit -> x_initc s = false) /\ inits s + init_to_come s <= 1.
Lemma conn_ok_step s s' : conn_step s s' -> conn_ok s -> conn_ok s'.
Proof.
  intros Hs (H1 & H2 & H3 & H4 & H5). split; [eapply history_step; eassumption|]. split; [eapply wire_step; eassumption|]. split; [eapply flow_step; eassumption|].
  eapply inits_step; eassumption.
Qed.
Lemma conn_ok_steps s s' : conn_steps s s' -> conn_ok s -> conn_ok s'.
Proof. intros H. induction H as [|s s' s'' H IH Hs]; intros H0; [exact H0|]. eapply conn_ok_step; [exact Hs|]. apply IH, H0. Qed.
Lemma elsewhere_list (past : list bop) : Forall (elsewhere conn) past -> Forall valid_bop past /\ quiet past /\
  forall s, x_history s = past -> ch_waiting (tracec s) = 0 /\ ch_received (tracec s) = [].
Proof.
  induction past as [|o past IH] using rev_ind.
  - intros _. split; [constructor|]. split; [exact quiet_nil|]. intros s E. unfold M_StreamHttp.tracec. rewrite E. split; reflexivity.
  - intros H. apply Forall_app in H as [H1 H2]. inversion H2 as [|? ? Ho _]; subst. destruct (IH H1) as (K1 & K2 & K3). destruct (elsewhere_quiet o Ho) as [Q1 Q2].
    split; [apply Forall_app; split; [exact K1|repeat constructor; apply Ho]|]. split; [apply quiet_snoc; assumption|].
    intros s E. destruct (K3 (with_history past s) eq_refl) as [K4 K5].
    assert (E' : tracec s = tracec (on_broker o (with_history past s))) by (unfold M_StreamHttp.tracec; rewrite E; reflexivity).
    rewrite E'. destruct (tracec_elsewhere (with_history past s) o K1 Ho) as [->|[str E2]]; [split; assumption|].
    unfold try_send in E2. rewrite K4 in E2. change (0 <? 0) with false in E2. cbv iota in E2. destruct (_ <? _); [|discriminate]. injection E2 as <-. split; [reflexivity|exact K5].
Qed.
Lemma conn_ok_init past s : conn_init conn past s -> conn_ok s.
Proof.
  intros [H ->]. destruct (elsewhere_list past H) as (H1 & H2 & H3). split; [split; [exact H1|split; [exact H2|reflexivity]]|].
  split; [constructor|]. split.
  - exists []. cbn. split; [apply H3; reflexivity|]. split; [constructor|reflexivity].
  - split; [reflexivity|]. unfold inits, init_to_come, zlen. cbn. lia.
Qed.
Lemma reachable_ok s : reachable s -> conn_ok s.
Proof. intros (past & s0 & H1 & H2). eapply conn_ok_steps; [exact H2|]. eapply conn_ok_init, H1. Qed.

End Lemmas.

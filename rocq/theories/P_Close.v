(** C82: closing the channel of a subscription. *)
From Verif Require Import Go M_Strings M_Types M_Filter S_Filter L_Filter M_Text M_Broker S_Broker L_Broker S_TraceView P_Filter P_Search P_Broker M_Close S_Close.
From Coq Require Import ZifyBool.
Open Scope string_scope.
Open Scope list_scope.
Open Scope Z_scope.

Section Close.
Context {RE : Type}.
Variable Compile : string -> RE + string.
Variable MatchString : RE -> string -> bool.
Notation bop := (bop RE).
Notation cop := (cop RE).
Notation b_step := (b_step Compile MatchString).
Notation b_run := (b_run Compile MatchString).
Notation c_step := (c_step Compile MatchString).
Notation c_run := (c_run Compile MatchString).
Notation matches := (matches Compile MatchString).
Notation sub_ok := (sub_ok Compile).

Lemma ops_snoc (h : list cop) o : ops (h ++ [o]) = ops h ++ match o with COp o => [o] | CClose _ => [] end.
Proof. unfold ops. rewrite flat_map_app. cbn [flat_map]. rewrite app_nil_r. reflexivity. Qed.
Lemma crun_snoc caps h o : c_run caps (h ++ [o]) = fst (c_step (c_run caps h) o).
Proof. unfold M_Close.c_run. rewrite fold_left_app. reflexivity. Qed.
Lemma subscription_snoc ch (h : list bop) o : subscription ch (h ++ [o]) = sub_after ch (subscription ch h) o.
Proof. unfold subscription. rewrite fold_left_app. reflexivity. Qed.

Lemma cloop_spec str closed : forall names s, NoDup names -> (forall n, In n names -> map_get n (b_subs s) <> None) ->
  let '(s', p) := cpublish_loop Compile MatchString names str closed s in
  map_keys (b_subs s') = map_keys (b_subs s) /\ b_blocked s' = b_blocked s /\
  (forall ch cur, sub_ok cur (view_of ch s) -> sub_ok cur (view_of ch s')) /\
  (p = true <-> exists n sub, In n names /\ closed_in closed n = true /\ map_get n (b_subs s) = Some sub /\ matches (sub_filter sub) str = true) /\
  (p = false -> publish_loop Compile MatchString names str s = Ok s').
Proof.
  induction names as [|n names IH]; intros s Hnd Hin.
  { cbn [cpublish_loop publish_loop]. do 2 (split; [reflexivity|]). split; [auto|]. split; [|reflexivity].
    split; [discriminate|intros (n & sub & [] & _)]. }
  apply NoDup_cons_iff in Hnd as [Hn Hnd]. cbn [cpublish_loop publish_loop].
  destruct (map_get n (b_subs s)) as [sub|] eqn:E; [|exfalso; apply (Hin n (or_introl eq_refl) E)].
  destruct (Allow Compile MatchString (sub_filter sub) str) as [f allowed] eqn:Ea.
  assert (Em : matches (sub_filter sub) str = allowed) by (unfold S_Broker.matches; rewrite Ea; reflexivity).
  assert (Ek : forall st chans, forall ch cur, sub_ok cur (view_of ch s) -> sub_ok cur (view_of ch (MkB (map_set n (MkSub f st) (b_subs s)) chans (b_blocked s)))).
  { intros st chans ch cur H. unfold view_of, L_Broker.sub_ok in *. cbn [fst snd b_subs b_chans] in *. rewrite map_get_set.
    destruct (String.eqb_spec ch n) as [->|]; [|exact H]. rewrite E in H. destruct cur as [g|]; [|exact H]. cbn [sub_filter].
    pose proof (like_used Compile MatchString _ _ str H) as H'. rewrite Ea in H'. exact H'. }
  assert (K : forall st chans, (allowed = true -> closed_in closed n = false) ->
    let '(s', p) := cpublish_loop Compile MatchString names str closed (MkB (map_set n (MkSub f st) (b_subs s)) chans (b_blocked s)) in
    map_keys (b_subs s') = map_keys (b_subs s) /\ b_blocked s' = b_blocked s /\
    (forall ch cur, sub_ok cur (view_of ch s) -> sub_ok cur (view_of ch s')) /\
    (p = true <-> exists m sub, In m (n :: names) /\ closed_in closed m = true /\ map_get m (b_subs s) = Some sub /\ matches (sub_filter sub) str = true) /\
    (p = false -> publish_loop Compile MatchString names str (MkB (map_set n (MkSub f st) (b_subs s)) chans (b_blocked s)) = Ok s')).
  { intros st chans Ho. specialize (IH (MkB (map_set n (MkSub f st) (b_subs s)) chans (b_blocked s)) Hnd).
    destruct (cpublish_loop Compile MatchString names str closed (MkB (map_set n (MkSub f st) (b_subs s)) chans (b_blocked s))) as [s' p].
    destruct IH as (I1 & I2 & I3 & I4 & I5).
    { intros m Hm. cbn [b_subs]. rewrite map_get_set. destruct (String.eqb m n); [discriminate|]. apply Hin. right. exact Hm. }
    cbn [b_subs b_blocked] in *. rewrite map_keys_set, E in I1. split; [exact I1|]. split; [exact I2|].
    split; [intros ch cur H; apply I3, Ek, H|]. split; [|exact I5]. rewrite I4. split.
    - intros (m & sub' & Hm & Hc & Hg & Ha). rewrite map_get_set in Hg. destruct (String.eqb_spec m n) as [->|_]; [contradiction|].
      exists m, sub'. split; [right; exact Hm|]. auto.
    - intros (m & sub' & [<-|Hm] & Hc & Hg & Ha).
      + rewrite E in Hg. injection Hg as <-. rewrite Em in Ha. rewrite (Ho Ha) in Hc. discriminate.
      + exists m, sub'. split; [exact Hm|]. split; [exact Hc|]. split; [|exact Ha]. rewrite map_get_set.
        destruct (String.eqb_spec m n) as [->|_]; [contradiction|exact Hg]. }
  destruct allowed; cbn [negb]; [|apply K; discriminate].
  destruct (closed_in closed n) eqn:Ec; [|destruct (try_send (b_chans s n) str) as [c|]; apply K; reflexivity].
  clear K IH. cbn [b_subs b_blocked]. split; [rewrite map_keys_set, E; reflexivity|]. split; [reflexivity|]. split; [apply Ek|]. split; [|discriminate].
  split; [|reflexivity]. intros _. exists n, sub. split; [left; reflexivity|]. auto.
Qed.

Lemma keys_inv (s s' : bstate RE) : inv s -> map_keys (b_subs s') = map_keys (b_subs s) -> b_blocked s' = b_blocked s -> inv s'.
Proof.
  intros (H1 & H2 & H3) E1 E2. unfold inv. rewrite E1, E2. split; [exact H1|]. split; [exact H2|]. intros ch. rewrite H3, !map_get_in, E1. tauto.
Qed.
Definition all_ok (h : list cop) (s : cstate RE) : Prop :=
  inv (c_b s) /\ (forall ch, sub_ok (subscription ch (ops h)) (view_of ch (c_b s))) /\ (forall ch, closed_in (c_closed s) ch = true <-> In (CClose ch) h).

(** What is visited in a publish. *)
Lemma visited order (s : bstate RE) : is_order order -> inv s ->
  NoDup (order (map_keys (b_subs s))) /\ (forall n, In n (order (map_keys (b_subs s))) <-> map_get n (b_subs s) <> None).
Proof.
  intros Ho (H1 & _). split; [eapply Permutation_NoDup; [symmetry; apply Ho|exact H1]|]. intros n. rewrite map_get_in.
  split; apply Permutation_in; [apply Ho|symmetry; apply Ho].
Qed.
Lemma publish_ok h order tr s : is_order order -> all_ok h s ->
  let '(s', r) := cPublish Compile MatchString order (Ok tr) s in
  all_ok (h ++ [COp (BPublish order (Ok tr))]) s' /\
  (r = RPanic <-> exists ch f, In (CClose ch) h /\ subscription ch (ops h) = Some f /\ matches f tr = true) /\
  (r <> RPanic -> r = RNone /\ M_Broker.Publish Compile MatchString order (Ok tr) (c_b s) = Ok (c_b s')).
Proof.
  intros Ho (A1 & A2 & A3).
  assert (Hcl : forall s' : cstate RE, c_closed s' = c_closed s -> forall ch, closed_in (c_closed s') ch = true <-> In (CClose ch) (h ++ [COp (BPublish order (Ok tr))])).
  { intros s' -> ch. rewrite A3, in_app_iff. cbn [In]. split; [auto|]. intros [H|[H|[]]]; [exact H|discriminate]. }
  unfold cPublish, M_Broker.Publish. destruct (zlen (b_subs (c_b s)) <=? 0) eqn:Ez.
  - assert (Es : b_subs (c_b s) = []) by (destruct (b_subs (c_b s)); [reflexivity|unfold zlen in Ez; cbn [length] in Ez; lia]).
    split; [|split; [split; [discriminate|]|intros _; split; reflexivity]].
    + split; [exact A1|]. split; [|apply Hcl; reflexivity]. intros ch. rewrite ops_snoc, subscription_snoc. cbn [sub_after]. apply A2.
    + intros (ch & f & _ & Hs & _). specialize (A2 ch). rewrite Hs in A2. unfold L_Broker.sub_ok, view_of in A2. rewrite Es in A2. destruct A2.
  - cbn [bind]. destruct (visited order (c_b s) Ho A1) as [V1 V2].
    pose proof (cloop_spec tr (c_closed s) (order (map_keys (b_subs (c_b s)))) (c_b s) V1 (fun n => proj1 (V2 n))) as L.
    destruct (cpublish_loop Compile MatchString (order (map_keys (b_subs (c_b s)))) tr (c_closed s) (c_b s)) as [b p].
    destruct L as (L1 & L2 & L3 & L4 & L5). split; [|split].
    + split; [exact (keys_inv _ _ A1 L1 L2)|]. split; [|apply Hcl; reflexivity]. intros ch. rewrite ops_snoc, subscription_snoc. cbn [sub_after c_b]. apply L3, A2.
    + transitivity (p = true); [destruct p; split; congruence|]. rewrite L4. split.
      * intros (n & sub & Hn & Hc & Hg & Hm). apply A3 in Hc. specialize (A2 n). unfold L_Broker.sub_ok, view_of in A2. cbn [fst] in A2. rewrite Hg in A2.
        destruct (subscription n (ops h)) as [f|] eqn:Ef; [|destruct A2]. exists n, f. split; [exact Hc|]. split; [exact Ef|].
        rewrite <- (like_matches Compile MatchString _ _ tr A2). exact Hm.
      * intros (n & f & Hc & Hs & Hm). apply A3 in Hc. specialize (A2 n). rewrite Hs in A2. unfold L_Broker.sub_ok, view_of in A2. cbn [fst] in A2.
        destruct (map_get n (b_subs (c_b s))) as [sub|] eqn:Eg; [|destruct A2]. exists n, sub. split; [apply V2; congruence|]. split; [exact Hc|].
        split; [exact Eg|]. rewrite (like_matches Compile MatchString _ _ tr A2). exact Hm.
    + intros Hr. destruct p; [contradiction|]. split; [reflexivity|]. apply L5. reflexivity.
Qed.

Lemma other_step h o s : valid_bop o -> all_ok h s ->
  all_ok (h ++ [COp o]) (MkC (fst (b_step (c_b s) o)) (c_closed s)).
Proof.
  intros Hv (A1 & A2 & A3). destruct (step_spec Compile MatchString (c_b s) o Hv A1) as [S1 S2].
  split; [exact S1|]. split; cbn [c_b c_closed].
  - intros ch. rewrite S2, ops_snoc, subscription_snoc. apply sub_ok_step, A2.
  - intros ch. rewrite A3, in_app_iff. cbn [In]. split; [auto|]. intros [H|[H|[]]]; [exact H|discriminate].
Qed.
Lemma cstep_ok h o s : valid_cop o -> all_ok h s -> all_ok (h ++ [o]) (fst (c_step s o)).
Proof.
  intros Hv A. destruct o as [o|c].
  - destruct o as [c f|c|order [tr|]|c|c|c]; cbn [valid_cop] in Hv.
    all: try (pose proof (other_step h _ s Hv A) as H; cbn [M_Close.c_step]; destruct (b_step (c_b s) _) as [b r]; exact H).
    + pose proof (publish_ok h order tr s Hv A) as H. cbn [M_Close.c_step]. destruct (cPublish Compile MatchString order (Ok tr) s) as [s' r]. apply H.
    + pose proof (other_step h (BPublish order Panic) s Hv A) as H. cbn [M_Broker.b_step] in H. cbn [M_Close.c_step].
      unfold cPublish, M_Broker.Publish in *. destruct s as [b cl]. cbn [c_b c_closed] in *.
      destruct (zlen (b_subs b) <=? 0); cbn [bind fst] in *; exact H.
    + cbn [M_Close.c_step]. destruct (closed_in (c_closed s) c && (zlen (ch_buffer (b_chans (c_b s) c)) =? 0)); cbn [fst].
      * destruct A as (A1 & A2 & A3). split; [exact A1|]. split.
        -- intros ch. rewrite ops_snoc, subscription_snoc. cbn [sub_after]. apply A2.
        -- intros ch. rewrite A3, in_app_iff. cbn [In]. split; [auto|]. intros [H|[H|[]]]; [exact H|discriminate].
      * pose proof (other_step h (BReceive c) s Logic.I A) as H. destruct (b_step (c_b s) (BReceive c)) as [b r]. exact H.
  - destruct A as (A1 & A2 & A3). cbn [M_Close.c_step]. destruct (closed_in (c_closed s) c) eqn:Ec; cbn [fst].
    + split; [exact A1|]. split; [intros ch; rewrite ops_snoc, app_nil_r; apply A2|].
      intros ch. rewrite A3, in_app_iff. cbn [In]. split; [auto|]. intros [H|[H|[]]]; [exact H|]. injection H as <-. apply A3. exact Ec.
    + split; [exact A1|]. split; [intros ch; rewrite ops_snoc, app_nil_r; apply A2|].
      intros ch. cbn [c_closed]. unfold closed_in. cbn [existsb]. rewrite orb_true_iff. change (existsb (String.eqb ch) (c_closed s)) with (closed_in (c_closed s) ch).
      rewrite A3, in_app_iff, String.eqb_eq. cbn [In]. split; [intros [->|H]; auto|]. intros [H|[H|[]]]; [auto|injection H as <-; auto].
Qed.
Lemma crun_ok caps h : Forall valid_cop h -> all_ok h (c_run caps h).
Proof.
  induction h as [|o h IH] using rev_ind; intros Hv.
  - split; [apply inv_init|]. split; [intros ch; exact Logic.I|]. intros ch. cbn. split; [discriminate|intros []].
  - apply Forall_app in Hv as [Hv Ho]. inversion Ho; subst. rewrite crun_snoc. apply cstep_ok; auto.
Qed.

(** C82.  Publishing a trace panics in exactly these histories: somebody has closed a channel
    whose subscription is still active (or that was subscribed to when it was closed
    already), and the filter of the subscription accepts the trace. *)
Theorem C82_publishing_panics_exactly_if :
  forall caps h, Forall valid_cop h -> forall order tr, is_order order ->
    (snd (c_step (c_run caps h) (COp (BPublish order (Ok tr)))) = RPanic <->
     exists ch f, In (CClose ch) h /\ subscription ch (ops h) = Some f /\ matches f tr = true).
Proof.
  intros caps h Hv order tr Ho. pose proof (publish_ok h order tr _ Ho (crun_ok caps h Hv)) as H. cbn [M_Close.c_step].
  destruct (cPublish Compile MatchString order (Ok tr) (c_run caps h)) as [s' r]. apply H.
Qed.

(** And closing a channel panics exactly if it was closed before, so never in a polite history. *)
Theorem C82_closing_panics_exactly_if :
  forall caps h, Forall valid_cop h -> forall ch,
    (snd (c_step (c_run caps h) (CClose ch)) = RPanic <-> In (CClose ch) h).
Proof.
  intros caps h Hv ch. destruct (crun_ok caps h Hv) as (_ & _ & H). rewrite <- (H ch). cbn [M_Close.c_step].
  destruct (closed_in (c_closed (c_run caps h)) ch); cbn [snd]; split; congruence.
Qed.

Lemma polite_prefix (h : list cop) o : polite (h ++ [o]) -> polite h.
Proof.
  intros P h1 ch h2 ->. destruct (P h1 ch (h2 ++ [o])) as (P1 & P2 & P3); [rewrite <- app_assoc; reflexivity|].
  split; [exact P1|]. split; [exact P2|]. intros f Hf. apply (P3 f). apply in_or_app. auto.
Qed.
(** A closed channel has no subscription in a polite history. *)
Lemma none_stays ch : forall h2 (cur : option (Filter RE)), cur = None -> (forall f, ~ In (COp (BStream ch f)) h2) -> fold_left (sub_after ch) (ops h2) cur = None.
Proof.
  induction h2 as [|o h2 IH]; intros cur -> H; [reflexivity|]. unfold ops. cbn [flat_map]. rewrite fold_left_app. apply IH.
  - destruct o as [o|c]; [|reflexivity]. cbn [fold_left]. destruct o as [c f|c|order str|c|c|c]; cbn [sub_after]; try reflexivity.
    + destruct (String.eqb_spec c ch) as [->|]; [|reflexivity]. exfalso. apply (H f). left. reflexivity.
    + destruct (String.eqb c ch); reflexivity.
  - intros f Hf. apply (H f). right. exact Hf.
Qed.
Lemma polite_closed (h : list cop) ch : polite h -> In (CClose ch) h -> subscription ch (ops h) = None.
Proof.
  intros P Hc. apply in_split in Hc as (h1 & h2 & E). destruct (P _ _ _ E) as (P1 & P2 & P3). rewrite E. unfold ops, subscription.
  rewrite flat_map_app, fold_left_app. cbn [flat_map app]. change (flat_map _ h2) with (ops h2). apply none_stays; [exact P1|exact P3].
Qed.

(** The same subscriptions and the same contents; on open channels, everything is the same. *)
Definition same_but_waiting (c c' : chan) : Prop := ch_cap c = ch_cap c' /\ ch_buffer c = ch_buffer c' /\ ch_received c = ch_received c'.
Lemma sub_view_none ch (h : list bop) s : subscription ch h = None -> sub_ok (subscription ch h) (view_of ch s) -> map_get ch (b_subs s) = None.
Proof. intros E. rewrite E. unfold L_Broker.sub_ok, view_of. cbn [fst]. destruct (map_get ch (b_subs s)); [intros []|reflexivity]. Qed.
Definition twins (h : list cop) (s s0 : bstate RE) : Prop :=
  forall ch, map_get ch (b_subs s) = map_get ch (b_subs s0) /\ same_but_waiting (b_chans s ch) (b_chans s0 ch) /\
    (~ In (CClose ch) h -> b_chans s ch = b_chans s0 ch).
Lemma step1_waiting o v v0 : fst v = None -> fst v0 = None -> same_but_waiting (snd v) (snd v0) -> (forall f, o <> OwnStream f) ->
  fst (step1 Compile MatchString v o) = None /\ fst (step1 Compile MatchString v0 o) = None /\
  same_but_waiting (snd (step1 Compile MatchString v o)) (snd (step1 Compile MatchString v0 o)).
Proof.
  intros E E0 W Hs. pose proof W as (W1 & W2 & W3). destruct v as [sv c], v0 as [sv0 c0]. cbn [fst snd] in *. subst sv sv0.
  destruct o as [f| |str| |]; [exfalso; exact (Hs _ eq_refl)|..]; cbn [step1 fst snd]; unfold deliver; cbn [fst snd]; do 2 (split; [reflexivity|]); try exact W.
  - unfold receive. rewrite W2. destruct (ch_buffer c0); repeat split; cbn; congruence.
  - unfold give_up. destruct (0 <? ch_waiting c), (0 <? ch_waiting c0); repeat split; cbn; congruence.
Qed.
Lemma steps_waiting os : forall v v0, fst v = None -> fst v0 = None -> same_but_waiting (snd v) (snd v0) -> (forall f, ~ In (OwnStream f) os) ->
  fst (fold_left (step1 Compile MatchString) os v) = None /\ fst (fold_left (step1 Compile MatchString) os v0) = None /\
  same_but_waiting (snd (fold_left (step1 Compile MatchString) os v)) (snd (fold_left (step1 Compile MatchString) os v0)).
Proof.
  induction os as [|o os IH]; intros v v0 E E0 W H; [auto|]. cbn [fold_left].
  destruct (step1_waiting o v v0 E E0 W) as (A & B & C); [intros f ->; apply (H f); left; reflexivity|].
  apply IH; auto. intros f Hf. apply (H f). right. exact Hf.
Qed.
Lemma own_stream ch (o : bop) f : In (OwnStream f) (own1 ch o) -> o = BStream ch f.
Proof.
  destruct o as [c g|c|order [str|]|c|c|c]; cbn [own1]; intros H.
  all: try (destruct (String.eqb_spec c ch) as [->|]; [|destruct H]).
  all: try destruct H as [H|[]]; try discriminate H; try (destruct H; fail).
  injection H as ->. reflexivity.
Qed.
Lemma twins_views h closed (s s0 s' s0' : bstate RE) (o : bop) : polite (h ++ [COp o]) ->
  (forall ch, closed_in closed ch = true <-> In (CClose ch) h) ->
  (forall ch, sub_ok (subscription ch (ops h)) (view_of ch s)) ->
  (forall ch, (closed_in closed ch = false -> view_of ch s' = fold_left (step1 Compile MatchString) (own1 ch o) (view_of ch s)) /\
              (closed_in closed ch = true -> fst (view_of ch s') = fst (fold_left (step1 Compile MatchString) (own1 ch o) (view_of ch s)) /\
                 same_but_waiting (b_chans s' ch) (snd (fold_left (step1 Compile MatchString) (own1 ch o) (view_of ch s))))) ->
  (forall ch, view_of ch s0' = fold_left (step1 Compile MatchString) (own1 ch o) (view_of ch s0)) ->
  twins h s s0 -> twins (h ++ [COp o]) s' s0'.
Proof.
  intros P A3 A V V0 T ch. destruct (V ch) as [Vo Vc]. specialize (V0 ch). destruct (T ch) as (T1 & T2 & T3).
  destruct (closed_in closed ch) eqn:Ec.
  - specialize (Vc eq_refl). clear Vo. apply A3 in Ec.
    assert (Es : subscription ch (ops h) = None) by (apply polite_closed; [exact (polite_prefix _ _ P)|exact Ec]).
    pose proof (sub_view_none ch _ s Es (A ch)) as N.
    destruct (steps_waiting (own1 ch o) (view_of ch s) (view_of ch s0)) as (W1 & W2 & W3).
    + exact N.
    + unfold view_of. cbn [fst]. rewrite <- T1. exact N.
    + exact T2.
    + intros f Hf. apply own_stream in Hf. subst o. apply in_split in Ec as (h1 & h2 & ->).
      destruct (P h1 ch (h2 ++ [COp (BStream ch f)])) as (_ & _ & P3); [rewrite <- app_assoc; reflexivity|]. apply (P3 f). apply in_or_app. right. left. reflexivity.
    + destruct Vc as [Vc1 Vc2]. rewrite W1 in Vc1. unfold view_of in Vc1. cbn [fst] in Vc1. rewrite Vc1. split; [|split].
      * rewrite <- V0 in W2. symmetry. exact W2.
      * rewrite <- V0 in W3. destruct Vc2 as (X1 & X2 & X3), W3 as (Y1 & Y2 & Y3). cbn [snd view_of] in Y1, Y2, Y3. repeat split; congruence.
      * intros Hn. exfalso. apply Hn. apply in_or_app. left. exact Ec.
  - specialize (Vo eq_refl). clear Vc. assert (Hn : ~ In (CClose ch) h) by (rewrite <- A3; congruence).
    assert (Ev : view_of ch s = view_of ch s0) by (unfold view_of; rewrite T1, (T3 Hn); reflexivity).
    rewrite Ev, <- V0 in Vo. unfold view_of in Vo. injection Vo as -> ->. split; [reflexivity|]. split; [repeat split|reflexivity].
Qed.

Lemma no_panic h s order tr : polite h -> is_order order -> all_ok h s ->
  exists b, c_step s (COp (BPublish order (Ok tr))) = (MkC b (c_closed s), RNone) /\ inv b /\
            forall ch, view_of ch b = deliver Compile MatchString (view_of ch (c_b s)) tr.
Proof.
  intros P Ho A. pose proof (publish_ok h order tr s Ho A) as H. pose proof A as (A1 & A2 & A3). cbn [M_Close.c_step].
  destruct (cPublish Compile MatchString order (Ok tr) s) as [s' r] eqn:E. destruct H as (H1 & H2 & H3).
  destruct H3 as [-> H3].
  { intros Hr. apply H2 in Hr. destruct Hr as (ch & f & Hc & Hs & _). rewrite (polite_closed h ch P Hc) in Hs. discriminate. }
  destruct (Publish_spec Compile MatchString order tr (c_b s) Ho A1) as (b & Hb & Hi & Hview). rewrite Hb in H3. injection H3 as ->.
  exists (c_b s'). split; [|split; assumption]. assert (c_closed s' = c_closed s) as <-; [|destruct s'; reflexivity].
  unfold cPublish in E. destruct (zlen (b_subs (c_b s)) <=? 0); [injection E as <-; reflexivity|].
  destruct (cpublish_loop Compile MatchString (order (map_keys (b_subs (c_b s)))) tr (c_closed s) (c_b s)) as [b p]. injection E as <- _. reflexivity.
Qed.

Lemma twins_step h o s s0 : valid_cop o -> polite (h ++ [o]) -> all_ok h s -> inv s0 -> twins h (c_b s) s0 ->
  twins (h ++ [o]) (c_b (fst (c_step s o))) (fold_left (fun s o => fst (b_step s o)) (ops [o]) s0).
Proof.
  intros Hv P A I0 T. pose proof A as (A1 & A2 & A3). destruct o as [o|c].
  - cbn [ops flat_map app fold_left]. cbn [valid_cop] in Hv. destruct (step_spec Compile MatchString s0 o Hv I0) as [_ V0].
    destruct (step_spec Compile MatchString (c_b s) o Hv A1) as [_ V].
    assert (G : forall s', (forall ch, view_of ch s' = view_of ch (fst (b_step (c_b s) o))) -> twins (h ++ [COp o]) s' (fst (b_step s0 o))).
    { intros s' E. refine (twins_views h (c_closed s) (c_b s) s0 s' _ o P A3 A2 _ V0 T). intros ch. split; intros _.
      - rewrite E. apply V.
      - rewrite E, V. split; [reflexivity|]. specialize (E ch). rewrite V in E. rewrite <- E. repeat split. }
    destruct o as [c f|c|order [tr|]|c|c|c]; cbn [M_Close.c_step].
    all: try (specialize (G (fst (b_step (c_b s) _)) (fun _ => eq_refl)); destruct (b_step (c_b s) _) as [b r]; exact G).
    + destruct (no_panic h s order tr (polite_prefix _ _ P) Hv A) as (b & Eb & _ & Vb). cbn [M_Close.c_step] in Eb. rewrite Eb. cbn [fst c_b].
      apply G. intros ch. rewrite V, Vb. reflexivity.
    + apply G. intros ch. rewrite V. unfold cPublish. destruct (zlen (b_subs (c_b s)) <=? 0); reflexivity.
    + destruct (closed_in (c_closed s) c && (zlen (ch_buffer (b_chans (c_b s) c)) =? 0)) eqn:Eb.
      * apply andb_prop in Eb as [Ec Eb]. cbn [fst]. refine (twins_views h (c_closed s) (c_b s) s0 _ _ (BReceive c) P A3 A2 _ V0 T).
        intros ch. cbn [own1]. destruct (String.eqb_spec c ch) as [->|]; [|split; intros _; [reflexivity|split; [reflexivity|repeat split]]].
        split; [congruence|]. intros _. cbn [fold_left step1 fst snd view_of]. split; [reflexivity|].
        unfold receive. destruct (ch_buffer (b_chans (c_b s) ch)) eqn:Ez; [|unfold zlen in Eb; cbn [length] in Eb; lia]. repeat split. exact Ez.
      * specialize (G (fst (b_step (c_b s) (BReceive c))) (fun _ => eq_refl)). destruct (b_step (c_b s) (BReceive c)) as [b r]. exact G.
  - cbn [ops flat_map app fold_left M_Close.c_step]. destruct (P h c [] eq_refl) as (_ & P2 & _).
    destruct (closed_in (c_closed s) c) eqn:Ec; [apply A3 in Ec; contradiction|]. cbn [fst c_b]. intros ch. destruct (T ch) as (T1 & T2 & T3).
    cbn [b_subs b_chans]. unfold set_chan. destruct (String.eqb_spec ch c) as [->|Hne].
    + split; [exact T1|]. split; [destruct T2 as (X & Y & Z); repeat split; assumption|]. intros Hn. exfalso. apply Hn. apply in_or_app. right. left. reflexivity.
    + split; [exact T1|]. split; [exact T2|]. intros Hn. apply T3. intros H. apply Hn. apply in_or_app. left. exact H.
Qed.
Lemma valid_ops (h : list cop) : Forall valid_cop h -> Forall valid_bop (ops h).
Proof. induction 1 as [|[o|c] h Ho _ IH]; cbn; [constructor|constructor; assumption|exact IH]. Qed.
Lemma twins_run caps h : Forall valid_cop h -> polite h -> twins h (c_b (c_run caps h)) (b_run caps (ops h)).
Proof.
  induction h as [|o h IH] using rev_ind; intros Hv P.
  - intros ch. split; [reflexivity|]. split; [repeat split|reflexivity].
  - apply Forall_app in Hv as [Hv Ho]. inversion Ho as [|? ? Ho' _]; subst. rewrite crun_snoc, ops_snoc.
    assert (b_run caps (ops h ++ match o with COp o => [o] | CClose _ => [] end) = fold_left (fun s o => fst (b_step s o)) (ops [o]) (b_run caps (ops h))) as ->.
    { unfold M_Broker.b_run. rewrite fold_left_app. destruct o; reflexivity. }
    apply twins_step; auto; [apply crun_ok; exact Hv|apply run_inv; apply valid_ops; exact Hv|]. apply IH; [exact Hv|exact (polite_prefix _ _ P)].
Qed.

(** C82.  Who closes a channel after Stream has returned is safe: every call returns what it
    returns when nobody closes anything (so C34 to C37 hold as they are), no call panics
    because of it, and the channels get the same traces. *)
Theorem C82_closing_after_Stream_is_safe :
  forall caps h, Forall valid_cop h -> polite h ->
    (forall o, valid_bop o -> polite (h ++ [COp o]) ->
       snd (c_step (c_run caps h) (COp o)) = snd (b_step (b_run caps (ops h)) o)) /\
    (forall order tr, is_order order -> snd (c_step (c_run caps h) (COp (BPublish order (Ok tr)))) = RNone) /\
    (forall ch, polite (h ++ [CClose ch]) -> snd (c_step (c_run caps h) (CClose ch)) = RNone) /\
    (forall ch, delivered (b_chans (c_b (c_run caps h)) ch) = delivered (b_chans (b_run caps (ops h)) ch)).
Proof.
  intros caps h Hv P. pose proof (twins_run caps h Hv P) as T. pose proof (crun_ok caps h Hv) as A. pose proof A as (A1 & A2 & A3).
  pose proof (run_inv Compile MatchString caps (ops h) (valid_ops h Hv)) as I0.
  set (s := c_run caps h) in *. set (s0 := b_run caps (ops h)) in *. clearbody s s0. split; [|split; [|split]].
  - intros o Ho Po. destruct o as [c f|c|order [tr|]|c|c|c].
    + cbn [M_Close.c_step M_Broker.b_step]. unfold Stream_begin. destruct (T c) as (<- & _). destruct (map_get c (b_subs (c_b s))); reflexivity.
    + assert (E : existsb (String.eqb c) (b_blocked (c_b s)) = existsb (String.eqb c) (b_blocked s0)).
      { apply Bool.eq_iff_eq_true. rewrite !existsb_eqb_In. destruct A1 as (_ & _ & ->), I0 as (_ & _ & ->). destruct (T c) as (-> & _). reflexivity. }
      cbn [M_Close.c_step M_Broker.b_step]. rewrite E. destruct (existsb (String.eqb c) (b_blocked s0)); [|reflexivity].
      unfold Stream_end. cbn [b_subs]. destruct (T c) as (<- & _). destruct (map_get c (b_subs (c_b s))); reflexivity.
    + destruct (no_panic h s order tr P Ho A) as (b & -> & _). destruct (Publish_spec Compile MatchString order tr s0 Ho I0) as (b0 & Eb & _).
      cbn [M_Broker.b_step snd]. rewrite Eb. reflexivity.
    + cbn [M_Close.c_step M_Broker.b_step]. unfold cPublish, M_Broker.Publish.
      assert (E : (zlen (b_subs (c_b s)) <=? 0) = (zlen (b_subs s0) <=? 0)).
      { destruct (b_subs (c_b s)) as [|[n x] l] eqn:Es, (b_subs s0) as [|[n0 x0] l0] eqn:Es0; try reflexivity; exfalso.
        - destruct (T n0) as (E & _). rewrite Es, Es0 in E. cbn in E. rewrite String.eqb_refl in E. discriminate.
        - destruct (T n) as (E & _). rewrite Es, Es0 in E. cbn in E. rewrite String.eqb_refl in E. discriminate. }
      rewrite E. destruct (zlen (b_subs s0) <=? 0); reflexivity.
    + cbn [M_Close.c_step M_Broker.b_step snd]. unfold StreamStats_. destruct (T c) as (-> & _). reflexivity.
    + cbn [M_Close.c_step M_Broker.b_step]. destruct (closed_in (c_closed s) c && (zlen (ch_buffer (b_chans (c_b s) c)) =? 0)); reflexivity.
    + reflexivity.
  - intros order tr Ho. destruct (no_panic h s order tr P Ho A) as (b & -> & _). reflexivity.
  - intros ch Pc. destruct (Pc h ch [] eq_refl) as (_ & P2 & _). cbn [M_Close.c_step].
    destruct (closed_in (c_closed s) ch) eqn:Ec; [apply A3 in Ec; contradiction|reflexivity].
  - intros ch. destruct (T ch) as (_ & (_ & E1 & E2) & _). unfold delivered. rewrite E1, E2. reflexivity.
Qed.
End Close.
Print Assumptions C82_publishing_panics_exactly_if.
Print Assumptions C82_closing_panics_exactly_if.
Print Assumptions C82_closing_after_Stream_is_safe.

(** Finding: who closes it before, takes traces from others: the publish panics in the
    goroutine that logs, and a subscriber that comes later in the order of the map, with
    room, gets nothing and no statistics. *)
Definition c82_history : list (cop string) :=
  [COp (BStream "a" no_filter); COp (BStream "b" no_filter); CClose "a"; COp (demo_pub "1" true)].
Theorem C82_closing_before_takes_from_others_refuted :
  exists (h : list (cop string)) caps, Forall valid_cop h /\ caps "b" = 1 /\
    subscription "b" (ops h) = Some no_filter /\ zlen (published (ops h)) = 1 /\
    (forall tr, snd (Allow demo_compile demo_match no_filter tr) = true) /\
    let s := c_run demo_compile demo_match caps h in
    delivered (b_chans (c_b s) "b") = [] /\
    snd (c_step demo_compile demo_match s (COp (BStats "b"))) = RStats (MkStreamStats 0 0 0).
Proof.
  exists (COp (BStream "b" no_filter) :: COp (BStream "a" no_filter) :: skipn 2 c82_history), (fun _ => 1).
  split; [repeat constructor; intros l; symmetry; apply Permutation_rev|]. vm_compute. auto 10.
Qed.
Print Assumptions C82_closing_before_takes_from_others_refuted.

(** The idiom of the repository's tests: Stream, then close; somebody else goes on. *)
Example C82_instance :
  let h := [COp (BStream "a" no_filter); COp (BStream "b" no_filter); COp (demo_pub "1" true); COp (BDone "a"); CClose "a"; COp (demo_pub "2" true);
            COp (BReceive "a"); COp (BReceive "a"); COp (BReceive "b"); COp (demo_pub "3" true)] in
  Forall valid_cop h /\ polite h /\
  map TraceID (delivered (b_chans (c_b (c_run demo_compile demo_match (fun _ => 2) h)) "a")) = ["1"] /\
  map TraceID (delivered (b_chans (c_b (c_run demo_compile demo_match (fun _ => 2) h)) "b")) = ["1"; "2"; "3"] /\
  (exists ch f, In (CClose ch) c82_history /\ subscription ch (ops c82_history) = Some f /\ Forall valid_cop c82_history).
Proof.
  cbv zeta. split; [repeat constructor; intros l; symmetry; apply Permutation_rev|]. split.
  - intros h1 ch h2 E. do 10 (destruct h1 as [|? h1]; [cbn [app] in E; first [discriminate E|injection E as <- <-; split; [reflexivity|]; split; [intros H; cbn in H; repeat (destruct H as [H|H]; [discriminate|]); exact H|intros f H; cbn in H; repeat (destruct H as [H|H]; [discriminate|]); exact H]]|cbn [app] in E; injection E as <- E]).
    destruct h1; discriminate.
  - split; [vm_compute; reflexivity|]. split; [vm_compute; reflexivity|]. exists "a", no_filter. split; [right; right; left; reflexivity|]. split; [reflexivity|].
    repeat constructor; intros l; symmetry; apply Permutation_rev.
Qed.

(** C85: the searcher and the streamer that a server uses. *)
From Verif Require Import Go M_Server S_Server.
From Coq Require Import Lia.
Open Scope list_scope.
Open Scope nat_scope.

Lemma field_eq (f g : fieldname) : {f = g} + {f <> g}.
Proof. decide equality. Qed.
Lemma get_put f g v s : get f (put g v s) = if field_eq f g then v else get f s.
Proof. destruct f, g, (field_eq _ _); try congruence; reflexivity. Qed.
Lemma put_Collector g v s : s_Collector (put g v s) = s_Collector s.
Proof. destruct g; reflexivity. Qed.
Lemma nth_replace i q : forall l j p, nth_error l i = Some p -> nth_error (replace i q l) j = if Nat.eq_dec j i then Some q else nth_error l j.
Proof.
  induction i as [|i IH]; intros [|x l] j p E; cbn in E; try discriminate.
  - destruct j; reflexivity.
  - destruct j as [|j]; [reflexivity|]. cbn [replace nth_error]. rewrite (IH l j p E). destruct (Nat.eq_dec j i), (Nat.eq_dec (S j) (S i)); congruence || reflexivity.
Qed.
Lemma not_streamer f : f <> FStreamer -> f = FSearcher.
Proof. destruct f; congruence. Qed.
Lemma iface_eta v : MkIface (i_type v) (i_data v) = v.
Proof. destruct v. reflexivity. Qed.
Lemma is_nil_spec t : is_nil t = true <-> t = TNil.
Proof. destruct t; cbn; intuition discriminate. Qed.

(** What a step does: it changes one request and the server. *)
Lemma step_spec w i : step w i = w \/ exists q, nth_error (w_requests w) i = Some q /\
  w_server (step w i) = snd (step_request q (w_server w)) /\
  (forall j, nth_error (w_requests (step w i)) j = if Nat.eq_dec j i then Some (fst (step_request q (w_server w))) else nth_error (w_requests w) j).
Proof.
  unfold step. destruct (nth_error (w_requests w) i) as [q|] eqn:E; [|left; reflexivity]. right. exists q. split; [reflexivity|].
  destruct (step_request q (w_server w)) as [q' s']. cbn. split; [reflexivity|]. intros j. apply (nth_replace i q' _ j q E).
Qed.

(** ** A field that has its value *)
Section Settled.
Variables (f : fieldname) (v : iface) (c0 : option nat).
Definition settled_at (q : request) : Prop :=
  match q_place q with
  | PLoadCollector g => g = f -> v = of_collector c0
  | PStore1 g c | PStore2 g c => g = f -> v = of_collector c0 /\ c = c0
  | PType t => q_field q = f -> t = i_type v
  | PData d => q_field q = f -> d = i_data v
  | _ => True
  end.
Record settled (w : world) : Prop := {
  k_collector : s_Collector (w_server w) = c0;
  k_value : get f (w_server w) = v;
  k_provided : i_type v <> TNil;
  k_requests : forall i q, nth_error (w_requests w) i = Some q -> settled_at q
}.
Lemma settled_request q s : s_Collector s = c0 -> get f s = v -> i_type v <> TNil -> settled_at q ->
  let '(q', s') := step_request q s in
  s_Collector s' = c0 /\ get f s' = v /\ settled_at q' /\ q_field q' = q_field q /\
  exists new, q_served q' = new ++ q_served q /\ (q_field q = f -> Forall (eq v) new).
Proof.
  intros HC HV HP HQ. unfold step_request. destruct q as [qf so lo calls pl served]. cbn [q_field q_type_first_store q_type_first_load q_calls q_place q_served at_place] in *. unfold settled_at in HQ. cbn [q_field q_place] in HQ.
  assert (NONE : forall l : list iface, exists new, l = new ++ l /\ (qf = f -> Forall (eq v) new)) by (intros l; exists []; split; [reflexivity|intros _; constructor]).
  destruct pl as [g|g|g c|g c| |t|d]; cbn [q_served q_field].
  - split; [exact HC|]. split; [exact HV|]. split; [|split; [reflexivity|apply NONE]]. unfold settled_at. cbn [at_place q_place].
    destruct (is_nil (i_type (get g s))) eqn:E; [|destruct g; exact Logic.I]. intros ->. exfalso. rewrite HV in E. apply is_nil_spec in E. contradiction.
  - split; [exact HC|]. split; [exact HV|]. split; [|split; [reflexivity|apply NONE]]. unfold settled_at. cbn [at_place q_place]. auto.
  - split; [destruct so; unfold store_type, store_data; rewrite put_Collector; exact HC|]. split; [|split; [exact HQ|split; [reflexivity|apply NONE]]].
    destruct so; unfold store_type, store_data; rewrite get_put; destruct (field_eq f g) as [<-|N]; try exact HV; destruct (HQ eq_refl) as [HV1 HC1]; rewrite HV, HV1; subst c; reflexivity.
  - split; [destruct so; unfold store_type, store_data; rewrite put_Collector; exact HC|]. split; [|split; [destruct g; exact Logic.I|split; [reflexivity|apply NONE]]].
    destruct so; unfold store_type, store_data; rewrite get_put; destruct (field_eq f g) as [<-|N]; try exact HV; destruct (HQ eq_refl) as [HV1 HC1]; rewrite HV, HV1; subst c; reflexivity.
  - destruct calls; (split; [exact HC|]; split; [exact HV|]); [split; [exact Logic.I|split; [reflexivity|apply NONE]]|].
    split; [|split; [reflexivity|apply NONE]]. unfold settled_at. cbn [at_place q_place q_field]. destruct lo; cbn; intros ->; rewrite HV; reflexivity.
  - split; [exact HC|]. split; [exact HV|]. split; [exact Logic.I|]. split; [reflexivity|]. eexists [_]. split; [reflexivity|]. intros ->. constructor; [|constructor]. rewrite (HQ eq_refl), HV. symmetry. apply iface_eta.
  - split; [exact HC|]. split; [exact HV|]. split; [exact Logic.I|]. split; [reflexivity|]. eexists [_]. split; [reflexivity|]. intros ->. constructor; [|constructor]. rewrite (HQ eq_refl), HV. symmetry. apply iface_eta.
Qed.
(** Later: the request of the same number, and the values it called methods on since. *)
Definition since (w w' : world) : Prop :=
  forall i q', nth_error (w_requests w') i = Some q' -> exists q new, nth_error (w_requests w) i = Some q /\ q_field q' = q_field q /\ q_served q' = new ++ q_served q /\ (q_field q = f -> Forall (eq v) new).
Lemma settled_step w i : settled w -> settled (step w i) /\ since w (step w i).
Proof.
  intros K. destruct (step_spec w i) as [->|(q & E & ES & EN)].
  - split; [exact K|]. intros j q E. exists q, []. split; [exact E|]. split; [reflexivity|]. split; [reflexivity|]. intros _. constructor.
  - pose proof (settled_request q (w_server w) (k_collector _ K) (k_value _ K) (k_provided _ K) (k_requests _ K i q E)) as H.
    destruct (step_request q (w_server w)) as [q1 s1]. cbn [fst snd] in *. destruct H as (H1 & H2 & H3 & H4 & new & H5 & H6). split.
    + constructor; [rewrite ES; exact H1|rewrite ES; exact H2|apply K|]. intros j p EP. rewrite EN in EP. destruct (Nat.eq_dec j i); [injection EP as <-; exact H3|exact (k_requests _ K j p EP)].
    + intros j p EP. rewrite EN in EP. destruct (Nat.eq_dec j i) as [->|N].
      * injection EP as <-. exists q, new. auto.
      * exists p, []. split; [exact EP|]. split; [reflexivity|]. split; [reflexivity|]. intros _. constructor.
Qed.
Lemma settled_run sched : forall w, settled w -> settled (run sched w) /\ since w (run sched w).
Proof.
  induction sched as [|i sched IH]; intros w K.
  - split; [exact K|]. intros j q E. exists q, []. split; [exact E|]. split; [reflexivity|]. split; [reflexivity|]. intros _. constructor.
  - destruct (settled_step w i K) as [K1 S1]. destruct (IH _ K1) as [K2 S2]. split; [exact K2|]. intros j q2 E2.
    destruct (S2 j q2 E2) as (q1 & n2 & E1 & F2 & V2 & A2). destruct (S1 j q1 E1) as (q & n1 & E & F1 & V1 & A1). exists q, (n2 ++ n1). split; [exact E|]. split; [congruence|].
    split; [rewrite V2, V1, app_assoc; reflexivity|]. intros F. apply Forall_app. split; [apply A2; congruence|exact (A1 F)].
Qed.
End Settled.

Lemma serving_request s l i q : nth_error (w_requests (serving s l)) i = Some q -> q_place q = PCheck FSearcher /\ q_served q = [].
Proof. cbn. intros E. apply nth_error_In, in_map_iff in E as ([[f [so lo]] n] & <- & _). split; reflexivity. Qed.
Lemma settled_start f s l : provided (get f s) -> settled f (get f s) (s_Collector s) (serving s l).
Proof.
  intros P. constructor; try reflexivity; [exact P|]. intros i q E. unfold settled_at. rewrite (proj1 (serving_request s l i q E)). exact Logic.I.
Qed.
Lemma served_settled f s l sched i q v : provided (get f s) -> nth_error (w_requests (run sched (serving s l))) i = Some q -> q_field q = f -> In v (q_served q) -> v = get f s.
Proof.
  intros P E F I. destruct (settled_run f _ _ sched _ (settled_start f s l P)) as [_ S1]. destruct (S1 i q E) as (q0 & new & E0 & F0 & V & A).
  rewrite (proj2 (serving_request s l i q0 E0)), app_nil_r in V. rewrite V in I. symmetry. exact (proj1 (Forall_forall _ _) (A ltac:(congruence)) v I).
Qed.

(** A server whose Searcher and Streamer are provided, or that was made by NewTraceServer, is
    never written: every request, in every schedule, uses the values it was configured with,
    and there is no data race. *)
Theorem C85_provided :
  forall s l sched, provided (s_Searcher s) -> provided (s_Streamer s) ->
    let w := run sched (serving s l) in
    w_server w = s /\ ~ race w /\
    (forall i q v, nth_error (w_requests w) i = Some q -> In v (q_served q) -> v = get (q_field q) s).
Proof.
  intros s l sched P1 P2. cbn zeta.
  assert (NW : forall sched w, w_server w = s -> (forall i q, nth_error (w_requests w) i = Some q -> match q_place q with PLoadCollector _ | PStore1 _ _ | PStore2 _ _ => False | _ => True end) ->
    w_server (run sched w) = s /\ (forall i q, nth_error (w_requests (run sched w)) i = Some q -> match q_place q with PLoadCollector _ | PStore1 _ _ | PStore2 _ _ => False | _ => True end)).
  { clear sched l. induction sched as [|i sched IH]; intros w ES Q; [auto|]. cbn [run fold_left]. apply IH; destruct (step_spec w i) as [->|(q & E & E1 & E2)]; auto; specialize (Q i q E) as Qq.
    - rewrite E1. unfold step_request. destruct (q_place q) as [g|g|g c|g c| |t|d]; try contradiction; cbn [snd]; try exact ES. destruct (q_calls q); exact ES.
    - intros j p EP. rewrite E2 in EP. destruct (Nat.eq_dec j i); [|exact (Q j p EP)]. injection EP as <-. unfold step_request.
      destruct (q_place q) as [g|g|g c|g c| |t|d] eqn:EQ; try contradiction; cbn [fst at_place q_place]; try exact Logic.I.
      + rewrite ES. assert (NN : is_nil (i_type (get g s)) = false). { destruct (is_nil (i_type (get g s))) eqn:EE; [|reflexivity]. apply is_nil_spec in EE. destruct g; contradiction. } rewrite NN. destruct g; exact Logic.I.
      + destruct (q_calls q); cbn [fst at_place q_place]; [rewrite EQ; exact Logic.I|]. destruct (q_type_first_load q); exact Logic.I. }
  destruct (NW sched (serving s l) eq_refl) as [A B]; [intros i q E; rewrite (proj1 (serving_request s l i q E)); exact Logic.I|]. split; [exact A|]. split.
  - intros (i & j & p & q & x & a & b & _ & E1 & E2 & N1 & N2 & AB).
    assert (RD : forall i q x b, nth_error (w_requests (run sched (serving s l))) i = Some q -> next_access q = Some (x, b) -> b = false).
    { clear - B. intros i q x b E N. specialize (B i q E). unfold next_access in N. destruct (q_place q); try contradiction; try congruence. destruct (q_calls q); congruence. }
    rewrite (RD i p x a E1 N1), (RD j q x b E2 N2) in AB. discriminate.
  - intros i q v E I. apply (served_settled (q_field q) s l sched i q v); auto. destruct (q_field q); assumption.
Qed.
Theorem C85_new :
  forall c l sched, let w := run sched (serving (NewTraceServer c) l) in
    w_server w = NewTraceServer c /\ ~ race w /\
    (forall i q v, nth_error (w_requests w) i = Some q -> In v (q_served q) -> v = MkIface TCollector c /\ (panics v <-> c = None)).
Proof.
  intros c l sched. destruct (C85_provided (NewTraceServer c) l sched) as (A & B & C); [discriminate|discriminate|]. split; [exact A|]. split; [exact B|].
  intros i q v E I. rewrite (C i q v E I). split; [destruct (q_field q); reflexivity|]. unfold panics. destruct (q_field q); cbn; split; try (intros ->; right; reflexivity); (intros [X|X]; [discriminate X|]); unfold of_collector in X; congruence.
Qed.
(** Finding: after a request (or NewTraceServer) the collector of a server can no longer be
    changed: a new value of its field is ignored.  NewTraceServer(nil) is of no use. *)
Theorem C85_later_collector_is_ignored :
  forall s c' l sched,
    let s' := MkServer c' (s_Searcher (initialize s)) (s_Streamer (initialize s)) in
    let w := run sched (serving s' l) in
    forall i q v, nth_error (w_requests w) i = Some q -> In v (q_served q) -> should_use s (q_field q) v.
Proof.
  intros s c' l sched s' w i q v E I.
  assert (U : forall f, should_use s f (get f (initialize s))).
  { intros f. destruct s as [c [t1 d1] [t2 d2]]. unfold should_use, provided, initialize. destruct f, t1, t2; cbn; intuition congruence. }
  destruct (C85_provided s' l sched) as (_ & _ & C).
  - unfold s', provided, initialize. destruct s as [c [[] d1] [[] d2]]; cbn; discriminate.
  - unfold s', provided, initialize. destruct s as [c [[] d1] [[] d2]]; cbn; discriminate.
  - rewrite (C i q v E I). specialize (U (q_field q)). destruct (q_field q); exact U.
Qed.

(** ** A field that is set by the requests *)
Section Unset.
Variables (f : fieldname) (c0 : option nat).
Definition past (q : request) : Prop :=
  match q_place q with
  | PCheck g | PLoadCollector g | PStore1 g _ | PStore2 g _ => f = FSearcher /\ g = FStreamer
  | _ => True
  end.
Definition half (v : iface) : Prop := i_type v = TCollector /\ (i_data v = None \/ i_data v = c0).
Definition unset_at (s : server) (q : request) : Prop :=
  match q_place q with
  | PStore1 g c => g = f -> c = c0
  | PStore2 g c => g = f -> c = c0 /\ (if q_type_first_store q then i_type (get f s) = TCollector else i_data (get f s) = c0)
  | PType t => q_field q = f -> t = TCollector
  | PData d => q_field q = f -> d = None \/ d = c0
  | _ => True
  end /\ (past q -> i_type (get f s) = TCollector) /\ (q_field q = f -> Forall half (q_served q)).
Record unset (w : world) : Prop := {
  u_collector : s_Collector (w_server w) = c0;
  u_type : i_type (get f (w_server w)) = TNil \/ i_type (get f (w_server w)) = TCollector;
  u_data : i_data (get f (w_server w)) = None \/ i_data (get f (w_server w)) = c0;
  u_whole : i_type (get f (w_server w)) = TCollector -> i_data (get f (w_server w)) = c0 \/ exists i q, nth_error (w_requests w) i = Some q /\ assigning f q;
  u_requests : forall i q, nth_error (w_requests w) i = Some q -> unset_at (w_server w) q
}.
(** the field grows *)
Definition grows (s s' : server) : Prop :=
  (i_type (get f s) = TCollector -> i_type (get f s') = TCollector) /\ (i_data (get f s) = c0 -> i_data (get f s') = c0).
Lemma unset_at_grows s s' q : grows s s' -> unset_at s q -> unset_at s' q.
Proof.
  intros [G1 G2] (A & B & C). split; [|split; [intros P; exact (G1 (B P))|exact C]]. destruct (q_place q); auto. intros E. destruct (A E) as [X Y]. split; [exact X|]. destruct (q_type_first_store q); auto.
Qed.
Lemma unset_step w i : unset w -> unset (step w i).
Proof.
  intros U. destruct (step_spec w i) as [->|(q & E & ES & EN)]; [exact U|].
  pose proof (u_requests _ U i q E) as (A & B & C). pose proof (u_collector _ U) as UC. pose proof (u_type _ U) as UT. pose proof (u_data _ U) as UD. pose proof (u_whole _ U) as UW.
  assert (KEEP : forall q', fst (step_request q (w_server w)) = q' -> snd (step_request q (w_server w)) = w_server w -> (~ assigning f q) -> unset_at (w_server w) q' -> unset (step w i)).
  { intros q' E1 E2 NA UQ. constructor; rewrite ?ES, ?E2; auto.
    - intros T. destruct (UW T) as [X|(j & p & EP & AP)]; [left; exact X|right; exists j, p]. rewrite EN. destruct (Nat.eq_dec j i) as [->|N]; [|auto]. congruence.
    - intros j p EP. rewrite EN in EP. destruct (Nat.eq_dec j i); [injection EP as <-; rewrite E1; exact UQ|exact (u_requests _ U j p EP)]. }
  destruct (q_place q) as [g|g|g c|g c| |t|d] eqn:EQ.
  - eapply KEEP; [reflexivity|unfold step_request; rewrite EQ; reflexivity|intros [c X]; congruence|]. unfold step_request. rewrite EQ. cbn [fst]. unfold unset_at, past. cbn [at_place q_place q_field q_served].
    destruct (is_nil (i_type (get g (w_server w)))) eqn:EN1.
    + split; [exact Logic.I|]. split; [|exact C]. intros P. apply B. unfold past. rewrite EQ. exact P.
    + destruct g; cbn [after_check]; (split; [exact Logic.I|]; split; [|exact C]); intros P.
      * destruct P as [P _]. destruct UT as [X|X]; [|exact X]. apply is_nil_spec in X. rewrite P in X. congruence.
      * destruct (field_eq f FStreamer) as [F|F]; [|apply B; unfold past; rewrite EQ; split; [exact (not_streamer f F)|reflexivity]]. destruct UT as [X|X]; [|exact X]. apply is_nil_spec in X. rewrite F in X. congruence.
  - eapply KEEP; [reflexivity|unfold step_request; rewrite EQ; reflexivity|intros [c X]; congruence|]. unfold step_request. rewrite EQ. cbn [fst]. unfold unset_at, past. cbn [at_place q_place q_field q_served].
    split; [intros _; exact UC|]. split; [|exact C]. intros P. apply B. unfold past. rewrite EQ. exact P.
  - (* the first store *)
    unfold step_request in ES, EN. rewrite EQ in ES, EN. cbn [fst snd] in ES, EN.
    assert (G : grows (w_server w) (w_server (step w i))).
    { rewrite ES. unfold grows. destruct (q_type_first_store q); unfold store_type, store_data; rewrite get_put; destruct (field_eq f g) as [<-|N]; cbn [i_type i_data]; auto. }
    assert (GQ : forall j p, nth_error (w_requests w) j = Some p -> unset_at (w_server (step w i)) p) by (intros j p EP; exact (unset_at_grows _ _ p G (u_requests _ U j p EP))).
    constructor.
    + rewrite ES. destruct (q_type_first_store q); unfold store_type, store_data; rewrite put_Collector; exact UC.
    + rewrite ES. destruct (q_type_first_store q); unfold store_type, store_data; rewrite get_put; destruct (field_eq f g) as [<-|N]; cbn [i_type i_data]; auto.
    + rewrite ES. destruct (q_type_first_store q); unfold store_type, store_data; rewrite get_put; destruct (field_eq f g) as [<-|N]; cbn [i_type i_data]; auto.
    + intros T. destruct (field_eq f g) as [<-|N].
      * right. exists i. eexists. rewrite EN. destruct (Nat.eq_dec i i); [|congruence]. split; [reflexivity|]. exists c. reflexivity.
      * rewrite ES in *. destruct (q_type_first_store q); unfold store_type, store_data in *; rewrite get_put in *; destruct (field_eq f g); try congruence;
          (destruct (UW T) as [X|(j & p & EP & AP)]; [left; exact X|right; exists j, p]; rewrite EN; destruct (Nat.eq_dec j i) as [->|N2]; [|auto]; exfalso; rewrite E in EP; injection EP as <-; destruct AP as [c' X]; congruence).
    + intros j p EP. rewrite EN in EP. destruct (Nat.eq_dec j i); [|exact (GQ j p EP)]. injection EP as <-. destruct (GQ i q E) as (_ & GB & _).
      unfold unset_at. cbn [at_place q_place q_field q_served q_type_first_store]. split; [|split; [|exact C]].
      * intros <-. split; [exact (A eq_refl)|]. rewrite ES. destruct (q_type_first_store q); unfold store_type, store_data; rewrite get_put; destruct (field_eq g g); try congruence; cbn; auto.
      * unfold past. cbn [at_place q_place]. intros P. apply GB. unfold past. rewrite EQ. exact P.
  - (* the second store *)
    unfold step_request in ES, EN. rewrite EQ in ES, EN. cbn [fst snd] in ES, EN.
    assert (G : grows (w_server w) (w_server (step w i))).
    { rewrite ES. unfold grows. destruct (q_type_first_store q); unfold store_type, store_data; rewrite get_put; destruct (field_eq f g) as [<-|N]; cbn [i_type i_data]; auto. split; [auto|]. intros _. exact (proj1 (A eq_refl)). }
    assert (GQ : forall j p, nth_error (w_requests w) j = Some p -> unset_at (w_server (step w i)) p) by (intros j p EP; exact (unset_at_grows _ _ p G (u_requests _ U j p EP))).
    assert (FULL : f = g -> get f (w_server (step w i)) = of_collector c0).
    { intros <-. destruct (A eq_refl) as [-> X]. rewrite ES. destruct (q_type_first_store q); unfold store_type, store_data; rewrite get_put; destruct (field_eq f f); try congruence; rewrite X; reflexivity. }
    constructor.
    + rewrite ES. destruct (q_type_first_store q); unfold store_type, store_data; rewrite put_Collector; exact UC.
    + destruct (field_eq f g) as [X|N]; [rewrite (FULL X); right; reflexivity|]. rewrite ES. destruct (q_type_first_store q); unfold store_type, store_data; rewrite get_put; destruct (field_eq f g); try congruence; auto.
    + destruct (field_eq f g) as [X|N]; [rewrite (FULL X); right; reflexivity|]. rewrite ES. destruct (q_type_first_store q); unfold store_type, store_data; rewrite get_put; destruct (field_eq f g); try congruence; auto.
    + intros T. destruct (field_eq f g) as [X|N]; [rewrite (FULL X); left; reflexivity|].
      rewrite ES in *. destruct (q_type_first_store q); unfold store_type, store_data in *; rewrite get_put in *; destruct (field_eq f g); try congruence;
          (destruct (UW T) as [X|(j & p & EP & AP)]; [left; exact X|right; exists j, p]; rewrite EN; destruct (Nat.eq_dec j i) as [->|N2]; [|auto]; exfalso; rewrite E in EP; injection EP as <-; destruct AP as [c' X]; congruence).
    + intros j p EP. rewrite EN in EP. destruct (Nat.eq_dec j i); [|exact (GQ j p EP)]. injection EP as <-. destruct (GQ i q E) as (_ & GB & _).
      unfold unset_at, past. cbn [at_place q_place q_field q_served]. destruct g; cbn [after_check]; (split; [exact Logic.I|]; split; [|exact C]); intros P.
      * destruct P as [P _]. rewrite (FULL P). reflexivity.
      * destruct (field_eq f FStreamer) as [X|N]; [rewrite (FULL X); reflexivity|]. apply GB. unfold past. rewrite EQ. split; [exact (not_streamer f N)|reflexivity].
  - assert (T : i_type (get f (w_server w)) = TCollector) by (apply B; unfold past; rewrite EQ; exact Logic.I).
    eapply KEEP; [reflexivity|unfold step_request; rewrite EQ; destruct (q_calls q); reflexivity|intros [c X]; congruence|]. unfold step_request. rewrite EQ. destruct (q_calls q); cbn [fst].
    + split; [rewrite EQ; exact Logic.I|]. split; [intros _; exact T|exact C].
    + unfold unset_at. cbn [at_place q_place q_field q_served]. split; [|split; [intros _; exact T|exact C]]. destruct (q_type_first_load q); intros ->; auto.
  - assert (T : i_type (get f (w_server w)) = TCollector) by (apply B; unfold past; rewrite EQ; exact Logic.I).
    eapply KEEP; [reflexivity|unfold step_request; rewrite EQ; reflexivity|intros [c X]; congruence|]. unfold step_request. rewrite EQ. cbn [fst]. unfold unset_at. cbn [q_place q_field q_served].
    split; [exact Logic.I|]. split; [intros _; exact T|]. intros F. constructor; [|exact (C F)]. split; cbn; [exact (A F)|rewrite F; exact UD].
  - assert (T : i_type (get f (w_server w)) = TCollector) by (apply B; unfold past; rewrite EQ; exact Logic.I).
    eapply KEEP; [reflexivity|unfold step_request; rewrite EQ; reflexivity|intros [c X]; congruence|]. unfold step_request. rewrite EQ. cbn [fst]. unfold unset_at. cbn [q_place q_field q_served].
    split; [exact Logic.I|]. split; [intros _; exact T|]. intros F. constructor; [|exact (C F)]. split; cbn; [rewrite F; exact T|exact (A F)].
Qed.
Lemma unset_run sched : forall w, unset w -> unset (run sched w).
Proof. induction sched as [|i sched IH]; intros w U; [exact U|]. cbn. apply IH. apply unset_step. exact U. Qed.
Lemma unset_start s l : get f s = nil_iface -> s_Collector s = c0 -> unset (serving s l).
Proof.
  intros G HC. constructor; cbn [serving w_server]; rewrite ?G; auto; [intros X; discriminate|].
  intros i q E. change (map _ l) with (w_requests (serving s l)) in E. destruct (serving_request s l i q E) as [P V]. unfold unset_at, past. rewrite P, V. split; [exact Logic.I|]. split; [intros [_ X]; discriminate|constructor].
Qed.
Lemma unset_settles w i q : unset w -> nth_error (w_requests w) i = Some q -> initialized q -> (forall j p, nth_error (w_requests w) j = Some p -> between p = false) -> settled f (of_collector c0) c0 w.
Proof.
  intros U E IN BT. destruct (u_requests _ U i q E) as (_ & B & _).
  assert (T : i_type (get f (w_server w)) = TCollector) by (apply B; unfold past; unfold initialized in IN; destruct (q_place q); auto; contradiction).
  constructor; [apply U| |discriminate|].
  - destruct (u_whole _ U T) as [D|(j & p & EP & c & X)]; [|specialize (BT j p EP); unfold between in BT; rewrite X in BT; discriminate]. unfold of_collector. rewrite <- T, <- D. symmetry. apply iface_eta.
  - intros j p EP. specialize (BT j p EP). destruct (u_requests _ U j p EP) as (A & _). unfold settled_at, between in *. destruct (q_place p); auto; discriminate.
Qed.
End Unset.

(** A nil interface value has no data. *)
Definition well_formed (s : server) : Prop := forall f, i_type (get f s) = TNil -> get f s = nil_iface.
Lemma well_formed_cases s f : well_formed s -> provided (get f s) \/ get f s = nil_iface.
Proof. intros W. destruct (is_nil (i_type (get f s))) eqn:E; [right; apply W; apply is_nil_spec; exact E|left; intros X; apply is_nil_spec in X; congruence]. Qed.

(** Whatever is provided or not, in every schedule: a method is called on what should be
    used, or, and only if it was not provided, on a nil collector. *)
Theorem C85_any_schedule :
  forall s l sched i q v, well_formed s -> nth_error (w_requests (run sched (serving s l))) i = Some q -> In v (q_served q) ->
    should_use s (q_field q) v \/ (~ provided (get (q_field q) s) /\ v = MkIface TCollector None).
Proof.
  intros s l sched i q v W E I. destruct (well_formed_cases s (q_field q) W) as [P|G].
  - left. left. split; [exact P|]. exact (served_settled (q_field q) s l sched i q v P E eq_refl I).
  - assert (NP : ~ provided (get (q_field q) s)) by (rewrite G; intros X; apply X; reflexivity).
    destruct (u_requests _ _ _ (unset_run (q_field q) (s_Collector s) sched _ (unset_start _ _ s l G eq_refl)) i q E) as (_ & _ & C).
    destruct (proj1 (Forall_forall _ _) (C eq_refl) v I) as [T [D|D]]; destruct v; cbn in *; subst; [right|left; right]; auto.
Qed.
(** Once one request has run initialize and no request is in the middle of an access, all
    calls from then on are right. *)
Theorem C85_from_then_on :
  forall s l sched later i q, well_formed s ->
    let w := run sched (serving s l) in
    nth_error (w_requests w) i = Some q -> initialized q -> (forall j p, nth_error (w_requests w) j = Some p -> between p = false) ->
    forall j p, nth_error (w_requests (run later w)) j = Some p ->
    exists p0 new, nth_error (w_requests w) j = Some p0 /\ q_served p = new ++ q_served p0 /\ Forall (should_use s (q_field p)) new.
Proof.
  intros s l sched later i q W w E IN BT j p EP. set (f := q_field p).
  assert (K : exists v, should_use s f v /\ settled f v (s_Collector s) w).
  { destruct (well_formed_cases s f W) as [P|G].
    - exists (get f s). split; [left; auto|]. apply settled_run. apply settled_start. exact P.
    - exists (of_collector (s_Collector s)). split; [right; split; [rewrite G; intros X; apply X; reflexivity|reflexivity]|].
      apply (unset_settles f (s_Collector s) w i q); auto. apply unset_run. apply unset_start; auto. }
  destruct K as (v & SU & K). destruct (settled_run f v _ later w K) as [_ S1]. destruct (S1 j p EP) as (p0 & new & E0 & F0 & V & A). exists p0, new. split; [exact E0|]. split; [exact V|].
  eapply Forall_impl; [|exact (A (eq_sym F0))]. intros a <-. exact SU.
Qed.

(** If interface values were stored and loaded as a whole, every call would be right. *)
Definition whole_run (sched : list nat) (w : world) : world := fold_left whole_step sched w.
Lemma replace_same i q1 q2 : forall l, replace i q2 (replace i q1 l) = replace i q2 l.
Proof. induction i as [|i IH]; intros [|x l]; cbn; try reflexivity. f_equal. apply IH. Qed.
Lemma replace_length i q : forall l, length (replace i q l) = length l.
Proof. induction i as [|i IH]; intros [|x l]; cbn; try reflexivity. f_equal. apply IH. Qed.
Lemma whole_step_spec w i : whole_step w i = step w i \/ whole_step w i = step (step w i) i.
Proof. unfold whole_step. destruct (nth_error (w_requests (step w i)) i) as [q|]; [destruct (between q); auto|auto]. Qed.
Lemma whole_step_request w i q : nth_error (w_requests w) i = Some q -> between q = false ->
  exists q', (forall j, nth_error (w_requests (whole_step w i)) j = if Nat.eq_dec j i then Some q' else nth_error (w_requests w) j) /\ between q' = false /\ q_field q' = q_field q /\
    (q_served q' = q_served q \/ (q_place q = PServe /\ q_served q' = get (q_field q) (w_server w) :: q_served q)).
Proof.
  intros E B.
  assert (ONE : forall w q, nth_error (w_requests w) i = Some q -> step w i = MkWorld (snd (step_request q (w_server w))) (replace i (fst (step_request q (w_server w))) (w_requests w))).
  { clear. intros w q E. unfold step. rewrite E. destruct (step_request q (w_server w)); reflexivity. }
  assert (N1 : nth_error (w_requests (step w i)) i = Some (fst (step_request q (w_server w)))).
  { rewrite (ONE w q E). cbn [w_requests]. rewrite (nth_replace i _ _ i q E). destruct (Nat.eq_dec i i); congruence. }
  unfold whole_step. rewrite N1. destruct (between (fst (step_request q (w_server w)))) eqn:EB.
  - rewrite (ONE _ _ N1). rewrite (ONE w q E). cbn [w_server w_requests]. set (q1 := fst (step_request q (w_server w))) in *. set (s1 := snd (step_request q (w_server w))) in *.
    exists (fst (step_request q1 s1)). split; [intros j; rewrite replace_same; apply (nth_replace i _ _ j q E)|].
    unfold q1, s1 in *. clear q1 s1. unfold step_request in *. destruct (q_place q) as [g|g|g c|g c| |t|d] eqn:EQ; unfold between in B; rewrite EQ in B; try discriminate B; cbn [fst snd at_place q_place between] in *.
    + exfalso. unfold between in EB. cbn [at_place q_place] in EB. destruct (is_nil _); [discriminate|]. destruct g; discriminate.
    + discriminate.
    + cbn. split; [destruct g; reflexivity|]. auto.
    + destruct (q_calls q) eqn:EC; cbn [fst snd] in *; [unfold between in EB; rewrite EQ in EB; discriminate|].
      destruct (q_type_first_load q); cbn; (split; [reflexivity|]; split; [reflexivity|]; right; split; [reflexivity|]; f_equal; apply iface_eta).
  - rewrite (ONE w q E). exists (fst (step_request q (w_server w))). split; [intros j; cbn [w_requests]; apply (nth_replace i _ _ j q E)|]. split; [exact EB|].
    unfold step_request in *. destruct (q_place q) as [g|g|g c|g c| |t|d] eqn:EQ; unfold between in B; rewrite EQ in B; try discriminate B; cbn; auto.
    destruct (q_calls q); cbn; auto.
Qed.
Theorem C85_as_a_whole :
  forall s l sched i q v, well_formed s -> nth_error (w_requests (whole_run sched (serving s l))) i = Some q -> In v (q_served q) -> should_use s (q_field q) v.
Proof.
  intros s l sched i q v W E I.
  assert (G : forall f sched w, (settled f (get f s) (s_Collector s) w /\ provided (get f s) \/ unset f (s_Collector s) w /\ get f s = nil_iface) ->
    (forall j p, nth_error (w_requests w) j = Some p -> between p = false /\ (q_field p = f -> Forall (should_use s f) (q_served p))) ->
    (forall j p, nth_error (w_requests (whole_run sched w)) j = Some p -> q_field p = f -> Forall (should_use s f) (q_served p))).
  { clear - W. intros f sched. induction sched as [|i sched IH]; intros w K A j p; [intros EP; apply (A j p EP)|]. cbn [whole_run fold_left]. apply IH.
    - destruct K as [[K P]|[K P]]; [left|right]; (split; [|exact P]); destruct (whole_step_spec w i) as [->| ->].
      + apply settled_step; exact K.
      + apply settled_step, settled_step; exact K.
      + apply unset_step; exact K.
      + apply unset_step, unset_step; exact K.
    - destruct (nth_error (w_requests w) i) as [q|] eqn:E.
      + destruct (A i q E) as [BQ SQ]. destruct (whole_step_request w i q E BQ) as (q' & EN & B' & F' & V'). intros k r ER. rewrite EN in ER. destruct (Nat.eq_dec k i); [|exact (A k r ER)]. injection ER as <-.
        split; [exact B'|]. intros F. rewrite F' in F. destruct V' as [->|[PL ->]]; [exact (SQ F)|]. constructor; [|exact (SQ F)]. rewrite F.
        destruct K as [[K P]|[K P]].
        * left. split; [exact P|]. apply (k_value _ _ _ _ K).
        * right. split; [rewrite P; intros X; apply X; reflexivity|]. apply (k_value f (of_collector (s_Collector s)) (s_Collector s) w). apply (unset_settles f _ w i q K E).
          -- unfold initialized. rewrite PL. exact Logic.I.
          -- intros k0 p0 EP. apply (A k0 p0 EP).
      + unfold whole_step, step. rewrite E. rewrite E. exact A. }
  apply (proj1 (Forall_forall _ _) (G (q_field q) sched (serving s l) ltac:(destruct (well_formed_cases s (q_field q) W) as [P|P]; [left; split; [apply settled_start; exact P|exact P]|right; split; [apply unset_start; auto|exact P]])
    ltac:(intros j p EP; destruct (serving_request s l j p EP) as [P1 P2]; split; [unfold between; rewrite P1; reflexivity|rewrite P2; constructor]) i q E eq_refl) v I).
Qed.

(** Finding: if the Searcher or the Streamer is not provided (as the comments of the type
    allow, and as in the example _examples/trc-complex/main.go:79), any two requests race. *)
Theorem C85_race_refuted :
  forall s f, ~ provided (get f s) -> forall f1 so1 lo1 n1 f2 so2 lo2 n2, exists sched, race (run sched (serving s [(f1, (so1, lo1), n1); (f2, (so2, lo2), n2)])).
Proof.
  intros s f NP f1 so1 lo1 n1 f2 so2 lo2 n2.
  assert (E : forall t, ~ t <> TNil -> t = TNil) by (intros [] X; [reflexivity|exfalso; apply X; discriminate|exfalso; apply X; discriminate]).
  destruct s as [c [t1 d1] [t2 d2]].
  assert (Q : t1 = TNil \/ (t1 <> TNil /\ t2 = TNil)).
  { destruct f; cbn in NP; unfold provided in NP; cbn in NP; apply E in NP; [left; exact NP|]. destruct t1; [left; reflexivity|right; split; [discriminate|exact NP]|right; split; [discriminate|exact NP]]. }
  destruct Q as [->|[N1 ->]].
  - exists (if so1 then [0; 0] else [0; 0; 0]). exists 0, 1. destruct so1; cbn; do 5 eexists; repeat (split; [try reflexivity; discriminate|]); cbn; auto.
  - exists (if so1 then [1; 0; 0; 0] else [1; 0; 0; 0; 0]). exists 0, 1. destruct t1; [contradiction| |]; destruct so1; cbn; do 5 eexists; repeat (split; [try reflexivity; discriminate|]); cbn; auto.
Qed.
(** Finding: and the second of two first requests can be served by a nil collector, which
    panics, although there is a collector: for every such server. *)
Theorem C85_nil_collector_refuted :
  forall c, exists sched q, nth_error (w_requests (run sched (serving (MkServer (Some c) nil_iface nil_iface) [(FSearcher, (true, true), 1); (FSearcher, (true, true), 1)]))) 1 = Some q /\
    q_served q = [MkIface TCollector None] /\ panics (MkIface TCollector None) /\ ~ should_use (MkServer (Some c) nil_iface nil_iface) FSearcher (MkIface TCollector None).
Proof.
  intros c. exists [0; 0; 0; 1; 1; 1; 1; 1; 1; 1; 1]. eexists. split; [reflexivity|]. split; [reflexivity|]. split; [right; reflexivity|]. intros [[_ X]|[_ X]]; discriminate.
Qed.

(** A server with its own searcher and no streamer; a search and a stream that overlap; the
    stream is served by the collector, the search by the searcher. *)
Definition demo_server : server := MkServer (Some 7) (MkIface (TUser 1) (Some 3)) nil_iface.
Example C85_instance :
  well_formed demo_server /\ ~ provided (s_Streamer demo_server) /\ provided (s_Searcher demo_server) /\
  let w := run [0; 1; 1; 0; 0; 1; 0; 0; 1; 1; 0; 1; 0; 1; 1; 1; 0; 0] (serving demo_server [(FSearcher, (true, false), 1); (FStreamer, (false, true), 2)]) in
  map q_served (w_requests w) = [[MkIface (TUser 1) (Some 3)]; [MkIface TCollector (Some 7); MkIface TCollector (Some 7)]] /\
  map q_served (w_requests (whole_run [0; 1; 1; 0; 0; 1; 0; 0; 1; 1; 0; 1; 0; 1] (serving demo_server [(FSearcher, (true, false), 1); (FStreamer, (false, true), 2)]))) =
    [[MkIface (TUser 1) (Some 3)]; [MkIface TCollector (Some 7); MkIface TCollector (Some 7)]].
Proof. split; [intros []; [discriminate|reflexivity]|]. split; [intros X; apply X; reflexivity|]. split; [discriminate|]. vm_compute. auto. Qed.

(** One request runs initialize alone, and then others come. *)
Example C85_from_then_on_instance :
  let w := run [0; 0; 0; 0; 0] (serving demo_server [(FSearcher, (true, false), 1); (FStreamer, (false, true), 2); (FStreamer, (true, true), 1)]) in
  (exists q, nth_error (w_requests w) 0 = Some q /\ initialized q) /\ (forall j p, nth_error (w_requests w) j = Some p -> between p = false) /\
  map q_served (w_requests (run [1; 2; 2; 1; 0; 1; 2; 1; 2; 0; 1; 1] w)) = [[MkIface (TUser 1) (Some 3)]; [MkIface TCollector (Some 7); MkIface TCollector (Some 7)]; [MkIface TCollector (Some 7)]].
Proof.
  split; [eexists; split; [reflexivity|exact Logic.I]|]. split; [|reflexivity].
  intros [|[|[|[|j]]]] p E; cbn in E; try discriminate; injection E as <-; reflexivity.
Qed.

Print Assumptions C85_provided.
Print Assumptions C85_new.
Print Assumptions C85_later_collector_is_ignored.
Print Assumptions C85_any_schedule.
Print Assumptions C85_from_then_on.
Print Assumptions C85_as_a_whole.
Print Assumptions C85_race_refuted.
Print Assumptions C85_nil_collector_refuted.

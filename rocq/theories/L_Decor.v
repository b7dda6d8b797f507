(** Lemmas about decorated traces. *)
From Verif Require Import Go L_List M_Strings M_Types M_Filter S_Trace M_Trace S_TraceView L_Trace M_RingBuf M_RingBufs M_Fmt L_Fmt M_Broker S_Broker L_Broker M_Decor S_Decor.
From Coq Require Import Lia.
Open Scope string_scope.
Open Scope list_scope.

Lemma bind_ok {A B} (m : res A) (k : A -> res B) b : bind m k = Ok b -> exists a, m = Ok a /\ k a = Ok b.
Proof. destruct m; cbn; [eauto|discriminate]. Qed.

Lemma update_length {A} (l : list A) i x : length (update i x l) = length l.
Proof. revert i. induction l as [|y l IH]; intros [|i]; cbn; auto. Qed.
Lemma nth_update {A} (l : list A) i j x d : (i < length l)%nat -> nth j (update i x l) d = if Nat.eqb j i then x else nth j l d.
Proof.
  revert i j. induction l as [|y l IH]; intros [|i] [|j] H; cbn in *; try lia; try reflexivity. apply IH. lia.
Qed.

Section Decor.
Context {arg world pc RE : Type}.
Variable Sprintf : world -> string -> list arg -> string.
Variable CallersFrames : list pc -> list rframe.
Variable Compile : string -> RE + string.
Variable MatchString : RE -> string -> bool.
Variable str : string -> arg.
Variable caps : string -> Z.
Notation env := (env arg world pc).
Notation coreTrace := (coreTrace arg pc).
Notation trace := (trace arg).
Notation sys := (sys arg pc RE).
Notation denv := (denv arg world pc).
Notation publish := (publish Sprintf CallersFrames Compile MatchString caps).
Notation t_log := (t_log Sprintf CallersFrames Compile MatchString caps).
Notation t_Finish := (t_Finish Sprintf CallersFrames Compile MatchString str caps).
Notation t_do := (t_do Sprintf CallersFrames Compile MatchString str caps).
Notation t_run := (t_run Sprintf CallersFrames Compile MatchString str caps).
Notation NewStreamTrace := (NewStreamTrace Sprintf CallersFrames).
Notation run := (run Sprintf CallersFrames).
Notation do_call := (do_call Sprintf CallersFrames).
Notation history := (history arg env).

Definition exists_ (s : sys) (t : trace) : Prop := (t_core t < length (s_cores s))%nat.

Lemma core_at_set (s : sys) i c j : (i < length (s_cores s))%nat -> core_at (set_core s i c) j = if Nat.eqb j i then c else core_at s j.
Proof. intros H. unfold core_at, set_core. cbn [s_cores]. apply nth_update. exact H. Qed.
Lemma core_at_set_same (s : sys) i c : (i < length (s_cores s))%nat -> core_at (set_core s i c) i = c.
Proof. intros H. rewrite core_at_set, Nat.eqb_refl by exact H. reflexivity. Qed.

(** [grows s i h s']: core trace i has seen the calls h, the others nothing. *)
Definition grows (s : sys) (i : nat) (h : history) (s' : sys) : Prop :=
  length (s_cores s') = length (s_cores s) /\ core_at s' i = run h (core_at s i) /\
  forall j, j <> i -> core_at s' j = core_at s j.
Lemma grows_refl s i : grows s i [] s. Proof. repeat split. Qed.
Lemma grows_trans s i h s1 h1 s2 : grows s i h s1 -> grows s1 i h1 s2 -> grows s i (h ++ h1) s2.
Proof.
  intros (A & B & C) (A1 & B1 & C1). split; [congruence|]. split; [rewrite run_app, <- B; exact B1|]. intros j Hj. rewrite C1, C by exact Hj. reflexivity.
Qed.
Lemma grows_set (s : sys) i c h : (i < length (s_cores s))%nat -> c = run h (core_at s i) -> grows s i h (set_core s i c).
Proof.
  intros H E. split; [apply update_length|]. split; [rewrite core_at_set_same by exact H; exact E|].
  intros j Hj. rewrite core_at_set by exact H. apply Nat.eqb_neq in Hj. rewrite Hj. reflexivity.
Qed.
Lemma grows_cores (s s1 s' : sys) i h : grows s i h s1 -> s_cores s' = s_cores s1 -> grows s i h s'.
Proof. unfold grows, core_at. intros H E. rewrite E. exact H. Qed.

Lemma NewStreamTrace_grows d t s s' st : exists_ s t -> NewStreamTrace d t s = (s', st) ->
  s_broker s' = s_broker s /\ s_out s' = s_out s /\ exists rs, Forall (fun c => is_read c = true) rs /\ grows s (t_core t) rs s'.
Proof.
  intros H E.
  assert (G : forall n b c' evs, EventsDetail Sprintf CallersFrames (d_env d) n b (core_at s (t_core t)) = (c', evs) ->
              grows s (t_core t) [(d_env d, CallEvents n b)] (set_core s (t_core t) c')).
  { intros n b c' evs Ec. apply grows_set; [exact H|]. cbn. unfold M_Trace.do_call. cbn [snd fst]. rewrite Ec. reflexivity. }
  destruct t as [i|t|t id dst|t pf pa]; cbn [M_Decor.NewStreamTrace] in E;
    [destruct (EventsDetail Sprintf CallersFrames (d_env d) (if negb (Finished (core_at s i)) then 1 else -1) false (core_at s i)) as [c' evs] eqn:Ec
    |unfold t_Events, Events in E; destruct (EventsDetail Sprintf CallersFrames (d_env d) (-1) true (core_at s (t_core (TPublish t)))) as [c' evs] eqn:Ec
    |unfold t_Events, Events in E; destruct (EventsDetail Sprintf CallersFrames (d_env d) (-1) true (core_at s (t_core (TLog t id dst)))) as [c' evs] eqn:Ec
    |unfold t_Events, Events in E; destruct (EventsDetail Sprintf CallersFrames (d_env d) (-1) true (core_at s (t_core (TPrefix t pf pa)))) as [c' evs] eqn:Ec];
    apply (f_equal fst) in E; cbn [fst] in E; subst s'; (split; [reflexivity|]); (split; [reflexivity|]); eexists; (split; [|eapply G; exact Ec]); repeat constructor.
Qed.

Lemma publish_grows d t s s' : exists_ s t -> publish d t s = Ok s' ->
  s_out s' = s_out s /\ exists rs, Forall (fun c => is_read c = true) rs /\ grows s (t_core t) rs s'.
Proof.
  intros H. unfold M_Decor.publish. destruct (_ <=? _)%Z.
  - intros [= <-]. split; [reflexivity|]. exists []. split; [constructor|apply grows_refl].
  - destruct (NewStreamTrace d t s) as [s1 st] eqn:E. intros H1. apply bind_ok in H1 as (st' & Est & H1). injection H1 as <-.
    destruct (NewStreamTrace_grows d t s s1 st H E) as (A & B & rs & R & G). split; [exact B|]. exists rs. split; [exact R|].
    eapply grows_cores; [exact G|reflexivity].
Qed.

Lemma exists_grows s i h s' t : grows s i h s' -> exists_ s t -> exists_ s' t.
Proof. intros (A & _). unfold exists_. rewrite A. auto. Qed.
Lemma exists_cores (s s' : sys) t : s_cores s' = s_cores s -> exists_ s t -> exists_ s' t.
Proof. intros A. unfold exists_. rewrite A. auto. Qed.

Lemma append_assoc (a b c : string) : ((a ++ b) ++ c = a ++ b ++ c)%string.
Proof. induction a; cbn; congruence. Qed.
Lemma append_nil_r (a : string) : (a ++ "" = a)%string.
Proof. induction a; cbn; congruence. Qed.

(** An event call on a decorated trace: the core trace sees the event with the prefixes,
    and then only reads. *)
Lemma t_log_grows t : forall k f a es s s', exists_ s t -> t_log t k f a es s = Ok s' ->
  exists rs, Forall (fun c => is_read c = true) rs /\
    grows s (t_core t) ((d_env (es (depth t)), CallLog k (prefix_format t ++ f) (prefix_args t ++ a)) :: rs) s'.
Proof.
  induction t as [i|t IH|t IH id dst|t IH pf pa]; intros k f a es s s' H; cbn [M_Decor.t_log t_core depth prefix_format prefix_args].
  - intros [= <-]. exists []. split; [constructor|]. apply grows_set; [exact H|reflexivity].
  - intros E. apply bind_ok in E as (s1 & E1 & E2). destruct (IH k f a (inner_envs es) s s1 H E1) as (rs & R & G).
    destruct (publish_grows (es O) t s1 s' (exists_grows _ _ _ _ _ G H) E2) as (_ & rs2 & R2 & G2).
    exists (rs ++ rs2). split; [apply Forall_app; auto|]. exact (grows_trans _ _ _ _ _ _ G G2).
  - intros E. destruct (IH k f a (inner_envs es) (logEvent Sprintf id dst (if is_error_kind k then "ERROR: " ++ f else f)%string a (es O) s) s' H E) as (rs & R & G). exists rs. split; [exact R|]. exact G.
  - intros E. destruct (IH k (pf ++ f)%string (pa ++ a) (inner_envs es) s s' H E) as (rs & R & G). exists rs. split; [exact R|].
    rewrite append_assoc, <- app_assoc. exact G.
Qed.
Lemma t_Finish_grows t : forall es s s', exists_ s t -> t_Finish t es s = Ok s' ->
  exists rs, Forall (fun c => is_read c = true) rs /\ grows s (t_core t) ((d_env (es (depth t)), CallFinish) :: rs) s'.
Proof.
  induction t as [i|t IH|t IH id dst|t IH pf pa]; intros es s s' H; cbn [M_Decor.t_Finish t_core depth].
  - intros [= <-]. exists []. split; [constructor|]. apply grows_set; [exact H|reflexivity].
  - intros E. apply bind_ok in E as (s1 & E1 & E2). destruct (IH (inner_envs es) s s1 H E1) as (rs & R & G).
    destruct (publish_grows (es O) t s1 s' (exists_grows _ _ _ _ _ G H) E2) as (_ & rs2 & R2 & G2).
    exists (rs ++ rs2). split; [apply Forall_app; auto|]. exact (grows_trans _ _ _ _ _ _ G G2).
  - intros E. apply bind_ok in E as (s1 & E1 & E2). destruct (IH (inner_envs es) s s1 H E1) as (rs & R & G). injection E2 as <-.
    exists rs. split; [exact R|]. eapply grows_cores; [exact G|reflexivity].
  - intros E. exact (IH (inner_envs es) s s' H E).
Qed.

(** ** Everything but the texts *)
Definition shadow (c : coreTrace) :=
  (ct_source c, ct_id c, ct_category c, ct_start c, ct_errored c, ct_finished c, ct_duration c, ct_nostack c,
   length (ct_events c), ct_eventsmax c, ct_truncated c).
Definition alike (x y : env * call arg) : Prop :=
  fst x = fst y /\
  match snd x, snd y with
  | CallLog k _ _, CallLog k' _ _ => k = k'
  | CallFinish, CallFinish => True
  | CallSetMaxEvents n, CallSetMaxEvents n' => n = n'
  | CallEvents _ _, CallEvents _ _ => True
  | _, _ => False
  end.
Lemma shadow_read c x : is_read x = true -> shadow (do_call c x) = shadow c.
Proof.
  destruct x as [e [k f a| |n|n b]]; try discriminate. intros _. unfold M_Trace.do_call. cbn [snd fst]. rewrite EventsDetail_eq.
  unfold shadow. cbn. rewrite app_length, map_length, <- app_length, firstn_skipn. reflexivity.
Qed.
Lemma shadow_reads rs : Forall (fun c => is_read c = true) rs -> forall c, shadow (run rs c) = shadow c.
Proof.
  induction 1 as [|x rs H Hs IH]; intros c; [reflexivity|]. rewrite run_cons, IH. apply shadow_read. exact H.
Qed.
Lemma shadow_call c c' x y : shadow c = shadow c' -> alike x y -> shadow (do_call c x) = shadow (do_call c' y).
Proof.
  intros E [Ee A]. destruct x as [e x], y as [e' y]. cbn [fst snd] in *. subst e'.
  destruct x as [k f a| |n|n b], y as [k' f' a'| |n'|n' b']; try contradiction.
  - subst k'. unfold M_Trace.do_call. cbn [fst snd]. rewrite !do_log_eq. unfold shadow in *. injection E; intros.
    assert (Ef : ct_finished c = ct_finished c') by congruence. rewrite <- Ef. destruct (ct_finished c) eqn:Ec; [congruence|].
    unfold add_event, zlen. destruct (is_error_kind k); cbn [ct_source ct_id ct_category ct_start ct_errored ct_finished ct_duration ct_nostack ct_events ct_eventsmax ct_truncated mark_errored];
      replace (ct_eventsmax c') with (ct_eventsmax c) by congruence; replace (length (ct_events c')) with (length (ct_events c)) by congruence;
      destruct (_ <=? _)%Z; cbn [ct_source ct_id ct_category ct_start ct_errored ct_finished ct_duration ct_nostack ct_events ct_eventsmax ct_truncated];
      rewrite ?app_length; cbn [length]; congruence.
  - unfold M_Trace.do_call. cbn [fst snd]. unfold Finish. unfold shadow in *. injection E; intros. assert (Ef : ct_finished c = ct_finished c') by congruence.
    rewrite <- Ef. destruct (ct_finished c) eqn:Ec; [congruence|]. cbn. congruence.
  - subst n'. unfold M_Trace.do_call. cbn [fst snd]. unfold SetMaxEvents, shadow in *. cbn. injection E; intros. congruence.
  - rewrite !shadow_read by reflexivity. exact E.
Qed.
Lemma shadow_run h h' : Forall2 alike h h' -> forall c c', shadow c = shadow c' -> shadow (run h c) = shadow (run h' c').
Proof. induction 1 as [|x y h h' A H IH]; intros c c' E; [exact E|]. rewrite !run_cons. apply IH. apply shadow_call; assumption. Qed.

Lemma events_length e n b (c : coreTrace) :
  length (snd (EventsDetail Sprintf CallersFrames e n b c)) =
  let len := length (ct_events c) in
  let shown := (len - unread n (Z.of_nat len))%nat in
  if (0 <? ct_truncated c)%Z then shown else shown.
Proof.
  rewrite EventsDetail_eq. cbn [snd]. unfold zlen. destruct (0 <? ct_truncated c)%Z.
  - set (l := map _ _). assert (El : length l = (length (ct_events c) - unread n (Z.of_nat (length (ct_events c))))%nat) by (unfold l; rewrite map_length, skipn_length; reflexivity).
    rewrite <- El. destruct l as [|x l]; cbn; [reflexivity|]. rewrite app_length. cbn. lia.
  - rewrite map_length, skipn_length. reflexivity.
Qed.

Lemma t_do_grows t u s s' : exists_ s t -> t_do t u s = Ok s' ->
  exists h rs, Forall (fun c => is_read c = true) rs /\ Forall2 alike h (bare1 t u) /\ grows s (t_core t) (h ++ rs) s'.
Proof.
  intros H. destruct u as [k f a es|es|e|o]; cbn [S_Decor.t_do bare1]; intros E.
  - destruct (t_log_grows t k f a es s s' H E) as (rs & R & G). exists [(d_env (es (depth t)), CallLog k (prefix_format t ++ f) (prefix_args t ++ a))], rs.
    split; [exact R|]. split; [repeat constructor|exact G].
  - destruct (t_Finish_grows t es s s' H E) as (rs & R & G). exists [(d_env (es (depth t)), CallFinish)], rs.
    split; [exact R|]. split; [repeat constructor|exact G].
  - injection E as <-. exists [(e, CallEvents (-1) true)], []. split; [constructor|]. split; [repeat constructor|].
    unfold t_Events. destruct (Events Sprintf CallersFrames e (core_at s (t_core t))) as [c' evs] eqn:Ec. cbn [fst]. apply grows_set; [exact H|].
    cbn. unfold M_Trace.do_call. cbn [fst snd]. unfold Events in Ec. rewrite Ec. reflexivity.
  - injection E as <-. exists [], []. split; [constructor|]. split; [constructor|]. eapply grows_cores; [apply grows_refl|reflexivity].
Qed.

Lemma t_run_app t us1 us2 s : t_run t (us1 ++ us2) s = bind (t_run t us1 s) (t_run t us2).
Proof.
  revert s. induction us1 as [|u us1 IH]; intros s; [reflexivity|]. cbn [app S_Decor.t_run]. destruct (t_do t u s); cbn [bind]; [apply IH|reflexivity].
Qed.

(** The events: each logged with the prefixes, in order. *)
Definition with_prefix (t : trace) (x : env * call arg) : env * call arg :=
  match snd x with CallLog k f a => (fst x, CallLog k (prefix_format t ++ f)%string (prefix_args t ++ a)) | _ => x end.
Definition is_change (x : env * call arg) : bool := negb (is_read x).
Lemma reads_no_change rs : Forall (fun c => is_read c = true) rs -> filter is_change rs = [].
Proof. induction 1 as [|x rs H Hs IH]; [reflexivity|]. cbn. unfold is_change at 1. rewrite H. exact IH. Qed.

Lemma t_run_grows t us : forall s s', exists_ s t -> t_run t us s = Ok s' ->
  exists h, grows s (t_core t) h s' /\
    filter is_change h = map (with_prefix t) (filter is_change (bare t us)) /\
    (forall c c', shadow c = shadow c' -> shadow (run h c) = shadow (run (bare t us) c')).
Proof.
  induction us as [|u us IH]; intros s s' H E; cbn [S_Decor.t_run] in E.
  - injection E as <-. exists []. split; [apply grows_refl|]. split; [reflexivity|]. auto.
  - apply bind_ok in E as (s1 & E1 & E2).
    assert (Hg : exists h, grows s (t_core t) h s1 /\ filter is_change h = map (with_prefix t) (filter is_change (bare1 t u)) /\
                 (forall c c', shadow c = shadow c' -> shadow (run h c) = shadow (run (bare1 t u) c'))).
    { assert (Gen : forall x y rs, Forall (fun c => is_read c = true) rs -> alike x y -> x = with_prefix t y -> filter is_change [x] = map (with_prefix t) (filter is_change [y]) ->
                    bare1 t u = [y] -> grows s (t_core t) (x :: rs) s1 ->
                    exists h, grows s (t_core t) h s1 /\ filter is_change h = map (with_prefix t) (filter is_change (bare1 t u)) /\
                    (forall c c', shadow c = shadow c' -> shadow (run h c) = shadow (run (bare1 t u) c'))).
      { intros x y rs R A Exy F Eb G. exists (x :: rs). split; [exact G|]. rewrite Eb. split.
        - change (x :: rs) with ([x] ++ rs). rewrite filter_app, (reads_no_change rs R), app_nil_r. exact F.
        - intros c c' Ec. rewrite run_cons, shadow_reads by exact R. change (run [y] c') with (do_call c' y). apply shadow_call; assumption. }
      destruct u as [k f a es|es|e|o]; cbn [S_Decor.t_do] in E1.
      - destruct (t_log_grows t k f a es s s1 H E1) as (rs & R & G). eapply Gen; [exact R| | | |reflexivity|exact G]; try reflexivity. split; reflexivity.
      - destruct (t_Finish_grows t es s s1 H E1) as (rs & R & G). eapply Gen; [exact R| | | |reflexivity|exact G]; try reflexivity. split; [reflexivity|exact I].
      - destruct (t_do_grows t (URead e) s s1 H E1) as (h & rs & R & A & G). cbn [bare1] in *.
        assert (Rh : Forall (fun c => is_read c = true) h).
        { inversion A as [|x y ? ? [_ Hxy] A']; subst. inversion A'; subst. constructor; [|constructor]. destruct x as [? []]; cbn in *; try contradiction; reflexivity. }
        exists (h ++ rs). split; [exact G|]. split.
        + rewrite filter_app, !reads_no_change by assumption. reflexivity.
        + intros c c' Ec. rewrite run_app, !shadow_reads by (try assumption; repeat constructor). exact Ec.
      - injection E1 as <-. exists []. split; [eapply grows_cores; [apply grows_refl|reflexivity]|]. split; [reflexivity|]. auto. }
    destruct Hg as (h1 & G1 & F1 & S1). destruct (IH s1 s' (exists_grows _ _ _ _ _ G1 H) E2) as (h2 & G2 & F2 & S2).
    exists (h1 ++ h2). split; [exact (grows_trans _ _ _ _ _ _ G1 G2)|]. unfold bare in *. cbn [flat_map]. split.
    + rewrite !filter_app, map_app, F1, F2. reflexivity.
    + intros c c' Ec. rewrite !run_app. apply S2. apply S1. exact Ec.
Qed.

(** ** No panics on traces as a collector makes them *)
Lemma publish_core_ok d i s : exists s', publish d (TCore i) s = Ok s'.
Proof.
  unfold M_Decor.publish. destruct (_ <=? _)%Z; [eauto|]. cbn [M_Decor.NewStreamTrace].
  destruct (EventsDetail _ _ _ _ _ _) as [c evs]. cbn [bind]. eauto.
Qed.
Lemma t_log_ok t : as_collected t = true -> forall k f a es s, exists s', t_log t k f a es s = Ok s'.
Proof.
  induction t as [i|t IH|t IH id dst|t IH pf pa]; intros H k f a es s; cbn [M_Decor.t_log as_collected] in *.
  - eauto.
  - destruct t as [i| | |]; try discriminate. cbn [M_Decor.t_log bind]. apply publish_core_ok.
  - apply IH. exact H.
  - apply IH. exact H.
Qed.
Lemma t_Finish_ok t : as_collected t = true -> forall es s, exists s', t_Finish t es s = Ok s'.
Proof.
  induction t as [i|t IH|t IH id dst|t IH pf pa]; intros H es s; cbn [M_Decor.t_Finish as_collected] in *.
  - eauto.
  - destruct t as [i| | |]; try discriminate. cbn [M_Decor.t_Finish bind]. apply publish_core_ok.
  - destruct (IH H (inner_envs es) s) as (s1 & ->). cbn [bind]. eauto.
  - apply IH. exact H.
Qed.
Lemma t_run_ok t us : as_collected t = true -> forall s, exists s', t_run t us s = Ok s'.
Proof.
  intros H. induction us as [|u us IH]; intros s; cbn [S_Decor.t_run]; [eauto|].
  assert (E : exists s1, t_do t u s = Ok s1).
  { destruct u; cbn [S_Decor.t_do]; [apply t_log_ok|apply t_Finish_ok| |]; eauto. }
  destruct E as (s1 & ->). cbn [bind]. apply IH.
Qed.

(** ** What is written *)
Lemma t_log_out t : forall k f a es s s', exists_ s t -> t_log t k f a es s = Ok s' -> forall dst, not_logged_to dst t = true ->
  filter (fun l => String.eqb (fst l) dst) (s_out s') = filter (fun l => String.eqb (fst l) dst) (s_out s).
Proof.
  induction t as [i|t IH|t IH id d|t IH pf pa]; intros k f a es s s' H E dst Hd; cbn [M_Decor.t_log not_logged_to] in *.
  - injection E as <-. reflexivity.
  - apply bind_ok in E as (s1 & E1 & E2). destruct (t_log_grows t _ _ _ _ _ _ H E1) as (rs & R & G).
    destruct (publish_grows (es O) t s1 s' (exists_grows _ _ _ _ _ G H) E2) as (Ho & _). rewrite Ho. exact (IH _ _ _ _ _ _ H E1 dst Hd).
  - apply andb_true_iff in Hd as [Hd1 Hd2]. apply negb_true_iff in Hd1.
    rewrite (IH _ _ _ (inner_envs es) (logEvent Sprintf id d (if is_error_kind k then "ERROR: " ++ f else f)%string a (es O) s) s' H E dst Hd2).
    unfold logEvent. cbn [s_out]. rewrite filter_app. cbn [filter fst]. rewrite Hd1. apply app_nil_r.
  - exact (IH _ _ _ _ _ _ H E dst Hd).
Qed.
Lemma t_Finish_out t : forall es s s', exists_ s t -> t_Finish t es s = Ok s' -> forall dst, not_logged_to dst t = true ->
  filter (fun l => String.eqb (fst l) dst) (s_out s') = filter (fun l => String.eqb (fst l) dst) (s_out s).
Proof.
  induction t as [i|t IH|t IH id d|t IH pf pa]; intros es s s' H E dst Hd; cbn [M_Decor.t_Finish not_logged_to] in *.
  - injection E as <-. reflexivity.
  - apply bind_ok in E as (s1 & E1 & E2). destruct (t_Finish_grows t _ _ _ H E1) as (rs & R & G).
    destruct (publish_grows (es O) t s1 s' (exists_grows _ _ _ _ _ G H) E2) as (Ho & _). rewrite Ho. exact (IH _ _ _ H E1 dst Hd).
  - apply andb_true_iff in Hd as [Hd1 Hd2]. apply negb_true_iff in Hd1.
    apply bind_ok in E as (s1 & E1 & E2). injection E2 as <-. unfold logEvent. cbn [s_out]. rewrite filter_app. cbn [filter fst]. rewrite Hd1, app_nil_r.
    exact (IH _ _ _ H E1 dst Hd2).
  - exact (IH _ _ _ H E dst Hd).
Qed.
End Decor.

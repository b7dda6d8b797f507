(** C45, C47, C48, C49: prefixes, regions, decorators. *)
From Verif Require Import Go L_List M_Strings M_Types M_Filter S_Trace M_Trace S_TraceView L_Trace M_RingBuf M_RingBufs S_Collector M_Humanize M_Text L_Strings M_Fmt L_Fmt M_Broker S_Broker M_Decor S_Decor L_Decor P_Context P_Filter.
From Coq Require Import Lia.
Open Scope string_scope.
Open Scope list_scope.

Section Any.
Context {arg world pc RE : Type}.
Variable Sprintf : world -> string -> list arg -> string.
Variable CallersFrames : list pc -> list rframe.
Variable Compile : string -> RE + string.
Variable MatchString : RE -> string -> bool.
Variable str : string -> arg.
Variable caps : string -> Z.
Notation t_log := (t_log Sprintf CallersFrames Compile MatchString caps).
Notation t_run := (t_run Sprintf CallersFrames Compile MatchString str caps).
Notation NewTrace := (NewTrace Sprintf CallersFrames Compile MatchString str caps).
Notation New := (New Sprintf CallersFrames Compile MatchString str caps).
Notation run := (run Sprintf CallersFrames).
Notation Events := (Events Sprintf CallersFrames).
Notation sys := (sys arg pc RE).
Notation trace := (trace arg).

(** C48.  Whatever is called on a decorated trace (as long as no publish panics, see below):
    the observers and the number of events are those of a bare trace on which the same is
    called; no other trace is touched. *)
Theorem C48_decorators_preserve_the_trace :
  forall (t : trace) us (s s' : sys), exists_ s t -> t_run t us s = Ok s' ->
    let decorated := core_at s' (t_core t) in
    let plain := run (bare t us) (core_at s (t_core t)) in
    ID decorated = ID plain /\ Source decorated = Source plain /\ Category decorated = Category plain /\
    Started decorated = Started plain /\ Finished decorated = Finished plain /\ Errored decorated = Errored plain /\
    (forall now, Duration now decorated = Duration now plain) /\
    (forall e, length (snd (Events e decorated)) = length (snd (Events e plain))) /\
    (forall j, j <> t_core t -> core_at s' j = core_at s j).
Proof.
  intros t us s s' Hx E. destruct (t_run_grows _ _ _ _ _ _ t us s s' Hx E) as (h & (_ & Ec & Ho) & _ & Hs).
  cbv zeta. rewrite Ec. specialize (Hs _ _ (eq_refl (shadow (core_at s (t_core t))))).
  pose proof Hs as Hs'. unfold shadow in Hs'. injection Hs' as A1 A2 A3 A4 A5 A6 A7 A8 A9 A10 A11.
  unfold ID, Source, Category, Started, Finished, Errored. repeat (split; [assumption|]). split; [|split; [|exact Ho]].
  - intros now. unfold Duration. rewrite A6, A7, A4. reflexivity.
  - intros e. unfold M_Trace.Events. rewrite !events_length, A9, A11. reflexivity.
Qed.
(** On a trace whose publish decorator is directly on the core trace, as in a collector,
    nothing panics. *)
Theorem C48_never_panics :
  forall (t : trace) us (s : sys), as_collected t = true -> exists s', t_run t us s = Ok s'.
Proof. intros. apply t_run_ok. assumption. Qed.
(** Decorators are applied in the given order, the last one outermost. *)
Theorem C48_order_of_decorators :
  forall b c source category decs ds (s : sys) c' t' s',
    New b c source category decs ds s = Ok (c', t', s') ->
    c' = WithTrace c t' /\
    t' = fold_left (fun t d => match d with DPublish => TPublish t | DLog dst => TLog t (b_id b) dst end) decs (TCore (length (s_cores s))).
Proof.
  intros b c source category decs ds s c' t' s'. unfold M_Decor.New, new_core. intros H. apply bind_ok in H as ([t1 s1] & E & H). injection H as <- <- <-.
  split; [reflexivity|]. set (n := length (s_cores s)) in *. set (s0 := MkSys _ _ _) in *.
  assert (H0 : exists_ s0 (TCore n)) by (unfold exists_, s0; cbn [s_cores t_core]; rewrite app_length; cbn; lia).
  destruct (decorate_all_spec _ _ _ _ _ _ _ _ _ _ _ _ H0 E) as (-> & _).
  assert (Eid : ID (core_at s0 n) = b_id b) by (unfold core_at, s0; cbn [s_cores]; rewrite app_nth2; fold n; [rewrite Nat.sub_diag; reflexivity|lia]).
  clear -Eid.
  assert (Gw : forall decs t0, t_core t0 = n -> fold_left (wrap s0) decs t0 = fold_left (fun t d => match d with DPublish => TPublish t | DLog dst => TLog t (b_id b) dst end) decs t0).
  { clear decs. induction decs as [|d decs IH]; intros t0 Ht0; [reflexivity|]. cbn [fold_left].
    assert (Ew : wrap s0 t0 d = match d with DPublish => TPublish t0 | DLog dst => TLog t0 (b_id b) dst end) by (destruct d; cbn [wrap]; [reflexivity|rewrite Ht0, Eid; reflexivity]).
    rewrite Ew. apply IH. destruct d; exact Ht0. }
  apply Gw. reflexivity.
Qed.
(** Free reaches the core trace through log and publish decorators, and (finding) nothing
    happens if there is a prefix anywhere. *)
Theorem C48_free :
  forall (t : trace) (s : sys), exists_ s t ->
    (unprefixed t = true ->
       maybeFree t s = (set_core s (t_core t) (fst (Free (core_at s (t_core t)))), Some (Finished (core_at s (t_core t))))) /\
    (unprefixed t = false -> maybeFree t s = (s, None)).
Proof.
  intros t s Hx. unfold maybeFree. split; intros Hp.
  - assert (Hf : has_Free t = true) by (destruct t; try reflexivity; discriminate). rewrite Hf. clear Hf. revert Hp.
    induction t as [i|t IH|t IH id d|t IH pf pa]; intros Hp; cbn [t_Free unprefixed] in *.
    + unfold Free, Finished. cbn [t_core]. destruct (ct_finished (core_at s i)); reflexivity.
    + assert (Hf : has_Free t = true) by (destruct t; try reflexivity; discriminate). rewrite Hf. apply IH; assumption.
    + assert (Hf : has_Free t = true) by (destruct t; try reflexivity; discriminate). rewrite Hf. apply IH; assumption.
    + discriminate.
  - destruct (has_Free t) eqn:Hf; [|reflexivity]. clear Hx. induction t as [i|t IH|t IH id d|t IH pf pa]; cbn [t_Free unprefixed has_Free] in *; try discriminate.
    + destruct (has_Free t) eqn:E; [apply IH; auto|reflexivity].
    + destruct (has_Free t) eqn:E; [apply IH; auto|reflexivity].
Qed.
(** Finding: SetMaxEvents only works on a bare core trace; never on a trace that a
    collector's NewTrace has just made. *)
Theorem C48_SetMaxEvents_refuted :
  (forall (t : trace) n (s : sys), is_core t = false -> t_SetMaxEvents t n s = (s, false)) /\
  (forall coll b c category ds es (s : sys) c' t' s' coll' dropped n,
     MaybeGet c = None -> NewTrace coll b c category ds es s = Ok (c', t', s', coll', dropped) ->
     t_SetMaxEvents t' n s' = (s', false)).
Proof.
  assert (A : forall (t : trace) n (s : sys), is_core t = false -> t_SetMaxEvents t n s = (s, false)) by (intros []; cbn; congruence).
  split; [exact A|]. intros coll b c category ds es s c' t' s' coll' dropped n Hc. unfold M_Decor.NewTrace. rewrite Hc. intros E.
  apply bind_ok in E as ([[c1 t1] s1] & E1 & E). apply bind_ok in E as ([t2 s2] & E2 & E). apply bind_ok in E as ([cats d] & E3 & E). injection E as <- <- <- <- <-.
  apply A. unfold M_Decor.New, new_core in E1. apply bind_ok in E1 as ([t3 s3] & E4 & E5). injection E5 as <- <- <-. cbn [M_Decor.decorate_all M_Decor.decorate] in E4.
  apply bind_ok in E4 as ([t4 s4] & E6 & E7). injection E7 as <- <-. apply bind_ok in E6 as (s5 & _ & E6). injection E6 as <- <-.
  assert (G : forall decs ds t0 s0 t' s', is_core t0 = false -> decorate_all Sprintf CallersFrames Compile MatchString str caps decs ds t0 s0 = Ok (t', s') -> is_core t' = false).
  { clear. induction decs as [|d decs IH]; intros ds t0 s0 t' s' H0 E; cbn [M_Decor.decorate_all] in E; [injection E as <- _; exact H0|].
    apply bind_ok in E as ([t1 s1] & E1 & E2). eapply IH; [|exact E2]. destruct d; cbn [M_Decor.decorate] in E1; [apply bind_ok in E1 as (? & _ & E1)|]; injection E1 as <- _; reflexivity. }
  eapply G; [|exact E2]. reflexivity.
Qed.

(** C45.  A list of prefixes applied one after the other in a context with a trace. *)
Fixpoint apply_prefixes (b : birth arg pc) (ps : list (string * list arg)) (c : ctx arg) (s : sys) : ctx arg * sys :=
  match ps with
  | [] => (c, s)
  | (f, a) :: ps => let '(c, _, s) := Prefix b c f a s in apply_prefixes b ps c s
  end.
Definition shift (n : nat) (es : nat -> denv arg world pc) : nat -> denv arg world pc := fun k => es (n + k)%nat.
Lemma t_log_ext t : forall k f a es es' s, (forall n, es n = es' n) -> t_log t k f a es s = t_log t k f a es' s.
Proof.
  induction t as [i|t IH|t IH id d|t IH pf pa]; intros k f a es es' s H; cbn [M_Decor.t_log].
  - rewrite H. reflexivity.
  - rewrite (IH k f a (inner_envs es) (inner_envs es')) by (intros n; apply H). destruct (t_log t k f a (inner_envs es') s); [|reflexivity]. cbn [bind]. rewrite H. reflexivity.
  - rewrite H. apply IH. intros n. apply H.
  - apply IH. intros n. apply H.
Qed.
Lemma string_concat_app (a b : list string) : String.concat "" (a ++ b) = (String.concat "" a ++ String.concat "" b)%string.
Proof.
  assert (G : forall x l, String.concat "" (x :: l) = (x ++ String.concat "" l)%string).
  { intros x [|y l]; [cbn; rewrite append_nil_r; reflexivity|reflexivity]. }
  induction a as [|x a IH]; [reflexivity|]. rewrite <- app_comm_cons, !G, IH, append_assoc. reflexivity.
Qed.
Theorem C45_prefixes_compose :
  forall b ps c t (s : sys), MaybeGet c = Some t ->
    let used := filter not_blank ps in
    let '(c', s') := apply_prefixes b ps c s in
    s' = s /\
    exists t', MaybeGet c' = Some t' /\ t_core t' = t_core t /\ (used = [] -> c' = c) /\
      prefix_format t' = (prefix_format t ++ String.concat "" (map prefix_text used))%string /\
      prefix_args t' = prefix_args t ++ flat_map snd used /\
      forall k f a es s0,
        t_log t' k f a es s0 =
        t_log t k (String.concat "" (map prefix_text used) ++ f) (flat_map snd used ++ a) (shift (length used) es) s0.
Proof.
  induction ps as [|[pf pa] ps IH]; intros c t s Hc; cbn [apply_prefixes filter].
  - split; [reflexivity|]. exists t. split; [exact Hc|]. split; [reflexivity|]. split; [reflexivity|]. cbn. rewrite append_nil_r, app_nil_r. split; [reflexivity|]. split; [reflexivity|].
    intros. apply t_log_ext. reflexivity.
  - unfold Prefix, Get. rewrite Hc. destruct (not_blank (pf, pa)) eqn:Enb; unfold not_blank in Enb; cbn [fst] in Enb; destruct (String.eqb (TrimSpace pf) ""); try discriminate; [|].
    2: { specialize (IH c t s Hc). cbv zeta in IH. destruct (apply_prefixes b ps c s). exact IH. }
    + cbn [Put]. set (t1 := TPrefix t (TrimSpace pf ++ " ")%string pa). specialize (IH (WithTrace c t1) t1 s eq_refl). cbv zeta in *.
      destruct (apply_prefixes b ps (WithTrace c t1) s) as [c' s']. destruct IH as (-> & t' & H1 & H2 & H3 & H4 & H5 & H6).
      split; [reflexivity|]. exists t'. split; [exact H1|]. split; [exact H2|]. split; [discriminate|].
      set (used := filter not_blank ps) in *. cbn [map flat_map snd length]. change (prefix_text (pf, pa)) with (TrimSpace pf ++ " ")%string.
      change (?x :: map prefix_text used) with ([x] ++ map prefix_text used). rewrite string_concat_app. cbn [String.concat]. split; [|split].
      * rewrite H4. cbn [prefix_format t1]. rewrite append_assoc. reflexivity.
      * rewrite H5. cbn [prefix_args t1]. rewrite app_assoc. reflexivity.
      * intros k f a es s0. rewrite H6. unfold t1. cbn [M_Decor.t_log]. rewrite <- append_assoc, <- app_assoc. apply t_log_ext. intros n. unfold inner_envs, shift. f_equal. lia.
Qed.
(** What the trace stores for an event logged through prefixes. *)
Theorem C45_stored_event :
  forall (t : trace) k f a es (s s' : sys), exists_ s t -> t_log t k f a es s = Ok s' ->
    let before := core_at s (t_core t) in let after := core_at s' (t_core t) in
    Finished before = false -> (zlen (ct_events before) < ct_eventsmax before)%Z ->
    map ev_info (ct_events after) =
    map ev_info (ct_events before) ++
      [(e_now (d_env (es (depth t))), (prefix_format t ++ f)%string, prefix_args t ++ a, is_error_kind k)].
Proof. intros. eapply log_stores; eassumption. Qed.
End Any.
Print Assumptions C48_decorators_preserve_the_trace.
Print Assumptions C48_never_panics.
Print Assumptions C48_order_of_decorators.
Print Assumptions C48_free.
Print Assumptions C48_SetMaxEvents_refuted.
Print Assumptions C45_prefixes_compose.
Print Assumptions C45_stored_event.

(** From here on formatting is fmt.Sprintf as modelled in M_Fmt. *)
Section Fmt.
Context {arg world pc RE : Type}.
Variable printArg : world -> string -> ascii -> arg -> string.
Variable printExtra : world -> arg -> string.
Variable special : world -> string -> string -> list arg -> string.
Notation Sprintf := (Sprintf printArg printExtra special).
Variable CallersFrames : list pc -> list rframe.
Variable Compile : string -> RE + string.
Variable MatchString : RE -> string -> bool.
Variable str : string -> arg.
Variable caps : string -> Z.
(** %s of a string is the string *)
Definition prints_strings : Prop := forall w x, printArg w "" "s" (str x) = x.
Notation t_log := (t_log Sprintf CallersFrames Compile MatchString caps).
Notation t_Finish := (t_Finish Sprintf CallersFrames Compile MatchString str caps).
Notation t_run := (t_run Sprintf CallersFrames Compile MatchString str caps).
Notation t_do := (t_do Sprintf CallersFrames Compile MatchString str caps).
Notation decorate := (decorate Sprintf CallersFrames Compile MatchString str caps).
Notation exec := (exec Sprintf CallersFrames Compile MatchString str caps).
Notation run := (run Sprintf CallersFrames).
Notation sys := (sys arg pc RE).
Notation trace := (trace arg).
Notation grows := (@grows arg world pc RE Sprintf CallersFrames).

(** The text: the rendered prefixes and then the rendered event, if each prefix takes exactly
    the arguments it was given. *)
Theorem C45_text :
  forall (used : list (string * list arg)) f a w,
    Forall (fun p => takes (prefix_text p) = Some (length (snd p))) used ->
    Sprintf w (String.concat "" (map prefix_text used) ++ f) (flat_map snd used ++ a) =
    (String.concat "" (map (fun p => Sprintf w (prefix_text p) (snd p)) used) ++ Sprintf w f a)%string.
Proof.
  intros used f a w H. induction H as [|p used Hp H IH]; [reflexivity|]. cbn [map flat_map].
  change (?x :: map prefix_text used) with ([x] ++ map prefix_text used).
  change (?x :: map (fun p => Sprintf w (prefix_text p) (snd p)) used) with ([x] ++ map (fun p => Sprintf w (prefix_text p) (snd p)) used).
  rewrite !string_concat_app. cbn [String.concat]. rewrite !append_assoc, <- app_assoc.
  rewrite (Sprintf_app printArg printExtra special w _ _ _ _ Hp), IH. reflexivity.
Qed.

(** C47. *)
Definition call_text (w : world) (x : env arg world pc * call arg) : string * bool :=
  match snd x with CallLog k f a => (Sprintf w f a, is_error_kind k) | _ => ("", false) end.
Lemma indent_S n : indent (S n) = (bullet ++ " " ++ indent n)%string. Proof. reflexivity. Qed.
Lemma region_lines_S w (p : prog arg world pc) : forall n,
  region_lines Sprintf w (S n) p = map (fun l => ((bullet ++ " ") ++ fst l, snd l)%string) (region_lines Sprintf w n p).
Proof.
  induction p as [|k f a es rest IH|name b1 b2 es1 body IHb took es2 rest IH]; intros n; cbn [region_lines]; [reflexivity| |].
  - rewrite IH. cbn [map fst snd]. rewrite indent_S, !append_assoc. reflexivity.
  - rewrite !map_app, IH, IHb. cbn [map fst snd]. rewrite indent_S, !append_assoc. reflexivity.
Qed.
Lemma literal_bullet : literal (bullet ++ " ").
Proof. intros c -> H. vm_compute in H. intuition discriminate. Qed.
Lemma literal_arrow_in : literal (arrow_in ++ " ").
Proof. intros c -> H. vm_compute in H. intuition discriminate. Qed.
Lemma literal_arrow_out : literal (arrow_out ++ " ").
Proof. intros c -> H. vm_compute in H. intuition discriminate. Qed.
Lemma trim_bullet : TrimSpace bullet = bullet. Proof. vm_compute. reflexivity. Qed.
Lemma literal_one (c : ascii) : c <> "%"%char -> literal (String c "").
Proof. intros H x -> [E|[]]. congruence. Qed.

Lemma exec_lines (Hs : prints_strings) p : forall b c (t : trace) (s s' : sys), MaybeGet c = Some t -> exists_ s t -> literal_names p ->
  takes (prefix_format t) = Some (length (prefix_args t)) ->
  exec p b c s = Ok s' ->
  exists h, grows s (t_core t) h s' /\ Forall (fun x => is_change x = is_log x) h /\
    forall w, map (call_text w) (filter is_change h) =
              map (fun l => (Sprintf w (prefix_format t) (prefix_args t) ++ fst l, snd l)%string) (region_lines Sprintf w 0 p).
Proof.
  assert (Step : forall (t : trace) k f a es (s s1 : sys), exists_ s t -> takes (prefix_format t) = Some (length (prefix_args t)) ->
            t_log t k f a es s = Ok s1 ->
            exists h, grows s (t_core t) h s1 /\ Forall (fun x => is_change x = is_log x) h /\
              forall w, map (call_text w) (filter is_change h) = [(Sprintf w (prefix_format t) (prefix_args t) ++ Sprintf w f a, is_error_kind k)%string]).
  { intros t k f a es s s1 Hx Ht E. destruct (t_log_grows _ _ _ _ _ _ _ _ _ _ _ _ Hx E) as (rs & R & G). eexists. split; [exact G|]. split.
    { constructor; [reflexivity|]. eapply Forall_impl; [|exact R]. intros [e [ | | |]] H; try discriminate; reflexivity. }
    intros w.
    cbn [filter is_change is_read snd negb]. rewrite reads_no_change by exact R. cbn [map call_text snd].
    rewrite (Sprintf_app printArg printExtra special w _ _ _ _ Ht). reflexivity. }
  induction p as [|k f a es rest IH|name b1 b2 es1 body IHb took es2 rest IH]; intros b c t s s' Hc Hx Hl Ht E; cbn [M_Decor.exec region_lines] in *.
  - injection E as <-. exists []. split; [apply grows_refl|]. split; [constructor|reflexivity].
  - unfold Get in E. rewrite Hc in E. apply bind_ok in E as (s1 & E1 & E2). destruct (Step _ _ _ _ _ _ _ Hx Ht E1) as (h1 & G1 & C1 & L1).
    destruct (IH b c t s1 s' Hc (exists_grows _ _ _ _ _ _ _ G1 Hx) Hl Ht E2) as (h2 & G2 & C2 & L2). exists (h1 ++ h2).
    split; [exact (grows_trans _ _ _ _ _ _ _ _ G1 G2)|]. split; [apply Forall_app; auto|]. intros w. rewrite filter_app, map_app, L1, L2. reflexivity.
  - destruct Hl as (Hn & Hlb & Hlr). unfold Region_begin, Get in E. rewrite Hc in E. unfold Prefix, Get in E. rewrite Hc, trim_bullet in E.
    cbn [String.eqb bullet bytes] in E. change (String.eqb bullet "") with false in E. cbn iota in E. cbn [Put] in E.
    set (t1 := TPrefix t (bullet ++ " ")%string []) in E.
    apply bind_ok in E as ([[[c1 ti] to] s1] & E0 & E). apply bind_ok in E0 as (s0 & E1 & E0). injection E0 as <- <- <- <-.
    apply bind_ok in E as (s2 & E2 & E). apply bind_ok in E as (s3 & E3 & E4).
    destruct (Step _ _ _ _ _ _ _ Hx Ht E1) as (h1 & G1 & C1 & L1). pose proof (exists_grows _ _ _ _ _ _ _ G1 Hx) as Hx1.
    assert (Ht1 : takes (prefix_format t1) = Some (length (prefix_args t1))).
    { cbn [prefix_format prefix_args t1]. rewrite app_nil_r. rewrite (takes_app _ _ _ _ Ht (literal_takes _ literal_bullet)). f_equal. lia. }
    destruct (IHb b (WithTrace c t1) t1 s0 s2 eq_refl Hx1 Hlb Ht1 E2) as (h2 & G2 & C2 & L2).
    pose proof (exists_grows _ _ _ _ _ _ _ G2 Hx1) as Hx2.
    destruct (Step _ _ _ _ _ _ _ Hx2 Ht E3) as (h3 & G3 & C3 & L3). pose proof (exists_grows _ _ _ _ _ _ _ G3 Hx2) as Hx3.
    destruct (IH b c t s3 s' Hc Hx3 Hlr Ht E4) as (h4 & G4 & C4 & L4).
    exists (((h1 ++ h2) ++ h3) ++ h4). split; [eapply grows_trans; [eapply grows_trans; [eapply grows_trans; [exact G1|exact G2]|exact G3]|exact G4]|].
    split; [repeat (apply Forall_app; split); assumption|]. intros w. rewrite !filter_app, !map_app, L1, L2, L3, L4. rewrite <- !app_assoc. f_equal; [|f_equal; [|f_equal]].
    + cbn [map fst snd indent is_error_kind]. change (("" ++ ?x)%string) with x. do 3 f_equal. rewrite (Sprintf_literal printArg printExtra special); [reflexivity|].
      rewrite <- (append_assoc arrow_in " " name). apply literal_app; [exact literal_arrow_in|exact Hn].
    + rewrite region_lines_S, map_map. apply map_ext. intros [l e]. cbn [fst snd]. f_equal. cbn [prefix_format prefix_args t1]. rewrite app_nil_r.
      pose proof (Sprintf_app printArg printExtra special w (prefix_format t) (prefix_args t) (bullet ++ " ")%string [] Ht) as Es. rewrite app_nil_r in Es. rewrite Es.
      rewrite (Sprintf_literal printArg printExtra special w _ literal_bullet), append_assoc. reflexivity.
    + cbn [map fst snd indent is_error_kind]. change (("" ++ ?x)%string) with x. do 3 f_equal.
      rewrite <- (append_assoc arrow_out " " (name ++ " [%s]")), <- append_assoc.
      rewrite (Sprintf_literal_app printArg printExtra special); [|apply literal_app; [exact literal_arrow_out|exact Hn]].
      rewrite !append_assoc. do 3 f_equal. unfold M_Fmt.Sprintf. cbn. rewrite Hs. reflexivity.
Qed.
(** For every tree of regions and events, run in a context with a trace: the calls that reach
    the core trace, rendered at any time, are the lines of the tree. *)
Theorem C47_regions_nest :
  prints_strings ->
  forall p b c (t : trace) (s s' : sys), MaybeGet c = Some t -> exists_ s t -> literal_names p ->
    unprefixed t = true -> exec p b c s = Ok s' ->
    exists h, core_at s' (t_core t) = run h (core_at s (t_core t)) /\
      (forall j, j <> t_core t -> core_at s' j = core_at s j) /\
      existsb is_finish h = false /\ existsb is_setmax h = false /\
      forall w, map (call_text w) (filter is_log h) = region_lines Sprintf w 0 p.
Proof.
  intros Hs p b c t s s' Hc Hx Hl Hu E.
  assert (Hp : prefix_format t = "" /\ prefix_args t = []).
  { clear -Hu. induction t; cbn [unprefixed prefix_format prefix_args] in *; auto. discriminate. }
  destruct Hp as [Hp1 Hp2].
  destruct (exec_lines Hs p b c t s s' Hc Hx Hl) as (h & (_ & G & Ho) & C & L); [rewrite Hp1, Hp2; reflexivity|exact E|].
  rewrite Hp1, Hp2 in L. exists h. split; [exact G|]. split; [exact Ho|].
  assert (Hno : existsb is_finish h = false /\ existsb is_setmax h = false /\ filter is_change h = filter is_log h).
  { clear -C. induction C as [|x h Hx C (A & B & D)]; [repeat split|]. cbn [existsb filter]. rewrite A, B, D.
    destruct x as [e [ | | |]]; cbn in Hx; try discriminate; repeat split; reflexivity. }
  destruct Hno as (A & B & D). split; [exact A|]. split; [exact B|]. intros w. rewrite <- D, L.
  rewrite <- (map_id (region_lines Sprintf w 0 p)) at 2. apply map_ext. intros [l e]. reflexivity.
Qed.
(** ... and it always completes, on a trace as a collector makes it. *)
Theorem C47_regions_complete :
  forall p b c (t : trace) (s : sys), MaybeGet c = Some t -> as_collected t = true -> exists s', exec p b c s = Ok s'.
Proof.
  induction p as [|k f a es rest IH|name b1 b2 es1 body IHb took es2 rest IH]; intros b c t s Hc Ha; cbn [M_Decor.exec].
  - eauto.
  - unfold Get. rewrite Hc. destruct (t_log_ok Sprintf CallersFrames Compile MatchString caps t Ha k f a es s) as (s1 & ->). cbn [bind]. eapply IH; eassumption.
  - unfold Region_begin, Prefix, Get. rewrite Hc, trim_bullet. change (String.eqb bullet "") with false. cbn iota. cbn [Put].
    destruct (t_log_ok Sprintf CallersFrames Compile MatchString caps t Ha KLazyTracef (arrow_in ++ " " ++ name)%string [] es1 s) as (s1 & ->). cbn [bind].
    edestruct (IHb b (WithTrace c (TPrefix t (bullet ++ " ")%string [])) _ s1 eq_refl) as (s2 & ->); [exact Ha|]. cbn [bind].
    unfold Region_end. destruct (t_log_ok Sprintf CallersFrames Compile MatchString caps t Ha KLazyTracef (arrow_out ++ " " ++ name ++ " [%s]")%string [str (HumanizeDuration took)] es2 s2) as (s3 & ->).
    cbn [bind]. eapply IH; eassumption.
Qed.

(** C49.  What should be written to [dst]. *)
Definition lines (dst : string) (s : sys) : list string := map snd (filter (fun l => String.eqb (fst l) dst) (s_out s)).
Definition line (id text : string) : string := (id ++ " " ++ text ++ newline)%string.
Fixpoint expected_lines (t : trace) (id : string) (c0 : coreTrace arg pc) (before us : list (ucall arg world pc RE)) : list string :=
  match us with
  | [] => []
  | u :: us =>
      match u with
      | ULog k f a es => [line id ((if is_error_kind k then "ERROR: " else "") ++ Sprintf (e_world (d_env (es O))) (TrimSuffix f newline) a)]
      | UFinish es =>
          let c := run (bare t (before ++ [u])) c0 in
          [line id ("done, " ++ (if Errored c then "errored" else "success") ++ ", " ++ HumanizeDuration (Duration (e_now (d_env (es O))) c))]
      | _ => []
      end ++ expected_lines t id c0 (before ++ [u]) us
  end.
(** each format takes exactly the arguments it is given *)
Definition fits (u : ucall arg world pc RE) : Prop :=
  match u with ULog _ f a _ => takes (TrimSuffix f newline) = Some (length a) | _ => True end.

Lemma TrimSuffix_newline f : (exists g, f = (g ++ newline)%string /\ TrimSuffix f newline = g) \/
  ((forall g, f <> (g ++ newline)%string) /\ TrimSuffix f newline = f).
Proof.
  unfold TrimSuffix. destruct (HasSuffix f newline) eqn:E.
  - left. apply HasSuffix_iff in E as (g & ->). exists g. split; [reflexivity|]. rewrite str_length_app. replace (_ + _ - _)%nat with (String.length g) by lia. apply substring_prefix.
  - right. split; [|reflexivity]. intros g ->. assert (HasSuffix (g ++ newline) newline = true) by (apply HasSuffix_iff; eauto). congruence.
Qed.
Lemma TrimSuffix_error f : TrimSuffix ("ERROR: " ++ f) newline = ("ERROR: " ++ TrimSuffix f newline)%string.
Proof.
  destruct (TrimSuffix_newline f) as [(g & -> & ->)|[Hn ->]].
  - destruct (TrimSuffix_newline ("ERROR: " ++ g ++ newline)) as [(g' & E & ->)|[Hn _]].
    + rewrite <- append_assoc in E. apply (f_equal (fun x => substring 0 (String.length x - String.length newline) x)) in E.
      rewrite !str_length_app in E. replace (String.length "ERROR: " + String.length g + String.length newline - String.length newline)%nat with (String.length ("ERROR: " ++ g)) in E by (rewrite str_length_app; lia).
      replace (String.length g' + String.length newline - String.length newline)%nat with (String.length g') in E by lia. rewrite !substring_prefix in E. congruence.
    + exfalso. apply (Hn ("ERROR: " ++ g)%string). rewrite append_assoc. reflexivity.
  - destruct (TrimSuffix_newline ("ERROR: " ++ f)) as [(g' & E & Eg)|[_ ->]]; [|reflexivity]. exfalso.
    destruct g' as [|c0 g']; [discriminate|]. injection E as _ E. destruct g' as [|c1 g']; [discriminate|]. injection E as _ E.
    destruct g' as [|c2 g']; [discriminate|]. injection E as _ E. destruct g' as [|c3 g']; [discriminate|]. injection E as _ E.
    destruct g' as [|c4 g']; [discriminate|]. injection E as _ E. destruct g' as [|c5 g']; [discriminate|]. injection E as _ E.
    destruct g' as [|c6 g']; [discriminate|]. injection E as _ E. exact (Hn g' E).
Qed.
Lemma newline_literal : literal newline. Proof. apply literal_one. discriminate. Qed.
Lemma logged_text w id f a : literal id -> takes f = Some (length a) ->
  Sprintf w (id ++ " " ++ f ++ newline) a = line id (Sprintf w f a).
Proof.
  intros Hi Hf. unfold line. rewrite <- (append_assoc id " " (f ++ newline)).
  rewrite (Sprintf_literal_app printArg printExtra special w (id ++ " ")) by (apply literal_app; [exact Hi|apply literal_one; discriminate]).
  pose proof (Sprintf_app printArg printExtra special w f a newline [] Hf) as E. rewrite app_nil_r in E. rewrite E, (Sprintf_literal printArg printExtra special) by exact newline_literal.
  rewrite append_assoc. reflexivity.
Qed.
Theorem C49_one_line_per_call :
  prints_strings ->
  forall (inner : trace) id dst us (s s' : sys), let t := TLog inner id dst in
    literal id -> not_logged_to dst inner = true -> exists_ s t -> Forall fits us ->
    t_run t us s = Ok s' ->
    lines dst s' = lines dst s ++ expected_lines t id (core_at s (t_core t)) [] us.
Proof.
  intros Hs inner id dst us s0 s' t Hid Hd Hx0 Hfit E.
  assert (G : forall us before s, t_run t before s0 = Ok s -> Forall fits us -> t_run t us s = Ok s' ->
              lines dst s' = lines dst s ++ expected_lines t id (core_at s0 (t_core t)) before us).
  { clear us Hfit E. induction us as [|u us IH]; intros before s Hb Hfit E.
    - injection E as <-. cbn. rewrite app_nil_r. reflexivity.
    - inversion Hfit as [|? ? Hu Hus]; subst. cbn [S_Decor.t_run] in E. apply bind_ok in E as (s1 & E1 & E2).
      destruct (t_run_grows _ _ _ _ _ _ t before s0 s Hx0 Hb) as (hb & Gb & _). pose proof (exists_grows _ _ _ _ _ _ t Gb Hx0) as Hx.
      assert (Hb1 : t_run t (before ++ [u]) s0 = Ok s1) by (rewrite t_run_app, Hb; cbn [bind S_Decor.t_run]; rewrite E1; reflexivity).
      rewrite (IH (before ++ [u]) s1 Hb1 Hus E2). cbn [expected_lines]. rewrite app_assoc. f_equal.
      destruct u as [k f a es|es|e|o]; cbn [S_Decor.t_do] in E1.
      + cbn [M_Decor.t_log t] in E1.
        set (s2 := logEvent Sprintf id dst (if is_error_kind k then "ERROR: " ++ f else f)%string a (es O) s) in E1.
        unfold lines. rewrite (t_log_out _ _ _ _ _ inner _ _ _ _ s2 s1 Hx E1 dst Hd). unfold s2, logEvent. cbn [s_out].
        rewrite filter_app, map_app. f_equal. cbn [filter fst]. rewrite String.eqb_refl. cbn [map snd]. f_equal.
        assert (Ht : TrimSuffix (if is_error_kind k then "ERROR: " ++ f else f) newline = ((if is_error_kind k then "ERROR: " else "") ++ TrimSuffix f newline)%string) by (destruct (is_error_kind k); [apply TrimSuffix_error|reflexivity]).
        rewrite Ht. assert (Hm : literal (if is_error_kind k then "ERROR: " else "")) by (destruct (is_error_kind k); intros x -> H; vm_compute in H; intuition discriminate).
        rewrite logged_text; [|exact Hid|].
        * rewrite (Sprintf_literal_app printArg printExtra special) by exact Hm. reflexivity.
        * rewrite (takes_app _ _ _ _ (literal_takes _ Hm) Hu). reflexivity.
      + destruct (C48_decorators_preserve_the_trace Sprintf CallersFrames Compile MatchString str caps t (before ++ [UFinish es]) s0 s1 Hx0 Hb1) as (_ & _ & _ & _ & _ & He & Hdur & _).
        cbv zeta. cbn [M_Decor.t_Finish t] in E1. apply bind_ok in E1 as (s2 & E3 & E4). injection E4 as <-.
        unfold lines, logEvent. cbn [s_out]. rewrite filter_app, map_app. rewrite (t_Finish_out _ _ _ _ _ _ inner _ s s2 Hx E3 dst Hd). f_equal.
        cbn [filter fst]. rewrite String.eqb_refl. cbn [map snd]. f_equal.
        change (core_at (logEvent Sprintf id dst "done, %s, %s" [str (if t_observe Errored inner s2 then "errored" else "success"); str (HumanizeDuration (t_Duration (e_now (d_env (es O))) inner s2))] (es O) s2) (t_core t)) with (core_at s2 (t_core inner)) in He, Hdur.
        rewrite <- He, <- Hdur. unfold t_Duration, t_observe. change (TrimSuffix "done, %s, %s" newline) with "done, %s, %s".
        rewrite logged_text; [|exact Hid|reflexivity]. f_equal. unfold M_Fmt.Sprintf. cbn. rewrite !Hs, append_nil_r. reflexivity.
      + injection E1 as <-. unfold t_Events. destruct (M_Trace.Events _ _ _ _). cbn. rewrite app_nil_r. reflexivity.
      + injection E1 as <-. cbn. rewrite app_nil_r. reflexivity. }
  apply G; [reflexivity|exact Hfit|exact E].
Qed.
(** The line at creation. *)
Theorem C49_line_at_creation :
  prints_strings ->
  forall d (t : trace) dst (s : sys), literal (ID (core_at s (t_core t))) ->
    let c := core_at s (t_core t) in
    exists s', decorate (DLog dst) d t s = Ok (TLog t (ID c) dst, s') /\
      lines dst s' = lines dst s ++ [line (ID c) ("started, source '" ++ Source c ++ "', category '" ++ Category c ++ "'")].
Proof.
  intros Hs d t dst s Hid c. cbn [M_Decor.decorate]. eexists. split; [reflexivity|]. unfold lines, logEvent. cbn [s_out]. rewrite filter_app, map_app. f_equal.
  cbn [filter fst]. rewrite String.eqb_refl. cbn [map snd]. f_equal. change (TrimSuffix "started, source '%s', category '%s'" newline) with "started, source '%s', category '%s'".
  unfold t_observe. fold c. rewrite logged_text; [|exact Hid|reflexivity]. f_equal. unfold M_Fmt.Sprintf. cbn. rewrite !Hs. reflexivity.
Qed.
(** Whatever the formats and arguments, each event call and each Finish writes exactly one
    text, also (finding) when the trace is finished and ignores the call. *)
Definition writes (u : ucall arg world pc RE) : bool := match u with ULog _ _ _ _ | UFinish _ => true | _ => false end.
Theorem C49_number_of_lines :
  forall (inner : trace) id dst us (s s' : sys), let t := TLog inner id dst in
    not_logged_to dst inner = true -> exists_ s t -> t_run t us s = Ok s' ->
    length (lines dst s') = (length (lines dst s) + length (filter writes us))%nat.
Proof.
  intros inner id dst us. induction us as [|u us IH]; intros s s' t Hd Hx E; cbn [S_Decor.t_run] in E.
  - injection E as <-. cbn. lia.
  - apply bind_ok in E as (s1 & E1 & E2). destruct (t_do_grows _ _ _ _ _ _ t u s s1 Hx E1) as (h & rs & _ & _ & G).
    rewrite (IH s1 s' Hd (exists_grows _ _ _ _ _ _ t G Hx) E2). unfold lines. rewrite !map_length.
    destruct u as [k f a es|es|e|o]; cbn [S_Decor.t_do filter writes length] in *.
    + cbn [M_Decor.t_log t] in E1.
      rewrite (t_log_out _ _ _ _ _ inner _ _ _ _ (logEvent Sprintf id dst (if is_error_kind k then "ERROR: " ++ f else f)%string a (es O) s) s1 Hx E1 dst Hd).
      unfold logEvent. cbn [s_out]. rewrite filter_app, app_length. cbn [filter fst]. rewrite String.eqb_refl. cbn. lia.
    + cbn [M_Decor.t_Finish t] in E1. apply bind_ok in E1 as (s2 & E3 & E4). injection E4 as <-. unfold logEvent. cbn [s_out]. rewrite filter_app, app_length.
      rewrite (t_Finish_out _ _ _ _ _ _ inner _ s s2 Hx E3 dst Hd). cbn [filter fst]. rewrite String.eqb_refl. cbn. lia.
    + injection E1 as <-. unfold t_Events. destruct (M_Trace.Events _ _ _ _). cbn. lia.
    + injection E1 as <-. cbn. lia.
Qed.
End Fmt.
Print Assumptions C45_text.
Print Assumptions C47_regions_nest.
Print Assumptions C47_regions_complete.
Print Assumptions C49_one_line_per_call.
Print Assumptions C49_line_at_creation.
Print Assumptions C49_number_of_lines.

(** ** Concrete cases and findings.  Arguments are strings, all verbs print them. *)
Definition dd_printArg (w : unit) (d : string) (v : ascii) (x : string) : string := x.
Definition dd_printExtra (w : unit) (x : string) : string := ("string=" ++ x)%string.
Definition dd_special (w : unit) (d f : string) (a : list string) : string := "".
Definition dd_Sprintf := Sprintf dd_printArg dd_printExtra dd_special.
Definition dd_frames (pcs : list Z) : list rframe := [].
Definition dd_env (now : Z) : env string unit Z := MkEnv now tt [] (MkCE 0%Z (MkStringer "" [] None) [] [] false) (MkStringer "" [] None).
Definition dd_d (now : Z) : denv string unit Z := MkD (dd_env now) (dd_env (now + 1)%Z) (fun l => l).
Definition dd_es (now : Z) : nat -> denv string unit Z := fun _ => dd_d now.
Definition dd_birth (now : Z) (id : string) : birth string Z := MkBirth (MkGlobals 10 false) now id zeroCoreTrace.
Definition dd_sys : sys string Z string := MkSys [] [] [].
Definition dd_caps (ch : string) : Z := 100.
Definition dd_coll : collector string := MkColl "src" [DLog "out"] new_collector_storage.
Definition dd_NewTrace := NewTrace dd_Sprintf dd_frames demo_compile demo_match (fun x => x) dd_caps.
Definition dd_run := t_run dd_Sprintf dd_frames demo_compile demo_match (fun x => x) dd_caps.
Definition dd_exec := exec dd_Sprintf dd_frames demo_compile demo_match (fun x => x) dd_caps.
(** the texts of a trace, read at the end *)
Definition dd_texts (s : sys string Z string) (i : nat) : list string :=
  map What (snd (Events dd_Sprintf dd_frames (dd_env 999) (core_at s i))).
Lemma dd_prints : prints_strings dd_printArg (fun x => x). Proof. intros w x. reflexivity. Qed.

(** Two collector traces, one in the other's context; prefixes; a log decorator. *)
Example C44_instance :
  exists c t s coll,
    dd_NewTrace dd_coll (dd_birth 100 "A") Background "cat" (dd_es 100) (dd_es 100) dd_sys = Ok (c, t, s, coll, []) /\
    t = TLog (TPublish (TCore 0)) "A" "out" /\ MaybeGet c = Some t /\ as_collected t = true /\ exists_ s t /\
    exists s', dd_NewTrace coll (dd_birth 101 "B") c "other" (dd_es 101) (dd_es 101) s = Ok (c, t, s', coll, []) /\
      dd_texts s' 0 = ["(+ other)"] /\ category_content (c_categories coll) "cat" = Some (Ok [t]).
Proof.
  do 4 eexists. split; [vm_compute; reflexivity|]. split; [reflexivity|]. split; [reflexivity|]. split; [reflexivity|]. split; [unfold exists_; vm_compute; lia|].
  eexists. split; [vm_compute; reflexivity|]. split; vm_compute; reflexivity.
Qed.
Definition dd_t : trace string := TPrefix (TLog (TPublish (TCore 0)) "A" "out") "[%s] " ["p"].
Definition dd_s : sys string Z string := MkSys [newCoreTrace (MkGlobals 10 false) 100 "A" zeroCoreTrace "src" "cat"] [] [].
Definition dd_calls : list (ucall string unit Z string) :=
  [ULog KTracef "one %s" ["x"] (dd_es 101); URead (dd_env 102); ULog KErrorf "two" [] (dd_es 103); UFinish (dd_es 104)].
Example C45_C48_instance :
  exists s', dd_run dd_t dd_calls dd_s = Ok s' /\ as_collected dd_t = true /\ unprefixed dd_t = false /\
    dd_texts s' 0 = ["[p] one x"; "[p] two"] /\ Errored (core_at s' 0) = true /\ Finished (core_at s' 0) = true /\
    Forall (fun p => takes (prefix_text p) = Some (length (snd p))) [("[%s]", ["p"]); ("  ", [])].
Proof. eexists. split; [vm_compute; reflexivity|]. repeat (split; [vm_compute; reflexivity|]). repeat constructor. Qed.
(** Finding: a prefix that does not use exactly its own arguments takes the event's, or
    leaves its own to the event; one ending in a percent sign swallows the event's text. *)
Theorem C45_prefix_with_wrong_arguments_refuted :
  exists s1 s2 s3,
    dd_run (TPrefix (TCore 0) "user %s " []) [ULog KTracef "did %s" ["x"] (dd_es 101)] dd_s = Ok s1 /\
    dd_texts s1 0 = ["user x did %!s(MISSING)"] /\
    dd_run (TPrefix (TCore 0) "user " ["u"]) [ULog KTracef "did %s" ["x"] (dd_es 101)] dd_s = Ok s2 /\
    dd_texts s2 0 = ["user did u%!(EXTRA string=x)"] /\
    dd_run (TPrefix (TCore 0) "100% " []) [ULog KTracef "done" [] (dd_es 101)] dd_s = Ok s3 /\
    dd_texts s3 0 = ["100%!d(MISSING)one"].
Proof. do 3 eexists. repeat (split; [vm_compute; reflexivity|]). vm_compute. reflexivity. Qed.
Print Assumptions C45_prefix_with_wrong_arguments_refuted.

Definition dd_prog (name : string) : prog string unit Z :=
  PRegion name (dd_birth 100 "X") (dd_birth 100 "Y") (dd_es 101)
    (PEvent KTracef "in %s" ["a"] (dd_es 102)
      (PRegion "bar" (dd_birth 100 "X") (dd_birth 100 "Y") (dd_es 103) (PEvent KErrorf "deep" [] (dd_es 104) PDone) 1500000 (dd_es 105)
        (PEvent KTracef "end" [] (dd_es 106) PDone)))
    2500000000 (dd_es 107)
    (PEvent KTracef "after" [] (dd_es 108) PDone).
Definition dd_t2 : trace string := TLog (TPublish (TCore 0)) "A" "out".
Example C47_instance :
  exists s', dd_exec (dd_prog "foo") (dd_birth 100 "Z") (WithTrace Background dd_t2) dd_s = Ok s' /\
    literal_names (dd_prog "foo") /\ unprefixed dd_t2 = true /\
    dd_texts s' 0 = map fst (region_lines dd_Sprintf tt 0 (dd_prog "foo")) /\
    dd_texts s' 0 = ["→ foo"; "· in a"; "· → bar"; "· · deep"; "· ← bar [1.5ms]"; "· end"; "← foo [2.5s]"; "after"].
Proof.
  eexists. split; [vm_compute; reflexivity|]. split; [repeat split; intros c -> H; vm_compute in H; intuition discriminate|].
  split; [reflexivity|]. split; vm_compute; reflexivity.
Qed.
(** Finding: a region's name is used as a format. *)
Definition dd_region (name : string) : prog string unit Z :=
  PRegion name (dd_birth 100 "X") (dd_birth 100 "Y") (dd_es 101) (PEvent KTracef "in" [] (dd_es 102) PDone) 1500000 (dd_es 105) PDone.
Theorem C47_percent_in_name_refuted :
  exists s', dd_exec (dd_region "50%s") (dd_birth 100 "Z") (WithTrace Background dd_t2) dd_s = Ok s' /\
    dd_texts s' 0 = ["→ 50%!s(MISSING)"; "· in"; "← 501.5ms [%!s(MISSING)]"].
Proof. eexists. split; [vm_compute; reflexivity|]. vm_compute. reflexivity. Qed.
Print Assumptions C47_percent_in_name_refuted.
(** Finding: in a context without a trace, the lines of a region and the events in it end up in
    two different traces. *)
Theorem C47_without_a_trace_refuted :
  exists s', dd_exec (dd_region "foo") (dd_birth 100 "Z") Background dd_sys = Ok s' /\
    length (s_cores s') = 2%nat /\ dd_texts s' 0 = ["→ foo"; "← foo [1.5ms]"] /\ dd_texts s' 1 = ["· in"].
Proof. eexists. split; [vm_compute; reflexivity|]. repeat (split; [vm_compute; reflexivity|]). vm_compute. reflexivity. Qed.
Print Assumptions C47_without_a_trace_refuted.

Definition dd_late : list (ucall string unit Z string) :=
  [ULog KTracef ("one %s" ++ newline) ["x"] (dd_es 101); ULog KErrorf "two" [] (dd_es 103); UFinish (dd_es 1500104); ULog KTracef "late" [] (dd_es 1500105); UFinish (dd_es 1500106)].
Example C49_instance :
  exists s', dd_run dd_t2 dd_late dd_s = Ok s' /\ literal "A" /\ not_logged_to "out" (TPublish (TCore 0) : trace string) = true /\ exists_ dd_s dd_t2 /\
    Forall fits dd_late /\
    lines "out" s' = map (line "A") ["one x"; "ERROR: two"; "done, errored, 1.5ms"; "late"; "done, errored, 1.5ms"].
Proof.
  eexists. split; [vm_compute; reflexivity|]. split; [intros c -> H; vm_compute in H; intuition discriminate|]. split; [reflexivity|]. split; [unfold exists_; vm_compute; lia|].
  split; [repeat constructor|]. vm_compute. reflexivity.
Qed.
(** Finding: a call on a finished trace writes a line although the trace ignores it. *)
Theorem C49_late_call_is_logged_refuted :
  exists s', dd_run dd_t2 [UFinish (dd_es 101); ULog KTracef "late" [] (dd_es 102)] dd_s = Ok s' /\
    dd_texts s' 0 = [] /\ length (lines "out" s') = 2%nat.
Proof. eexists. split; [vm_compute; reflexivity|]. split; vm_compute; reflexivity. Qed.
Print Assumptions C49_late_call_is_logged_refuted.
(** Finding: with more arguments than directives the line does not end in a newline. *)
Theorem C49_extra_argument_refuted :
  exists s', dd_run dd_t2 [ULog KTracef "one" ["x"] (dd_es 101)] dd_s = Ok s' /\
    lines "out" s' = [("A one" ++ newline ++ "%!(EXTRA string=x)")%string].
Proof. eexists. split; [vm_compute; reflexivity|]. vm_compute. reflexivity. Qed.
Print Assumptions C49_extra_argument_refuted.

(** C81: a program that uses the easy interface does what its books say. *)
From Verif Require Import Go L_List M_Strings M_Types M_Filter S_Trace M_Trace S_TraceView L_Trace M_RingBuf M_RingBufs S_Collector L_RingBuf L_RingBufs M_Humanize M_Text L_Strings M_Fmt M_Broker S_Broker M_Decor S_Decor L_Decor P_Context M_Easy S_Easy.
From Coq Require Import Lia Permutation.
Open Scope string_scope.
Open Scope list_scope.

Definition op_map {A B} (f : A -> B) (o : coll_op A) : coll_op B :=
  match o with CNew c t => CNew c (f t) | CSize n order => CSize n order end.
Lemma size_after_map {A B} (f : A -> B) ops : size_after (map (op_map f) ops) = size_after ops.
Proof.
  unfold size_after. generalize 1000%Z. induction ops as [|o ops IH]; intros z; [reflexivity|]. cbn [map fold_left].
  destruct o; cbn [op_map]; apply IH.
Qed.
Lemma held_map {A B} (f : A -> B) c ops : held c (map (op_map f) ops) = map f (held c ops).
Proof.
  unfold held. rewrite <- map_rev. induction (rev ops) as [|o r IH]; [reflexivity|]. cbn [map held_rev].
  destruct o as [c' t|n order]; cbn [op_map held_rev].
  - rewrite <- map_rev, size_after_map, IH. destruct (String.eqb c' c); [|reflexivity]. rewrite <- firstn_map. reflexivity.
  - rewrite IH. destruct (0 <? n)%Z; [|reflexivity]. rewrite firstn_map. reflexivity.
Qed.
Lemma created_map {A B} (f : A -> B) ops : created (map (op_map f) ops) = map f (created ops).
Proof.
  unfold created. induction ops as [|o ops IH]; [reflexivity|]. cbn [map flat_map]. rewrite map_app, IH. destruct o; reflexivity.
Qed.
Lemma mentioned_map {A B} (f : A -> B) c ops : mentioned c (map (op_map f) ops) <-> mentioned c ops.
Proof.
  unfold mentioned. split; intros (t & H).
  - apply in_map_iff in H as (o & E & H). destruct o as [c' t'|]; [|discriminate]. cbn in E. injection E as -> _. eauto.
  - exists (f t). apply in_map_iff. exists (CNew c t). auto.
Qed.
Lemma coll_run_snoc {T} (zero : T) ops o : forall s s1 f1 s2 f2,
  coll_run zero s ops = Ok (s1, f1) -> coll_step zero s1 o = Ok (s2, f2) -> coll_run zero s (ops ++ [o]) = Ok (s2, f1 ++ f2).
Proof.
  induction ops as [|o' ops IH]; intros s s1 f1 s2 f2 E1 E2; cbn [app coll_run] in *.
  - injection E1 as <- <-. rewrite E2. cbn [bind]. rewrite app_nil_r. reflexivity.
  - destruct (coll_step zero s o') as [[s' f']|]; [|discriminate]. cbn [bind] in *.
    destruct (coll_run zero s' ops) as [[s'' f'']|] eqn:E; [|discriminate]. cbn [bind] in E1. injection E1 as <- <-.
    rewrite (IH s' s'' f'' s2 f2 E E2). cbn [bind]. rewrite app_assoc. reflexivity.
Qed.
Lemma created_snoc {T} (ops : list (coll_op T)) o : created (ops ++ [o]) = created ops ++ created [o].
Proof. unfold created. rewrite flat_map_app. reflexivity. Qed.

Lemma update_app_l {A} (l l' : list A) i x : (i < length l)%nat -> update i x (l ++ l') = update i x l ++ l'.
Proof. revert i. induction l as [|y l IH]; intros [|i] H; cbn in *; try lia; [reflexivity|]. rewrite IH by lia. reflexivity. Qed.
Lemma nth_error_update {A} (l : list A) i j x : (i < length l)%nat -> nth_error (update i x l) j = if Nat.eqb j i then Some x else nth_error l j.
Proof. revert i j. induction l as [|y l IH]; intros [|i] [|j] H; cbn in *; try lia; try reflexivity. apply IH. lia. Qed.
Lemma nth_update_far {A} (l : list A) i j x d : j <> i -> nth j (update i x l) d = nth j l d.
Proof. revert i j. induction l as [|y l IH]; intros [|i] [|j] H; cbn; try reflexivity; try lia. apply IH. lia. Qed.

Lemma NoDup_snoc_ {A} (l : list A) x : NoDup l -> ~ In x l -> NoDup (l ++ [x]).
Proof.
  intros H N. apply (Permutation_NoDup (l := x :: l)); [apply Permutation_cons_append|]. constructor; assumption.
Qed.
Lemma NoDup_app_disjoint {A} (l l' : list A) : NoDup (l ++ l') -> forall x, In x l -> In x l' -> False.
Proof.
  induction l as [|y l IH]; intros H x I1 I2; [contradiction|]. cbn in H. apply NoDup_cons_iff in H as [N H]. destruct I1 as [->|I1]; [|exact (IH H x I1 I2)].
  apply N, in_or_app. auto.
Qed.
Lemma held_mentioned {T} (ops : list (coll_op T)) c t : In t (held c ops) -> exists t', In (CNew c t') ops.
Proof.
  unfold held. intros H. assert (K : exists t', In (CNew c t') (rev ops)); [|destruct K as (t' & K); exists t'; apply in_rev; exact K].
  induction (rev ops) as [|o r IH]; [contradiction|]. cbn [held_rev] in H. destruct o as [c' t'|n order].
  - destruct (String.eqb_spec c' c) as [->|N]; [exists t'; left; reflexivity|]. destruct (IH H) as (t'' & K). exists t''. right. exact K.
  - assert (K : In t (held_rev c r)) by (destruct (0 <? n)%Z; [|exact H]; rewrite <- (firstn_skipn (Z.to_nat n)); apply in_or_app; left; exact H).
    destruct (IH K) as (t'' & K'). exists t''. right. exact K'.
Qed.

Lemma held_created {T} (ops : list (coll_op T)) c t : In t (held c ops) -> exists c', In (CNew c' t) ops.
Proof.
  unfold held. intros H. assert (K : exists c', In (CNew c' t) (rev ops)); [|destruct K as (t' & K); exists t'; apply in_rev; exact K].
  induction (rev ops) as [|o r IH]; [contradiction|]. cbn [held_rev] in H.
  assert (S1 : In t (held_rev c r) -> exists c', In (CNew c' t) (o :: r)) by (intros K; destruct (IH K) as (c' & K'); exists c'; right; exact K').
  destruct o as [c' t'|n order].
  - destruct (String.eqb c' c); [|auto]. assert (K : In t (t' :: held_rev c r)) by (rewrite <- (firstn_skipn (Z.to_nat (size_after (rev r)))); apply in_or_app; left; exact H).
    destruct K as [->|K]; [exists c'; left; reflexivity|auto].
  - apply S1. destruct (0 <? n)%Z; [|exact H]. rewrite <- (firstn_skipn (Z.to_nat n)). apply in_or_app. left. exact H.
Qed.

Section Any.
Context {arg world pc RE : Type}.
Variable Sprintf : world -> string -> list arg -> string.
Variable CallersFrames : list pc -> list rframe.
Variable Compile : string -> RE + string.
Variable MatchString : RE -> string -> bool.
Variable str : string -> arg.
Variable caps : string -> Z.
Notation trace := (trace arg).
Notation sys := (sys arg pc RE).
Notation denv := (denv arg world pc).
Notation birth := (birth arg pc).
Notation ctx := (ctx arg).
Notation coreTrace := (coreTrace arg pc).
Notation env := (env arg world pc).
Notation t_log := (t_log Sprintf CallersFrames Compile MatchString caps).
Notation t_Finish := (t_Finish Sprintf CallersFrames Compile MatchString str caps).
Notation NewTrace := (NewTrace Sprintf CallersFrames Compile MatchString str caps).
Notation run := (run Sprintf CallersFrames).
Notation grows := (@grows arg world pc RE Sprintf CallersFrames).
Notation z_step := (z_step Sprintf CallersFrames Compile MatchString str caps).
Notation z_run := (z_run Sprintf CallersFrames Compile MatchString str caps).
Notation eop := (eop arg world pc).
Notation ez := (ez arg pc RE).
Notation book := (book arg).
Notation account := (account arg).
Notation view := (view arg).
Notation book_step := (@book_step arg world pc str).
Notation books := (@books arg world pc str).

(** what a trace, as it is in a context, stands for *)
Definition view_of (t : trace) : view := MkView (t_core t) (prefix_format t) (prefix_args t).

(** The core trace has received the calls of its account (and been read). *)
Definition has_received (c : coreTrace) (a : account) : Prop :=
  exists (pooled : coreTrace) (h : history arg env),
    c = (let '(g, now, id) := a_born a in run h (newCoreTrace g now id pooled (a_source a) (a_category a))) /\
    map snd (filter is_change h) = a_calls a.
Definition named (c : coreTrace) (a : account) : Prop := Source c = a_source a /\ Category c = a_category a.

(** ** The traces *)
Definition accounts_ok (freed : list nat) (s : sys) (ts : list account) : Prop :=
  length (s_cores s) = length ts /\
  forall i a, nth_error ts i = Some a -> named (core_at s i) a /\ (~ In i freed -> has_received (core_at s i) a).

Lemma ok_cores freed (s s' : sys) ts : s_cores s' = s_cores s -> accounts_ok freed s ts -> accounts_ok freed s' ts.
Proof. unfold accounts_ok, core_at. intros E. rewrite E. auto. Qed.

(** [s'] has one more call on trace [i]; [rs] are reads *)
Definition add_call (c : list (call arg)) (a : account) : account := MkAccount (a_born a) (a_source a) (a_category a) (a_calls a ++ c).
Lemma ok_grows freed (s s' : sys) ts i h cs a : accounts_ok freed s ts -> nth_error ts i = Some a -> grows s i h s' ->
  map snd (filter is_change h) = cs -> accounts_ok freed s' (update i (add_call cs a) ts).
Proof.
  intros (L & H) Ha (A & B & C) Hc. assert (Hi : (i < length ts)%nat) by (apply nth_error_Some; congruence).
  split; [rewrite update_length; congruence|]. intros j a' Hj. rewrite nth_error_update in Hj by exact Hi.
  destruct (Nat.eqb_spec j i) as [->|N].
  - injection Hj as <-. destruct (H i a Ha) as [[N1 N2] R]. rewrite B. unfold named, Source, Category in *.
    destruct (run_const Sprintf CallersFrames h (core_at s i)) as (E1 & _ & E2 & _). cbn [add_call a_source a_category a_calls]. rewrite E1, E2.
    split; [split; assumption|]. intros F. destruct (R F) as (b & h0 & E0 & E). exists b, (h0 ++ h). cbn [add_call a_born a_source a_category a_calls].
    destruct (a_born a) as [[g now] id]. rewrite run_app, <- E0. split; [reflexivity|]. rewrite filter_app, map_app, E, Hc. reflexivity.
  - rewrite C by exact N. apply H. exact Hj.
Qed.
Lemma update_id {A} (l : list A) i x : nth_error l i = Some x -> update i x l = l.
Proof. revert i. induction l as [|y l IH]; intros [|i] H; cbn in *; try discriminate; [congruence|]. rewrite IH by exact H. reflexivity. Qed.
Lemma add_nothing a : add_call [] a = a.
Proof. destruct a. unfold add_call. cbn. rewrite app_nil_r. reflexivity. Qed.
Lemma ok_reads freed (s s' : sys) ts i rs : accounts_ok freed s ts -> (i < length ts)%nat -> grows s i rs s' ->
  Forall (fun c => is_read c = true) rs -> accounts_ok freed s' ts.
Proof.
  intros H Hi G R. destruct (nth_error ts i) as [a|] eqn:E; [|apply nth_error_None in E; lia].
  pose proof (ok_grows freed s s' ts i rs [] a H E G) as K. rewrite add_nothing, update_id in K by exact E. apply K.
  rewrite reads_no_change by exact R. reflexivity.
Qed.
Lemma receive_update (v : view) c ts (a : account) : nth_error ts (v_trace v) = Some a ->
  receive v c ts = update (v_trace v) (add_call [match c with CallLog k f args => CallLog k (v_format v ++ f)%string (v_args v ++ args) | _ => c end] a) ts.
Proof. intros H. unfold receive. rewrite H. reflexivity. Qed.
Lemma receive_length (v : view) c ts : length (receive (arg:=arg) v c ts) = length ts.
Proof. unfold receive. destruct (nth_error ts (v_trace v)); [apply update_length|reflexivity]. Qed.

Lemma ok_log freed (s s' : sys) ts (t : trace) k f a es : accounts_ok freed s ts -> (t_core t < length ts)%nat -> t_log t k f a es s = Ok s' ->
  accounts_ok freed s' (receive (view_of t) (CallLog k f a) ts).
Proof.
  intros H Hi E. assert (Hx : exists_ s t) by (destruct H as [L _]; unfold exists_; rewrite L; exact Hi).
  destruct (t_log_grows _ _ _ _ _ _ _ _ _ _ _ _ Hx E) as (rs & R & G).
  destruct (nth_error ts (t_core t)) as [ac|] eqn:Ea; [|apply nth_error_None in Ea; lia].
  rewrite (receive_update (view_of t) _ ts ac Ea). cbn [view_of v_trace v_format v_args].
  eapply ok_grows; [exact H|exact Ea|exact G|]. cbn [filter]. unfold is_change at 1. cbn [is_read snd negb].
  rewrite reads_no_change by exact R. reflexivity.
Qed.
Lemma ok_Finish freed (s s' : sys) ts (t : trace) es : accounts_ok freed s ts -> (t_core t < length ts)%nat -> t_Finish t es s = Ok s' ->
  accounts_ok freed s' (receive (view_of t) CallFinish ts).
Proof.
  intros H Hi E. assert (Hx : exists_ s t) by (destruct H as [L _]; unfold exists_; rewrite L; exact Hi).
  destruct (t_Finish_grows _ _ _ _ _ _ _ _ _ _ Hx E) as (rs & R & G).
  destruct (nth_error ts (t_core t)) as [ac|] eqn:Ea; [|apply nth_error_None in Ea; lia].
  rewrite (receive_update (view_of t) _ ts ac Ea). cbn [view_of v_trace v_format v_args].
  eapply ok_grows; [exact H|exact Ea|exact G|]. cbn [filter]. unfold is_change at 1. cbn [is_read snd negb].
  rewrite reads_no_change by exact R. reflexivity.
Qed.

Lemma ok_new freed (s : sys) ts (b : birth) source category : accounts_ok freed s ts ->
  accounts_ok freed (fst (new_core b source category s)) (ts ++ [MkAccount (born b) source category []]).
Proof.
  intros (L & H). unfold new_core. cbn [fst]. split; [cbn [s_cores]; rewrite !app_length, L; reflexivity|].
  intros i a Hi. destruct (Nat.lt_ge_cases i (length ts)) as [Lt|Ge].
  - rewrite nth_error_app1 in Hi by exact Lt. unfold core_at. cbn [s_cores]. rewrite app_nth1 by lia. apply H. exact Hi.
  - assert (Ei : i = length ts).
    { assert (Lt : (i < length (ts ++ [MkAccount (arg:=arg) (born b) source category []]))%nat) by (apply nth_error_Some; congruence). rewrite app_length in Lt. cbn in Lt. lia. }
    subst i. rewrite nth_error_app2, Nat.sub_diag in Hi by lia. cbn in Hi. injection Hi as <-.
    unfold core_at. cbn [s_cores]. rewrite app_nth2, L, Nat.sub_diag by lia. cbn [nth]. split; [split; reflexivity|].
    intros _. exists (b_pooled b), []. split; reflexivity.
Qed.

Lemma free_core (t : trace) (s : sys) j :
  length (s_cores (fst (maybeFree t s))) = length (s_cores s) /\
  (j <> t_core t -> core_at (fst (maybeFree t s)) j = core_at s j) /\
  ct_source (core_at (fst (maybeFree t s)) j) = ct_source (core_at s j) /\
  ct_category (core_at (fst (maybeFree t s)) j) = ct_category (core_at s j).
Proof.
  unfold maybeFree. destruct (has_Free t) eqn:Hf; [|auto]. revert Hf.
  induction t as [i|t IH|t IH id d|t IH pf pa]; intros Hf; cbn [t_Free has_Free] in *; try discriminate.
  - assert (F : ct_source (fst (Free (core_at s i))) = ct_source (core_at s i) /\ ct_category (fst (Free (core_at s i))) = ct_category (core_at s i)).
    { unfold Free. destruct (negb _); cbn; auto. }
    destruct (Free (core_at s i)) as [c freed]. cbn [fst] in *. split; [apply update_length|].
    assert (O : j <> i -> core_at (set_core s i c) j = core_at s j) by (intros N; unfold core_at, set_core; cbn [s_cores]; apply nth_update_far; exact N).
    split; [exact O|]. destruct (Nat.eq_dec j i) as [->|N]; [|rewrite O by exact N; auto].
    destruct (Nat.lt_ge_cases i (length (s_cores s))) as [Lt|Ge].
    + rewrite core_at_set_same by exact Lt. exact F.
    + unfold core_at, set_core. cbn [s_cores]. rewrite !nth_overflow by (rewrite ?update_length; exact Ge). auto.
  - destruct (has_Free t) eqn:E; [|auto]. apply IH. reflexivity.
  - destruct (has_Free t) eqn:E; [|auto]. apply IH. reflexivity.
Qed.
Lemma ok_free (dropped : list trace) : forall freed (s : sys) ts, accounts_ok freed s ts ->
  accounts_ok (freed ++ map t_core dropped) (fold_left (fun s t => fst (maybeFree t s)) dropped s) ts.
Proof.
  induction dropped as [|t dropped IH]; intros freed s ts H; cbn [map fold_left]; [rewrite app_nil_r; exact H|].
  replace (freed ++ t_core t :: map t_core dropped) with ((freed ++ [t_core t]) ++ map t_core dropped) by (rewrite <- app_assoc; reflexivity).
  apply IH. destruct H as (L & H). split; [destruct (free_core t s 0) as [A _]; congruence|].
  intros i a Hi. destruct (free_core t s i) as (_ & B & C & D). destruct (H i a Hi) as [[N1 N2] R]. unfold named, Source, Category in *. rewrite C, D.
  split; [split; assumption|]. intros F. rewrite B; [apply R; intros I1; apply F, in_or_app; auto|]. intros ->. apply F, in_or_app. right. left. reflexivity.
Qed.

(** ** The invariant *)
Definition stands (n : nat) (t : trace) (v : view) : Prop := view_of t = v /\ as_collected t = true /\ (t_core t < n)%nat.
Definition ctx_ok (n : nat) (c : ctx) (v : option view) : Prop :=
  match MaybeGet c, v with None, None => True | Some t, Some v => stands n t v | _, _ => False end.
Definition region_ok (n : nat) (r : trace * string) (v : view * string) : Prop := snd r = snd v /\ stands n (fst r) (fst v).

Record Inv (z : ez) (k : book) : Prop := MkInv {
  i_traces : accounts_ok (map t_core (z_freed z)) (z_sys z) (k_traces k);
  i_source : c_source (z_coll (z_ezcoll z)) = k_source k;
  i_newtrace : z_newtrace (z_ezcoll z) = true;
  i_decorators : Forall (fun d => d <> DPublish) (c_decorators (z_coll (z_ezcoll z)));
  i_ctx : Forall2 (ctx_ok (length (k_traces k))) (z_ctx z) (k_ctx k);
  i_regions : Forall2 (region_ok (length (k_traces k))) (z_regions z) (k_regions k);
  i_stored : exists ops, Forall valid_op ops /\
    coll_run nil_trace new_collector_storage ops = Ok (c_categories (z_coll (z_ezcoll z)), z_freed z) /\
    k_stored k = map (op_map t_core) ops /\
    NoDup (created (k_stored k)) /\ (forall n, In n (created (k_stored k)) -> (n < length (k_traces k))%nat)
}.

Lemma Forall2_nth_d {A B} (P : A -> B -> Prop) l l' i d d' : Forall2 P l l' -> P d d' -> P (nth i l d) (nth i l' d').
Proof. intros H D. revert i. induction H as [|x y l l' Hxy H IH]; intros [|i]; cbn; auto. Qed.
Lemma Forall2_nth_e {A B} (P : A -> B -> Prop) l l' i : Forall2 P l l' ->
  match nth_error l i, nth_error l' i with Some x, Some y => P x y | None, None => True | _, _ => False end.
Proof. intros H. revert i. induction H as [|x y l l' Hxy H IH]; intros [|i]; cbn; auto. apply IH. Qed.
Lemma ctx_mono n n' c v : (n <= n')%nat -> ctx_ok n c v -> ctx_ok n' c v.
Proof. unfold ctx_ok, stands. intros L. destruct (MaybeGet c), v; auto. intros (A & B & C). split; [exact A|]. split; [exact B|]. lia. Qed.
Lemma ctxs_mono n n' l l' : (n <= n')%nat -> Forall2 (ctx_ok n) l l' -> Forall2 (ctx_ok n') l l'.
Proof. intros L H. induction H; constructor; auto. eapply ctx_mono; eassumption. Qed.
Lemma regions_mono n n' l l' : (n <= n')%nat -> Forall2 (region_ok n) l l' -> Forall2 (region_ok n') l l'.
Proof. intros L H. induction H as [|x y ? ? Hxy]; constructor; auto. destruct Hxy as (A & B & C & D). repeat split; auto. lia. Qed.

(** the trace of a context *)
Lemma Get_ok freed z k i b : accounts_ok freed (z_sys z) (k_traces k) -> Forall2 (ctx_ok (length (k_traces k))) (z_ctx z) (k_ctx k) ->
  exists s t, Get b (the_ctx z i) (z_sys z) = (s, t) /\ accounts_ok freed s (fst (got k i b)) /\
    stands (length (fst (got k i b))) t (snd (got k i b)) /\ (length (k_traces k) <= length (fst (got k i b)))%nat /\
    (MaybeGet (the_ctx z i) = None -> t_core t = length (k_traces k) /\ t = TCore (length (k_traces k))) /\
    (forall t', MaybeGet (the_ctx z i) = Some t' -> t = t' /\ s = z_sys z).
Proof.
  intros H C. pose proof (Forall2_nth_d (ctx_ok (length (k_traces k))) _ _ i Background None C Logic.I) as K.
  fold (the_ctx z i) in K. fold (the_view k i) in K. unfold Get, got. unfold ctx_ok in K.
  destruct (MaybeGet (the_ctx z i)) as [t|], (the_view k i) as [v|]; try contradiction.
  - exists (z_sys z), t. cbn [fst snd]. repeat (split; auto); discriminate || congruence.
  - pose proof (ok_new freed (z_sys z) (k_traces k) b "" "(orphan)" H) as N.
    destruct (new_core b "" "(orphan)" (z_sys z)) as [s t] eqn:E. cbn [fst] in N.
    assert (Et : t = TCore (length (k_traces k))) by (unfold new_core in E; destruct H as [L _]; rewrite L in E; congruence).
    exists s, t. cbn [fst snd]. split; [reflexivity|]. split; [exact N|]. rewrite app_length. cbn [length]. subst t.
    split; [unfold stands, view_of, bare_view; cbn; repeat split; lia|]. split; [lia|]. split; [auto|]. discriminate.
Qed.

Lemma prefix_view n (t : trace) (v : view) pf pa : stands n t v ->
  stands n (TPrefix t pf pa) (MkView (v_trace v) (v_format v ++ pf) (v_args v ++ pa)).
Proof. intros (A & B & C). subst v. repeat split; auto. Qed.

(** the last part of a NewTrace: decorators and storage *)
Lemma new_step z k i category (b : birth) ds es : Inv z k -> MaybeGet (the_ctx z i) = None ->
  exists z', z_step z (ENew i category b ds es) = Ok z' /\
  Inv z' (MkBook (k_source k) (k_traces k ++ [MkAccount (born b) (k_source k) category []]) (k_ctx k ++ [Some (bare_view (length (k_traces k)))])
                 (k_regions k) (k_stored k ++ [CNew category (length (k_traces k))])).
Proof.
  intros I0 Hc. destruct I0 as [IT IS IN ID IC IR (ops & Hv & Hrun & Hst & Hnd & Hlt)].
  cbn [M_Easy.z_step]. rewrite Hc, IN. unfold M_Decor.NewTrace. rewrite Hc. unfold M_Decor.New.
  set (coll := z_coll (z_ezcoll z)) in *. set (n := length (k_traces k)) in *.
  pose proof (ok_new _ _ _ b (c_source coll) category IT) as OK0. pose proof (proj1 IT) as L.
  destruct (new_core b (c_source coll) category (z_sys z)) as [s0 t0] eqn:E0. cbn [fst] in OK0.
  assert (Et0 : t0 = TCore n) by (unfold new_core in E0; rewrite L in E0; unfold n; congruence). subst t0.
  cbn [M_Decor.decorate_all M_Decor.decorate].
  destruct (publish_core_ok Sprintf CallersFrames Compile MatchString caps (ds O) n s0) as (s1 & E1). rewrite E1. cbn [bind].
  assert (H0 : exists_ s0 (TCore n)) by (destruct OK0 as [L0 _]; unfold exists_; rewrite L0, app_length; cbn; fold n; lia).
  destruct (publish_grows _ _ _ _ _ _ _ _ _ H0 E1) as (_ & rs & R & G). cbn [t_core] in G.
  assert (Hn : (n < length (k_traces k ++ [MkAccount (arg:=arg) (born b) (c_source coll) category []]))%nat) by (rewrite app_length; cbn; fold n; lia).
  pose proof (ok_reads _ _ _ _ n rs OK0 Hn G R) as OK1.
  cbn [Put]. destruct (decorate_logs Sprintf CallersFrames Compile MatchString str caps _ ID (inner_envs ds) (TPublish (TCore n)) s1) as (t' & s2 & E2 & Ec2 & Eb2). rewrite E2. cbn [bind].
  assert (H1 : exists_ s1 (TPublish (TCore n))) by exact (exists_grows _ _ _ _ _ _ (TPublish (TCore n)) G H0).
  destruct (decorate_all_spec _ _ _ _ _ _ _ _ _ _ _ _ H1 E2) as (Et & Hcore & _). cbn [t_core] in Hcore.
  destruct (coll_run_spec nil_trace ops new_collector_storage [] CRep_init Hv) as (cats & fr & Er & HR). rewrite Hrun in Er. injection Er as <- <-. cbn [app] in HR.
  destruct (coll_step_spec nil_trace _ _ (CNew category t') HR Logic.I) as (cats' & fr' & Es & _). pose proof Es as Es'. cbn [coll_step] in Es. rewrite Es. cbn [bind].
  eexists. split; [reflexivity|].
  assert (Shape : view_of t' = bare_view n /\ as_collected t' = true).
  { rewrite Et. clear -ID. unfold bare_view.
    assert (Gen : forall decs t0, Forall (fun d => d <> DPublish) decs -> view_of t0 = MkView n "" [] -> as_collected t0 = true ->
      view_of (fold_left (wrap s1) decs t0) = MkView n "" [] /\ as_collected (fold_left (wrap s1) decs t0) = true).
    { induction decs as [|d decs IH]; intros t0 Hd V A; [auto|]. inversion Hd as [|? ? Hd1 Hd2]; subst. destruct d as [|dst]; [congruence|]. cbn [fold_left].
      apply IH; auto. }
    apply Gen; auto. }
  constructor; cbn [z_sys z_ezcoll z_coll z_newtrace z_ctx z_regions z_freed c_source c_decorators c_categories k_traces k_source k_ctx k_regions k_stored].
  - rewrite map_app. apply ok_free. apply (ok_cores _ s1); [exact Ec2|]. rewrite <- IS. exact OK1.
  - exact IS.
  - reflexivity.
  - exact ID.
  - rewrite app_length. cbn [length]. apply Forall2_app; [eapply ctxs_mono; [|exact IC]; lia|]. constructor; [|constructor].
    unfold ctx_ok. cbn [Put MaybeGet]. fold n. destruct Shape as [S1 S2]. split; [exact S1|]. split; [exact S2|]. rewrite Hcore. lia.
  - rewrite app_length. cbn [length]. eapply regions_mono; [|exact IR]. lia.
  - exists (ops ++ [CNew category t']). split; [apply Forall_app; split; [exact Hv|constructor; [exact Logic.I|constructor]]|].
    split; [apply (coll_run_snoc _ _ _ _ _ _ _ _ Hrun Es')|]. split; [rewrite map_app, Hst; cbn [map op_map]; rewrite Hcore; reflexivity|].
    split.
    + rewrite created_snoc. cbn [created flat_map app]. apply NoDup_snoc_; [exact Hnd|]. intros I1. apply Hlt in I1. lia.
    + intros m I1. rewrite created_snoc in I1. cbn [created flat_map app] in I1. rewrite app_length. cbn [length]. fold n.
      apply in_app_iff in I1 as [I1|[<-|[]]]; [apply Hlt in I1; lia|lia].
Qed.

Lemma step_ok z k o : Inv z k -> proper o -> exists z', z_step z o = Ok z' /\ Inv z' (book_step k o).
Proof.
  intros I0 Hp. destruct I0 as [IT IS IN ID IC IR IST].
  assert (CTX : forall i, ctx_ok (length (k_traces k)) (the_ctx z i) (the_view k i)).
  { intros i. exact (Forall2_nth_d (ctx_ok (length (k_traces k))) _ _ i Background None IC Logic.I). }
  assert (STORE : forall ts, (length (k_traces k) <= length ts)%nat -> exists ops, Forall valid_op ops /\
    coll_run nil_trace new_collector_storage ops = Ok (c_categories (z_coll (z_ezcoll z)), z_freed z) /\
    k_stored k = map (op_map t_core) ops /\ NoDup (created (k_stored k)) /\ (forall n, In n (created (k_stored k)) -> (n < length (A:=account) ts)%nat)).
  { intros ts Hl. destruct IST as (ops & A & B & C & D & E). exists ops. repeat (split; [assumption|]). intros n I1. apply E in I1. lia. }
  destruct o as [name|given|decs|cap order|i category b ds es|i format args b|i name b1 b2 es|r took es|i kd format args b es|i b es|i].
  - eexists. split; [reflexivity|]. constructor; auto.
  - cbn in Hp. subst given. eexists. split; [reflexivity|]. constructor; auto.
  - eexists. split; [reflexivity|]. constructor; auto.
  - cbn in Hp. destruct IST as (ops & Hv & Hrun & Hst & Hnd & Hlt). cbn [M_Easy.z_step book_step].
    destruct (coll_run_spec nil_trace ops new_collector_storage [] CRep_init Hv) as (cats & fr & Er & HR). rewrite Hrun in Er. injection Er as <- <-. cbn [app] in HR.
    destruct (coll_step_spec nil_trace _ _ (CSize cap order) HR Hp) as (cats' & fr' & Es & _). pose proof Es as Es'. cbn [coll_step] in Es. rewrite Es. cbn [bind].
    eexists. split; [reflexivity|].
    constructor; cbn [z_sys z_ezcoll z_coll z_newtrace z_ctx z_regions z_freed c_source c_decorators c_categories k_traces k_source k_ctx k_regions k_stored]; auto.
    + rewrite map_app. apply ok_free. exact IT.
    + exists (ops ++ [CSize cap order]). split; [apply Forall_app; split; [exact Hv|constructor; [exact Hp|constructor]]|].
      split; [apply (coll_run_snoc _ _ _ _ _ _ _ _ Hrun Es')|]. split; [rewrite map_app, Hst; reflexivity|].
      rewrite created_snoc. cbn [created flat_map]. rewrite app_nil_r. auto.
  - cbn [book_step]. destruct (the_view k i) as [v|] eqn:Ev.
    + pose proof (CTX i) as K. rewrite Ev in K. unfold ctx_ok in K. destruct (MaybeGet (the_ctx z i)) as [t|] eqn:Et; [|contradiction].
      destruct K as (V & A & Lt). cbn [M_Easy.z_step]. rewrite Et. unfold M_Decor.NewTrace. rewrite Et.
      destruct (t_log_ok Sprintf CallersFrames Compile MatchString caps t A KLazyTracef "(+ %s)" [str category] es (z_sys z)) as (s' & E). rewrite E. cbn [bind].
      eexists. split; [reflexivity|].
      pose proof (ok_log _ _ _ _ _ _ _ _ _ IT Lt E) as OK1. rewrite V in OK1.
      constructor; cbn [z_sys z_ezcoll z_coll z_newtrace z_ctx z_regions z_freed c_source c_decorators c_categories k_traces k_source k_ctx k_regions k_stored add_ctx set_traces];
        rewrite ?app_nil_r, ?receive_length; auto.
      apply Forall2_app; [exact IC|]. constructor; [|constructor]. unfold ctx_ok. rewrite Et. split; auto.
    + pose proof (CTX i) as K. rewrite Ev in K. unfold ctx_ok in K. destruct (MaybeGet (the_ctx z i)) as [t|] eqn:Et; [contradiction|].
      apply new_step; [constructor; auto|exact Et].
  - cbn [M_Easy.z_step book_step]. unfold Prefix.
    destruct (Get_ok _ z k i b IT IC) as (s & t & Eg & OK1 & ST & Hl & N & So). rewrite Eg. destruct (got k i b) as [ts v] eqn:Egot. cbn [fst snd] in *.
    destruct (String.eqb (TrimSpace format) "").
    + eexists. split; [reflexivity|].
      constructor; cbn [push_ctx with_sys z_sys z_ezcoll z_ctx z_regions z_freed k_traces k_source k_ctx k_regions k_stored add_ctx set_traces]; auto.
      * apply Forall2_app; [eapply ctxs_mono; [exact Hl|exact IC]|]. constructor; [|constructor]. eapply ctx_mono; [exact Hl|apply CTX].
      * eapply regions_mono; [exact Hl|exact IR].
    + cbn [Put]. eexists. split; [reflexivity|].
      constructor; cbn [push_ctx with_sys z_sys z_ezcoll z_ctx z_regions z_freed k_traces k_source k_ctx k_regions k_stored add_ctx set_traces]; auto.
      * apply Forall2_app; [eapply ctxs_mono; [exact Hl|exact IC]|]. constructor; [|constructor]. unfold ctx_ok. cbn [MaybeGet]. apply prefix_view. exact ST.
      * eapply regions_mono; [exact Hl|exact IR].
  - cbn [M_Easy.z_step book_step]. unfold M_Decor.Region_begin, Prefix.
    destruct (Get_ok _ z k i b1 IT IC) as (s & t & Eg & OK1 & ST & Hl & N & So). rewrite Eg. destruct (got k i b1) as [ts v] eqn:Egot. cbn [fst snd] in *.
    assert (TB : TrimSpace bullet = bullet) by (vm_compute; reflexivity). rewrite TB.
    assert (EB : String.eqb bullet "" = false) by reflexivity. rewrite EB.
    pose proof (CTX i) as K. unfold ctx_ok in K. unfold got in Egot.
    destruct (MaybeGet (the_ctx z i)) as [t0|] eqn:Et, (the_view k i) as [v0|] eqn:Ev; try contradiction.
    + injection Egot as <- <-. destruct (So t0 eq_refl) as [-> ->]. unfold Get. rewrite Et. cbn [Put].
      destruct ST as (V & A & Lt).
      destruct (t_log_ok Sprintf CallersFrames Compile MatchString caps t0 A KLazyTracef (arrow_in ++ " " ++ name)%string [] es (z_sys z)) as (s' & E). rewrite E. cbn [bind].
      eexists. split; [reflexivity|]. pose proof (ok_log _ _ _ _ _ _ _ _ _ IT Lt E) as OK2. rewrite V in OK2.
      constructor; cbn [z_sys z_ezcoll z_ctx z_regions z_freed k_traces k_source k_ctx k_regions k_stored]; rewrite ?receive_length; auto.
      * apply Forall2_app; [exact IC|]. constructor; [|constructor]. unfold ctx_ok. cbn [MaybeGet].
        replace (v_args v0) with (v_args v0 ++ []) by apply app_nil_r. apply prefix_view. split; auto.
      * apply Forall2_app; [exact IR|]. constructor; [|constructor]. split; [reflexivity|]. split; auto.
    + injection Egot as <- <-. destruct (N eq_refl) as [Ec ->]. cbn [t_core] in Ec. unfold Get. rewrite Et.
      pose proof (ok_new _ _ _ b2 "" "(orphan)" OK1) as OK2. destruct (new_core b2 "" "(orphan)" s) as [s2 t2] eqn:E2. cbn [fst] in OK2. cbn [Put].
      assert (Et2 : t2 = TCore (length (k_traces k ++ [orphan b1]))) by (unfold new_core in E2; destruct OK1 as [L1 _]; rewrite L1 in E2; congruence). subst t2.
      assert (OK2l : (t_core (TCore (arg:=arg) (length (k_traces k))) < length ((k_traces k ++ [orphan b1]) ++ [orphan b2]))%nat) by (cbn [t_core]; rewrite !app_length; cbn; lia).
      destruct (t_log_ok Sprintf CallersFrames Compile MatchString caps (TCore (length (k_traces k))) eq_refl KLazyTracef (arrow_in ++ " " ++ name)%string [] es s2) as (s' & E). rewrite E. cbn [bind].
      eexists. split; [reflexivity|]. pose proof (ok_log _ _ _ _ _ _ _ _ _ OK2 OK2l E) as OK3.
      assert (Hl2 : (length (k_traces k) <= length ((k_traces k ++ [orphan b1]) ++ [orphan b2]))%nat) by (rewrite !app_length; lia).
      constructor; cbn [z_sys z_ezcoll z_ctx z_regions z_freed k_traces k_source k_ctx k_regions k_stored]; rewrite ?receive_length; auto.
      * apply Forall2_app; [eapply ctxs_mono; [exact Hl2|exact IC]|]. constructor; [|constructor]. unfold ctx_ok. cbn [MaybeGet].
        split; [reflexivity|]. split; [reflexivity|]. cbn [t_core]. rewrite !app_length. cbn. lia.
      * apply Forall2_app; [eapply regions_mono; [exact Hl2|exact IR]|]. constructor; [|constructor]. split; [reflexivity|]. split; [reflexivity|]. split; [reflexivity|exact OK2l].
  - cbn [M_Easy.z_step book_step]. pose proof (Forall2_nth_e _ _ _ r IR) as K.
    destruct (nth_error (z_regions z) r) as [[t name]|], (nth_error (k_regions k) r) as [[v name']|]; try contradiction.
    + destruct K as [E (V & A & Lt)]. cbn [fst snd] in *. subst name'. unfold M_Decor.Region_end.
      destruct (t_log_ok Sprintf CallersFrames Compile MatchString caps t A KLazyTracef (arrow_out ++ " " ++ name ++ " [%s]")%string [str (HumanizeDuration took)] es (z_sys z)) as (s' & E). rewrite E. cbn [bind].
      eexists. split; [reflexivity|]. pose proof (ok_log _ _ _ _ _ _ _ _ _ IT Lt E) as OK2. rewrite V in OK2.
      constructor; cbn [with_sys set_traces z_sys z_ezcoll z_ctx z_regions z_freed k_traces k_source k_ctx k_regions k_stored]; rewrite ?receive_length; auto.
    + eexists. split; [reflexivity|]. constructor; auto.
  - cbn [M_Easy.z_step book_step].
    destruct (Get_ok _ z k i b IT IC) as (s & t & Eg & OK1 & (V & A & Lt) & Hl & N & So). rewrite Eg. destruct (got k i b) as [ts v] eqn:Egot. cbn [fst snd] in *.
    destruct (t_log_ok Sprintf CallersFrames Compile MatchString caps t A kd format args es s) as (s' & E). rewrite E. cbn [bind].
    eexists. split; [reflexivity|]. pose proof (ok_log _ _ _ _ _ _ _ _ _ OK1 Lt E) as OK2. rewrite V in OK2.
    constructor; cbn [with_sys set_traces z_sys z_ezcoll z_ctx z_regions z_freed k_traces k_source k_ctx k_regions k_stored]; rewrite ?receive_length; auto.
    + eapply ctxs_mono; [exact Hl|exact IC].
    + eapply regions_mono; [exact Hl|exact IR].
  - cbn [M_Easy.z_step book_step].
    destruct (Get_ok _ z k i b IT IC) as (s & t & Eg & OK1 & (V & A & Lt) & Hl & N & So). rewrite Eg. destruct (got k i b) as [ts v] eqn:Egot. cbn [fst snd] in *.
    destruct (t_Finish_ok Sprintf CallersFrames Compile MatchString str caps t A es s) as (s' & E). rewrite E. cbn [bind].
    eexists. split; [reflexivity|]. pose proof (ok_Finish _ _ _ _ _ _ OK1 Lt E) as OK2. rewrite V in OK2.
    constructor; cbn [with_sys set_traces z_sys z_ezcoll z_ctx z_regions z_freed k_traces k_source k_ctx k_regions k_stored]; rewrite ?receive_length; auto.
    + eapply ctxs_mono; [exact Hl|exact IC].
    + eapply regions_mono; [exact Hl|exact IR].
  - eexists. split; [reflexivity|]. constructor; auto. cbn [push_ctx book_step add_ctx z_ctx k_ctx k_traces].
    apply Forall2_app; [exact IC|]. constructor; [|constructor]. unfold ctx_ok. cbn [MaybeGet]. apply CTX.
Qed.

Lemma Inv_init : Inv z_init book_init.
Proof.
  constructor; cbn; auto.
  - split; [reflexivity|]. intros [|i] a H; discriminate.
  - repeat constructor.
  - exists []. repeat split; auto; try constructor. intros n [].
Qed.
Lemma run_ok ops : forall z k, Inv z k -> Forall proper ops -> exists z', z_run z ops = Ok z' /\ Inv z' (fold_left book_step ops k).
Proof.
  induction ops as [|o ops IH]; intros z k I0 Hp; cbn [M_Easy.z_run fold_left]; [eauto|]. inversion Hp as [|? ? H1 H2]; subst.
  destruct (step_ok z k o I0 H1) as (z1 & E & I1). rewrite E. cbn [bind]. apply IH; assumption.
Qed.

(** C81.  Whatever a program does through the easy interface (with log decorators only):
    nothing panics, each context stands for the trace the books say, each trace has the source,
    the category and the calls the books say (until the collector drops it), and the collector
    holds the most recent ones of each category. *)
Theorem C81_the_books_are_right :
  forall ops, Forall proper ops ->
  exists z, z_run z_init ops = Ok z /\
  let k := books ops in
  length (s_cores (z_sys z)) = length (k_traces k) /\
  (forall i, option_map view_of (MaybeGet (the_ctx z i)) = the_view k i) /\
  (forall i a, nth_error (k_traces k) i = Some a ->
     Source (core_at (z_sys z) i) = a_source a /\ Category (core_at (z_sys z) i) = a_category a /\
     ((exists c, In i (held c (k_stored k))) \/ ~ In i (created (k_stored k)) -> has_received (core_at (z_sys z) i) a)) /\
  (forall c, mentioned c (k_stored k) ->
     exists l, category_content (c_categories (z_coll (z_ezcoll z))) c = Some (Ok l) /\ map t_core l = held c (k_stored k)) /\
  (forall c, ~ mentioned c (k_stored k) -> category_content (c_categories (z_coll (z_ezcoll z))) c = None).
Proof.
  intros ops Hp. destruct (run_ok ops _ _ Inv_init Hp) as (z & E & I0). exists z. split; [exact E|]. fold (books ops) in I0. cbv zeta. set (k := books ops) in *.
  destruct I0 as [IT IS IN ID IC IR (cops & Hv & Hrun & Hst & Hnd & Hlt)].
  destruct (collector_holds_most_recent nil_trace cops Hv) as (cats & fr & Er & _ & _ & _ & Hk & Hc). rewrite Hrun in Er. injection Er as <- <-.
  destruct (coll_run_spec nil_trace cops new_collector_storage [] CRep_init Hv) as (cats & fr & Er & HR). rewrite Hrun in Er. injection Er as <- <-. cbn [app] in HR.
  split; [apply IT|]. split; [|split; [|split]].
  - intros i. pose proof (Forall2_nth_d (ctx_ok (length (k_traces k))) _ _ i Background None IC Logic.I) as K. fold (the_ctx z i) (the_view k i) in K.
    unfold ctx_ok in K. destruct (MaybeGet (the_ctx z i)), (the_view k i); try contradiction; [|reflexivity]. destruct K as [V _]. cbn. rewrite V. reflexivity.
  - intros i a Hi. destruct IT as [_ IT]. destruct (IT i a Hi) as [[N1 N2] Rr]. split; [exact N1|]. split; [exact N2|]. intros H. apply Rr. intros F.
    destruct (evicted_freed_once nil_trace cops _ _ Hv Hrun) as (contents & HA & HP).
    pose proof (Permutation_map t_core HP) as HP'. rewrite <- created_map, <- Hst, map_app in HP'.
    destruct H as [(c & H)|H].
    + rewrite Hst, held_map in H. apply in_map_iff in H as (t & Et & H).
      assert (Hm : mentioned c cops) by (destruct (held_mentioned cops c t H) as (t' & Ht'); exists t'; exact Ht').
      assert (Ht : In t contents).
      { rewrite (all_contents_spec nil_trace _ _ _ HR) in HA. injection HA as <-. apply in_flat_map. exists c. split; [apply Hk; exact Hm|]. rewrite olist_fspec. exact H. }
      pose proof (Permutation_NoDup HP' Hnd) as ND. apply (NoDup_app_disjoint _ _ ND i); [|exact F]. rewrite <- Et. apply in_map. exact Ht.
    + apply H. apply (Permutation_in _ (Permutation_sym HP')). apply in_or_app. right. exact F.
  - intros c Hm. rewrite Hst in Hm. apply mentioned_map in Hm. exists (held c cops). split; [apply Hc; exact Hm|]. rewrite Hst, held_map. reflexivity.
  - intros c Hm. rewrite (content_spec nil_trace _ _ _ c HR). destruct (fspec cops c) eqn:Ef; [|reflexivity]. exfalso. apply Hm. rewrite Hst. apply mentioned_map.
    apply fspec_mentioned. congruence.
Qed.

(** An event in a context without a trace is lost: no trace that exists, no stream, no log and
    no collector sees it. *)
Theorem C81_events_without_a_trace_are_lost :
  forall (z : ez) i kd format args b es z', MaybeGet (the_ctx z i) = None ->
  z_step z (EEvent i kd format args b es) = Ok z' ->
  (forall j, (j < length (s_cores (z_sys z)))%nat -> core_at (z_sys z') j = core_at (z_sys z) j) /\
  s_broker (z_sys z') = s_broker (z_sys z) /\ s_out (z_sys z') = s_out (z_sys z) /\
  z_ezcoll z' = z_ezcoll z /\ z_ctx z' = z_ctx z /\ z_regions z' = z_regions z.
Proof.
  intros z i kd format args b es z' H E. cbn [M_Easy.z_step] in E. unfold Get in E. rewrite H in E. unfold new_core in E. cbn [M_Decor.t_log bind] in E.
  injection E as <-. cbn [with_sys z_sys z_ezcoll z_ctx z_regions s_broker s_out set_core]. repeat (split; [|auto]); auto.
  intros j Hj. unfold core_at. cbn [s_cores set_core]. rewrite nth_update_far by lia. apply app_nth1. exact Hj.
Qed.

(** A new trace is in the collector, newest in its category, with the source name set last. *)
Theorem C81_new_traces_are_collected :
  forall ops i category b ds es z, Forall proper ops -> z_run z_init ops = Ok z -> MaybeGet (the_ctx z i) = None ->
  exists z' t older, z_step z (ENew i category b ds es) = Ok z' /\
    MaybeGet (the_ctx z' (length (z_ctx z))) = Some t /\
    category_content (c_categories (z_coll (z_ezcoll z'))) category = Some (Ok (t :: older)) /\
    Category (core_at (z_sys z') (t_core t)) = category /\
    Source (core_at (z_sys z') (t_core t)) =
      fold_left (fun s o => match o with ESource name => name | _ => s end) ops "default".
Proof.
  intros ops i category b ds es z Hp E H. destruct (run_ok ops _ _ Inv_init Hp) as (z0 & E0 & I0). rewrite E in E0. injection E0 as <-.
  destruct (new_step z _ i category b ds es I0 H) as (z' & Es & I1). pose proof (i_newtrace _ _ I0) as IN0. pose proof Es as Es0. cbn [M_Easy.z_step] in Es0. rewrite H, IN0 in Es0.
  apply bind_ok in Es0 as (((((c' & t) & s') & coll') & dropped) & EN & Es0). injection Es0 as Ez.
  assert (Src : k_source (fold_left book_step ops book_init) = fold_left (fun s o => match o with ESource name => name | _ => s end) ops "default").
  { clear. change "default" with (k_source (arg:=arg) book_init). generalize (book_init (arg:=arg)). induction ops as [|o ops IH]; intros k; [reflexivity|]. cbn [fold_left]. rewrite IH. f_equal.
    destruct o; try reflexivity; cbn [S_Easy.book_step].
    - destruct (the_view k k0); reflexivity.
    - destruct (got k k0 _). reflexivity.
    - destruct (got k k0 _). reflexivity.
    - destruct (nth_error (k_regions k) r) as [[? ?]|]; reflexivity.
    - destruct (got k k0 _). reflexivity.
    - destruct (got k k0 _). reflexivity. }
  set (k := fold_left book_step ops book_init) in *.
  destruct I0 as [IT IS IN ID IC IR (cops & Hv & Hrun & Hst & Hnd & Hlt)].
  assert (Hheld : forall cat t0, In t0 (held cat cops) -> exists_ (z_sys z) t0).
  { intros cat t0 I2. unfold exists_. rewrite (proj1 IT). apply Hlt. rewrite Hst, created_map. apply in_map.
    destruct (held_created cops cat t0 I2) as [c2 I3]. unfold created. apply in_flat_map. exists (CNew c2 t0). split; [exact I3|left; reflexivity]. }
  destruct (C44_new_trace Sprintf CallersFrames Compile MatchString str caps (z_coll (z_ezcoll z)) b (the_ctx z i) category ds es (z_sys z) cops (z_freed z) H ID Hv Hrun Hheld)
    as (c2 & t2 & s2 & coll2 & dr2 & EN2 & Hcore & _ & Hget & (older & Hcont & _) & _ & (HS & HC & _) & _).
  unfold M_Decor.NewTrace in EN, EN2. rewrite EN2 in EN. injection EN as <- <- <- <- <-.
  exists z', t2, older. split; [exact Es|]. subst z'. cbn [z_sys z_ezcoll z_coll z_ctx the_ctx]. unfold the_ctx. cbn [z_ctx]. rewrite app_nth2, Nat.sub_diag by lia. cbn [nth].
  split; [exact Hget|]. split; [exact Hcont|]. split; [exact HC|]. rewrite HS, IS. exact Src.
Qed.

(** Finding: a prefix or a region in a context without a trace puts an orphan into the context,
    and then New makes no trace: the collector never sees the request. *)
Theorem C81_prefix_before_new_refuted :
  forall b b' ds es category,
  exists z, z_run z_init [EPrefix 0 "handler" [] b; ENew 1 category b' ds es] = Ok z /\
  (forall c, category_content (c_categories (z_coll (z_ezcoll z))) c = None) /\
  map (fun t => Category (core_at (z_sys z) (t_core t))) (match MaybeGet (the_ctx z 2) with Some t => [t] | None => [] end) = ["(orphan)"].
Proof.
  intros b b' ds es category. destruct (C81_the_books_are_right [EPrefix 0 "handler" [] b; ENew 1 category b' ds es]) as (z & E & _ & V & A & _ & M).
  { repeat constructor. }
  exists z. split; [exact E|]. split.
  - intros c. apply M. intros (t & I1). vm_compute in I1. exact I1.
  - specialize (V 2%nat). vm_compute (the_view _ _) in V. destruct (MaybeGet (the_ctx z 2)) as [t|]; [|discriminate]. cbn [option_map] in V. injection V as V _ _. cbn [map].
    destruct (A 0%nat (MkAccount (born b) "" "(orphan)" [CallLog KLazyTracef "handler (+ %s)" [str category]]) eq_refl) as (_ & C & _). rewrite V, C. reflexivity.
Qed.
Theorem C81_region_before_new_refuted :
  forall b1 b2 b' ds es es' category,
  exists z, z_run z_init [ERegion 0 "handler" b1 b2 es'; ENew 1 category b' ds es] = Ok z /\
  (forall c, category_content (c_categories (z_coll (z_ezcoll z))) c = None).
Proof.
  intros b1 b2 b' ds es es' category. destruct (C81_the_books_are_right [ERegion 0 "handler" b1 b2 es'; ENew 1 category b' ds es]) as (z & E & _ & _ & _ & _ & M).
  { repeat constructor. }
  exists z. split; [exact E|]. intros c. apply M. intros (t & I1). vm_compute in I1. exact I1.
Qed.

(** Finding: SetNewTrace and SetSourceName do not put in the defaults that NewCollector does. *)
Theorem C81_setters_have_no_defaults_refuted :
  (forall decs, c_source (z_coll (NewCollector (arg:=arg) (MkConfig "" false decs))) = "default" /\ z_newtrace (NewCollector (arg:=arg) (MkConfig "" false decs)) = true) /\
  (forall category b ds es, z_run z_init [ENewTraceFunc false; ENew 0 category b ds es] = Panic) /\
  (forall category b ds es, exists z, z_run z_init [ESource ""; ENew 0 category b ds es] = Ok z /\ Source (core_at (z_sys z) 0) = "").
Proof.
  split; [|split].
  - intros. split; reflexivity.
  - reflexivity.
  - intros. destruct (C81_the_books_are_right [ESource ""; ENew 0 category b ds es]) as (z & E & _ & _ & H & _).
    { repeat constructor. }
    exists z. split; [exact E|]. destruct (H 0%nat (MkAccount (born b) "" category []) eq_refl) as (A & _). exact A.
Qed.
End Any.
Print Assumptions C81_the_books_are_right.
Print Assumptions C81_events_without_a_trace_are_lost.
Print Assumptions C81_new_traces_are_collected.
Print Assumptions C81_prefix_before_new_refuted.
Print Assumptions C81_region_before_new_refuted.
Print Assumptions C81_setters_have_no_defaults_refuted.

(** A program with everything in it: two traces, the second with another source; a prefix, a
    region, a second New in the same context, an event without a trace, a smaller collector. *)
Example C81_instance :
  forall (b : birth string unit) (es : nat -> denv string unit unit),
  let ops := [ EDecorators [DLog "log"]; ENew 0 "web" b es es; EEvent 1 KTracef "a" [] b es; EPrefix 1 "p" ["x"] b; EEvent 2 KErrorf "b" ["y"] b es;
               ESource "other"; ENew 1 "db" b es es; ENew 0 "web" b es es; EEvent 0 KTracef "lost" [] b es; EFinish 1 b es; ESize 1 (fun l => l) ] in
  Forall proper ops /\
  k_traces (books (fun x => x) ops) =
    [ MkAccount (born b) "default" "web" [CallLog KTracef "a" []; CallLog KErrorf "p b" ["x"; "y"]; CallLog KLazyTracef "(+ %s)" ["db"]; CallFinish];
      MkAccount (born b) "other" "web" [];
      MkAccount (born b) "" "(orphan)" [CallLog KTracef "lost" []] ] /\
  held "web" (k_stored (books (fun x => x) ops)) = [1]%nat.
Proof.
  cbv zeta. intros b es. split; [|split].
  - repeat constructor; try discriminate. intros l. apply Permutation_refl.
  - vm_compute. reflexivity.
  - reflexivity.
Qed.

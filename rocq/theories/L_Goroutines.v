From Coq Require Import List Bool Arith Lia Permutation.
From Verif Require Import M_Goroutines S_Goroutines.
Import ListNotations.

(** * MultiSearcher.Search *)
Record sc_inv (n : nat) (s : scatter) : Prop := {
  si_started : sc_started s <= n;
  si_not : forall i, sc_phase s i = SNot <-> sc_started s <= i;
  si_ended : forall i, sc_phase s i = SEnded <-> In i (sc_gathered s ++ sc_buffer s);
  si_nodup : NoDup (sc_gathered s ++ sc_buffer s)
}.
Lemma supd_same f i x : supd f i x i = x.
Proof. unfold supd. now rewrite Nat.eqb_refl. Qed.
Lemma supd_other f i x j : j <> i -> supd f i x j = f j.
Proof. intros H. unfold supd. apply Nat.eqb_neq in H. now rewrite H. Qed.

Lemma sc_inv_reach n s : sc_reach n s -> sc_inv n s.
Proof.
  induction 1 as [|s s' R IH St].
  - split; cbn; try lia. + intros i. split; [lia|reflexivity]. + intros i. split; [discriminate|tauto]. + constructor.
  - destruct IH as [I1 I2 I3 I4]. destruct St; cbn in *.
    + split; cbn; auto.
      * intros i. unfold supd. destruct (Nat.eqb_spec i k) as [->|N]; [split; [discriminate|lia]|]. rewrite I2. lia.
      * intros i. unfold supd. destruct (Nat.eqb_spec i k) as [->|N]; [|apply I3].
        split; [discriminate|]. intros Hin. apply I3 in Hin. assert (ph k = SNot) by (apply I2; lia). congruence.
    + split; cbn; auto.
      * intros j. unfold supd. destruct (Nat.eqb_spec j i) as [->|N]; [|apply I2]. split; [discriminate|]. intros Hle. apply I2 in Hle. congruence.
      * intros j. unfold supd. destruct (Nat.eqb_spec j i) as [->|N]; [|apply I3]. split; [discriminate|]. intros Hin. apply I3 in Hin. congruence.
    + split; cbn; auto.
      * intros j. unfold supd. destruct (Nat.eqb_spec j i) as [->|N]; [|apply I2]. split; [discriminate|]. intros Hle. apply I2 in Hle. congruence.
      * intros j. rewrite app_assoc, in_app_iff. unfold supd. destruct (Nat.eqb_spec j i) as [->|N].
        -- split; intros; [right; now left|reflexivity].
        -- rewrite I3. cbn. split; [tauto|]. intros [Hin|[E|[]]]; [exact Hin|congruence].
      * rewrite app_assoc. apply Permutation_NoDup with (i :: g ++ b). { apply Permutation_cons_append. }
        constructor; [|exact I4]. intros Hin. apply I3 in Hin. congruence.
    + split; cbn; auto.
      * intros j. rewrite I3, !in_app_iff. cbn. tauto.
      * rewrite <- app_assoc. exact I4.
    + split; cbn; auto.
Qed.
Lemma sc_members n s i : sc_inv n s -> In i (sc_gathered s ++ sc_buffer s) -> i < n.
Proof.
  intros [I1 I2 I3 I4] Hin. apply I3 in Hin. destruct (Nat.le_gt_cases (sc_started s) i) as [Hle|Hgt]; [|lia].
  apply I2 in Hle. congruence.
Qed.
Lemma sc_count n s : sc_inv n s -> length (sc_gathered s) + length (sc_buffer s) <= n.
Proof.
  intros I. rewrite <- app_length. rewrite <- (seq_length n 0). apply NoDup_incl_length; [apply I|].
  intros i Hin. apply in_seq. pose proof (sc_members n s i I Hin). lia.
Qed.

(** * StreamClient.Stream *)
Record k_inv (done : bool) (k : call) : Prop := {
  ki_before : k_phase k = KBefore -> k_watcher k = WNone;
  ki_reading : k_phase k = KReading -> k_watcher k <> WNone;
  ki_closed : k_closed k = true <-> k_watcher k = WEnded;
  ki_done : k_watcher k = WEnded -> done = true
}.
Lemma k_inv_new d : k_inv d k_new.
Proof. split; cbn; try discriminate; try reflexivity. split; discriminate. Qed.
Lemma k_inv_step d k k' : k_inv d k -> k_step d k k' -> k_inv d k'.
Proof.
  intros [I1 I2 I3 I4] St. destruct St; cbn in *; split; cbn; try discriminate; auto.
  - specialize (I1 eq_refl). subst w. rewrite I3. split; discriminate.
  - intros E. specialize (I1 E). discriminate.
  - split; reflexivity.
Qed.
Lemma k_inv_done d k : k_inv d k -> k_inv true k.
Proof. intros [I1 I2 I3 I4]. split; auto. Qed.
Inductive k_steps (d : bool) : call -> call -> Prop :=
| k_refl k : k_steps d k k
| k_next k k' k'' : k_step d k k' -> k_steps d k' k'' -> k_steps d k k''.
Lemma k_ends k : k_inv true k -> exists k', k_steps true k k' /\ gone k'.
Proof.
  intros [I1 I2 I3 I4]. destruct k as [p w cl]. cbn in *.
  assert (W : exists k', k_steps true (MkK p w cl) k' /\ k_watcher k' <> WWaiting /\ k_phase k' = p /\ (p = KReading -> k_closed k' = true)).
  { destruct w.
    - exists (MkK p WNone cl). split; [constructor|]. cbn. split; [discriminate|]. split; [reflexivity|]. intros E. now elim (I2 E).
    - exists (MkK p WEnded true). split. { apply k_next with (MkK p WEnded true); [now constructor|constructor]. } cbn. split; [discriminate|split; reflexivity].
    - exists (MkK p WEnded cl). split; [constructor|]. cbn. split; [discriminate|]. split; [reflexivity|]. intros _. now apply I3. }
  destruct W as ([p' w' cl'] & S1 & S2 & S3 & S4). cbn in *. subst p'.
  assert (T : forall a b c, k_steps true a b -> k_steps true b c -> k_steps true a c).
  { clear. induction 1; intros; [assumption|]. econstructor; eauto. }
  destruct p.
  - exists (MkK KReturned w' cl'). split; [|split; [reflexivity|exact S2]]. eapply T; [exact S1|]. econstructor; [apply k_refuse|constructor].
  - specialize (S4 eq_refl). subst cl'. exists (MkK KReturned w' true). split; [|split; [reflexivity|exact S2]]. eapply T; [exact S1|]. econstructor; [apply k_end|constructor].
  - exists (MkK KReturned w' cl'). split; [exact S1|split; [reflexivity|exact S2]].
Qed.

Lemma cl_trans a b c : cl_steps a b -> cl_steps b c -> cl_steps a c.
Proof. induction 1; intros; [assumption|]. econstructor; eauto. Qed.
Lemma cl_inv s : cl_steps cl_init s -> Forall (k_inv (cl_done s)) (cl_calls s).
Proof.
  intros H. assert (G : forall a b, cl_steps a b -> Forall (k_inv (cl_done a)) (cl_calls a) -> Forall (k_inv (cl_done b)) (cl_calls b)).
  { clear. induction 1 as [|s s' s'' St Sts IH]; intros F; [exact F|]. apply IH. clear IH Sts. destruct St; cbn in *.
    - apply Forall_app. split; [exact F|]. constructor; [apply k_inv_new|constructor].
    - apply Forall_app in F. destruct F as [F1 F2]. inversion F2; subst. apply Forall_app. split; [exact F1|]. constructor; [|assumption]. eapply k_inv_step; eassumption.
    - eapply Forall_impl; [|exact F]. intros k I. eapply k_inv_done, I. }
  eapply G; [exact H|constructor].
Qed.
Lemma cl_lift l1 k k' l2 d : k_steps d k k' -> cl_steps (MkCalls (l1 ++ k :: l2) d) (MkCalls (l1 ++ k' :: l2) d).
Proof. induction 1; [constructor|]. econstructor; [apply cl_one; eassumption|assumption]. Qed.
Lemma cl_ends_from l : Forall (k_inv true) l -> forall l1, exists l', cl_steps (MkCalls (l1 ++ l) true) (MkCalls (l1 ++ l') true) /\ Forall gone l'.
Proof.
  induction 1 as [|k l I F IH]; intros l1.
  - exists []. split; constructor.
  - destruct (k_ends k I) as (k' & S & G). destruct (IH (l1 ++ [k'])) as (l' & S' & G'). exists (k' :: l'). split; [|now constructor].
    eapply cl_trans; [apply cl_lift, S|]. rewrite <- !app_assoc in S'. exact S'.
Qed.

(** * trc stream *)
Definition past (t : bool * call) : Prop := fst t = true /\ k_phase (snd t) = KReturned.
Definition t_inv (c : bool) (t : bool * call) : Prop := k_inv (fst t || c) (snd t).
Inductive shape : rphase -> list (bool * call) -> Prop :=
| sh_past ph ts : ph <> RSelect -> ph <> RJoin -> Forall past ts -> shape ph ts
| sh_select ts k : Forall past ts -> shape RSelect (ts ++ [(false, k)])
| sh_join ts k : Forall past ts -> shape RJoin (ts ++ [(true, k)]).
Record a_inv (c : bool) (a : addr) : Prop := {
  ai_shape : shape (a_run a) (a_turns a);
  ai_turns : Forall (t_inv c) (a_turns a);
  ai_over : match a_run a with RReport | RReturned | RJoin => c = true | _ => True end;
  ai_reporter : a_reporter a = false -> c = true;
  ai_returned : a_run a = RReturned -> a_reporter a = false
}.
Lemma a_inv_new : a_inv false a_new.
Proof. split; cbn; try discriminate; auto. apply sh_past; discriminate || constructor. Qed.
Lemma past_step c t k k' : past (t, k) -> k_step (t || c) k k' -> past (t, k').
Proof. intros [E P] St. cbn in *. split; [exact E|]. cbn. destruct St; cbn in *; congruence. Qed.
Lemma shape_call ph l1 t k k' l2 c : shape ph (l1 ++ (t, k) :: l2) -> k_step (t || c) k k' -> shape ph (l1 ++ (t, k') :: l2).
Proof.
  intros Sh St. inversion Sh as [ph0 ts N1 N2 F E1 E2|ts k0 F E1 E2|ts k0 F E1 E2].
  - subst. apply sh_past; auto. apply Forall_app in F. destruct F as [F1 F2]. inversion F2; subst. apply Forall_app. split; [exact F1|]. constructor; [|assumption]. eapply past_step; eassumption.
  - destruct l2 as [|x l2] using rev_ind.
    + apply app_inj_tail in E2. destruct E2 as [-> E]. injection E as <- <-. now apply sh_select.
    + clear IHl2. rewrite app_comm_cons, app_assoc in E2. apply app_inj_tail in E2. destruct E2 as [-> <-]. rewrite app_comm_cons, app_assoc. apply sh_select.
      apply Forall_app in F. destruct F as [F1 F2]. inversion F2; subst. apply Forall_app. split; [exact F1|]. constructor; [|assumption]. eapply past_step; eassumption.
  - destruct l2 as [|x l2] using rev_ind.
    + apply app_inj_tail in E2. destruct E2 as [-> E]. injection E as <- <-. now apply sh_join.
    + clear IHl2. rewrite app_comm_cons, app_assoc in E2. apply app_inj_tail in E2. destruct E2 as [-> <-]. rewrite app_comm_cons, app_assoc. apply sh_join.
      apply Forall_app in F. destruct F as [F1 F2]. inversion F2; subst. apply Forall_app. split; [exact F1|]. constructor; [|assumption]. eapply past_step; eassumption.
Qed.
Lemma shape_select ts t k : shape RSelect (ts ++ [(t, k)]) -> t = false /\ Forall past ts.
Proof.
  intros Sh. inversion Sh as [ph0 ts0 N1 N2 F E1 E2|ts0 k0 F E1 E2|].
  - congruence.
  - apply app_inj_tail in E2. destruct E2 as [-> E]. injection E as <- <-. auto.
Qed.
Lemma shape_join ts t k : shape RJoin (ts ++ [(t, k)]) -> t = true /\ Forall past ts.
Proof.
  intros Sh. inversion Sh as [ph0 ts0 N1 N2 F E1 E2| |ts0 k0 F E1 E2].
  - congruence.
  - apply app_inj_tail in E2. destruct E2 as [-> E]. injection E as <- <-. auto.
Qed.
Lemma shape_past ph ts : shape ph ts -> ph <> RSelect -> ph <> RJoin -> Forall past ts.
Proof. intros Sh N1 N2. destruct Sh; congruence || assumption. Qed.

Lemma a_inv_step c a a' : a_inv c a -> a_step c a a' -> a_inv c a'.
Proof.
  intros [I1 I2 I3 I4 I5] St. destruct St; cbn in *.
  - split; cbn; auto; try discriminate.
    + apply sh_select. apply (shape_past _ _ I1); discriminate.
    + apply Forall_app. split; [exact I2|]. constructor; [apply k_inv_new|constructor].
  - split; cbn; auto; try discriminate. apply sh_past; try discriminate. apply (shape_past _ _ I1); discriminate.
  - split; cbn; auto.
    + eapply shape_call; eassumption.
    + apply Forall_app in I2. destruct I2 as [F1 F2]. inversion F2; subst. apply Forall_app. split; [exact F1|]. constructor; [|assumption].
      unfold t_inv in *. cbn in *. eapply k_inv_step; eassumption.
  - apply shape_select in I1. destruct I1 as [-> P]. split; cbn in *; auto; try discriminate.
    + now apply sh_join.
    + apply Forall_app in I2. destruct I2 as [F1 F2]. inversion F2; subst. apply Forall_app. split; [exact F1|]. constructor; [|constructor].
      unfold t_inv in *. cbn in *. eapply k_inv_done; eassumption.
  - apply shape_select in I1. destruct I1 as [-> P]. split; cbn in *; auto; try discriminate.
    + apply sh_past; try discriminate. apply Forall_app. split; [exact P|]. constructor; [|constructor]. split; [reflexivity|assumption].
    + apply Forall_app in I2. destruct I2 as [F1 F2]. inversion F2; subst. apply Forall_app. split; [exact F1|]. constructor; [|constructor].
      unfold t_inv in *. cbn in *. eapply k_inv_done; eassumption.
  - apply shape_join in I1. destruct I1 as [-> P]. split; cbn in *; auto; try discriminate.
    apply sh_past; try discriminate. apply Forall_app. split; [exact P|]. constructor; [|constructor]. split; [reflexivity|assumption].
  - split; cbn; auto; try discriminate. apply sh_past; try discriminate. apply (shape_past _ _ I1); discriminate.
  - split; cbn; auto.
  - split; cbn; auto; try discriminate. apply sh_past; try discriminate. apply (shape_past _ _ I1); discriminate.
Qed.
Lemma a_inv_cancel c a : a_inv c a -> a_inv true a.
Proof.
  intros [I1 I2 I3 I4 I5]. split; auto.
  - eapply Forall_impl; [|exact I2]. intros [t k] I. unfold t_inv in *. cbn in *. rewrite orb_true_r. eapply k_inv_done, I.
  - now destruct (a_run a).
Qed.

Record st_inv (n : nat) (s : streams) : Prop := {
  xi_length : length (st_addrs s) = n;
  xi_addrs : Forall (a_inv (st_cancelled s)) (st_addrs s);
  xi_main : st_main s <> MWaiting -> st_cancelled s = true;
  xi_joined : st_main s = MReturned -> Forall (fun a => a_run a = RReturned) (st_addrs s)
}.
Lemma a_returned_step c a a' : a_step c a a' -> a_run a = RReturned -> a_run a' = RReturned.
Proof. intros St. destruct St; cbn; congruence. Qed.
Lemma st_inv_step n s s' : st_inv n s -> st_step s s' -> st_inv n s'.
Proof.
  intros [I1 I2 I3 I4] St. destruct St; cbn in *.
  - split; cbn; auto.
    + rewrite <- I1, !app_length. reflexivity.
    + apply Forall_app in I2. destruct I2 as [F1 F2]. inversion F2; subst. apply Forall_app. split; [exact F1|]. constructor; [|assumption]. eapply a_inv_step; eassumption.
    + intros E. specialize (I4 E). apply Forall_app in I4. destruct I4 as [F1 F2]. inversion F2; subst. apply Forall_app. split; [exact F1|]. constructor; [|assumption]. eapply a_returned_step; eassumption.
  - split; cbn; auto; discriminate.
  - split; cbn; auto. intros _. apply I3. discriminate.
  - split; cbn; auto. eapply Forall_impl; [|exact I2]. intros a. apply a_inv_cancel.
Qed.
Lemma st_inv_reach n s : st_steps (st_init n) s -> st_inv n s.
Proof.
  intros H. assert (G : forall a b, st_steps a b -> st_inv n a -> st_inv n b).
  { clear. induction 1; intros; [assumption|]. eauto using st_inv_step. }
  eapply G; [exact H|]. split; cbn; try discriminate; auto.
  - apply repeat_length.
  - apply Forall_forall. intros a Hin. apply repeat_spec in Hin. subst a. apply a_inv_new.
Qed.
Lemma st_trans a b c : st_steps a b -> st_steps b c -> st_steps a c.
Proof. induction 1; intros; [assumption|]. econstructor; eauto. Qed.

(** ** The way to the end *)
Inductive a_steps (c : bool) : addr -> addr -> Prop :=
| a_refl a : a_steps c a a
| a_next a a' a'' : a_step c a a' -> a_steps c a' a'' -> a_steps c a a''.
Lemma a_trans c x y z : a_steps c x y -> a_steps c y z -> a_steps c x z.
Proof. induction 1; intros; [assumption|]. econstructor; eauto. Qed.
Lemma a_lift c ph r l1 t k k' l2 : k_steps (t || c) k k' -> a_steps c (MkA ph r (l1 ++ (t, k) :: l2)) (MkA ph r (l1 ++ (t, k') :: l2)).
Proof. induction 1; [constructor|]. econstructor; [apply a_call; eassumption|assumption]. Qed.
Definition over (t : bool * call) : Prop := fst t = true /\ gone (snd t).
Lemma a_calls_end ph r ts : Forall (t_inv true) ts -> forall l1,
  exists ts', a_steps true (MkA ph r (l1 ++ ts)) (MkA ph r (l1 ++ ts')) /\ map fst ts' = map fst ts /\ Forall (fun t => gone (snd t)) ts'.
Proof.
  induction 1 as [|[t k] ts I F IH]; intros l1.
  - exists []. split; [constructor|]. split; [reflexivity|constructor].
  - unfold t_inv in I. cbn in I. rewrite orb_true_r in I. destruct (k_ends k I) as (k' & S & G).
    destruct (IH (l1 ++ [(t, k')])) as (ts' & S' & M & G'). exists ((t, k') :: ts'). split; [|split; [cbn; now rewrite M|now constructor]].
    eapply a_trans; [apply a_lift; rewrite orb_true_r; exact S|]. rewrite <- !app_assoc in S'. exact S'.
Qed.
Lemma past_told ts : Forall past ts -> map fst ts = repeat true (length ts).
Proof. induction 1 as [|[t k] ts [E _] F IH]; cbn in *; [reflexivity|]. subst t. now rewrite IH. Qed.
Lemma all_told ts' n : map fst ts' = repeat true n -> Forall (fun t : bool * call => gone (snd t)) ts' -> Forall over ts'.
Proof.
  revert n. induction ts' as [|[t k] ts' IH]; intros [|n] E F; cbn in *; try discriminate; constructor.
  - injection E as -> _. inversion F; subst. split; [reflexivity|assumption].
  - injection E as _ E. inversion F; subst. eapply IH; eassumption.
Qed.
Lemma a_ends a : a_inv true a -> exists a', a_steps true a a' /\ a_run a' = RReturned /\ a_reporter a' = false /\ Forall over (a_turns a').
Proof.
  intros [I1 I2 I3 I4 I5]. destruct a as [ph r ts]. cbn in *.
  assert (R : exists r', a_steps true (MkA ph r ts) (MkA ph r' ts) /\ r' = false).
  { destruct r; [exists false|exists false]; (split; [|reflexivity]); [|constructor]. econstructor; [now apply a_report|constructor]. }
  destruct R as (r' & R & ->).
  destruct (a_calls_end ph false ts I2 []) as (ts' & S & M & G). cbn in S.
  assert (K : forall ph' tt, Forall over tt -> ph' = RReport \/ ph' = RLoop \/ ph' = RSleep \/ ph' = RReturned ->
    exists a', a_steps true (MkA ph' false tt) a' /\ a_run a' = RReturned /\ a_reporter a' = false /\ Forall over (a_turns a')).
  { intros ph' tt F O. exists (MkA RReturned false tt). split; [|auto].
    assert (Last : a_steps true (MkA RReport false tt) (MkA RReturned false tt)) by (econstructor; [apply a_return|constructor]).
    assert (Loop : a_steps true (MkA RLoop false tt) (MkA RReturned false tt)) by (econstructor; [now apply a_leave|exact Last]).
    destruct O as [->|[->|[->| ->]]]; auto.
    - econstructor; [apply a_wake|exact Loop].
    - constructor. }
  assert (J : exists a', a_steps true (MkA ph false ts') a' /\ a_run a' = RReturned /\ a_reporter a' = false /\ Forall over (a_turns a')).
  { inversion I1 as [ph0 ts0 N1 N2 F E1 E2|ts0 k0 F E1 E2|ts0 k0 F E1 E2]; subst.
    - apply K. { eapply all_told; [|exact G]. rewrite M. apply past_told, F. } destruct ph; auto; congruence.
    - destruct ts' as [|[t k] ts' _] using rev_ind. { rewrite map_app in M. destruct (map fst ts0); discriminate M. }
      rewrite !map_app in M. cbn in M. apply app_inj_tail in M. destruct M as [M ->]. apply Forall_app in G. destruct G as [G1 G2].
      inversion G2 as [|? ? G3 _]; subst. cbn in G3.
      destruct (K RReport (ts' ++ [(true, k)])) as (a' & S' & A').
      { apply Forall_app. split; [eapply all_told; [rewrite M; apply past_told, F|exact G1]|]. constructor; [|constructor]. split; [reflexivity|exact G3]. } { auto. }
      exists a'. split; [|exact A']. econstructor; [now apply a_done|]. econstructor; [apply a_join, G3|exact S'].
    - destruct ts' as [|[t k] ts' _] using rev_ind. { rewrite map_app in M. destruct (map fst ts0); discriminate M. }
      rewrite !map_app in M. cbn in M. apply app_inj_tail in M. destruct M as [M ->]. apply Forall_app in G. destruct G as [G1 G2].
      inversion G2 as [|? ? G3 _]; subst. cbn in G3.
      destruct (K RReport (ts' ++ [(true, k)])) as (a' & S' & A').
      { apply Forall_app. split; [eapply all_told; [rewrite M; apply past_told, F|exact G1]|]. constructor; [|constructor]. split; [reflexivity|exact G3]. } { auto. }
      exists a'. split; [|exact A']. econstructor; [apply a_join, G3|exact S']. }
  destruct J as (a' & S' & A'). exists a'. split; [|exact A']. eapply a_trans; [exact R|]. eapply a_trans; [exact S|exact S'].
Qed.
Lemma st_lift m l1 a a' l2 c : a_steps c a a' -> st_steps (MkStreams m (l1 ++ a :: l2) c) (MkStreams m (l1 ++ a' :: l2) c).
Proof. induction 1; [constructor|]. econstructor; [apply st_one; eassumption|assumption]. Qed.
Definition a_over (a : addr) : Prop := a_run a = RReturned /\ a_reporter a = false /\ Forall over (a_turns a).
Lemma st_addrs_end m l : Forall (a_inv true) l -> forall l1, exists l', st_steps (MkStreams m (l1 ++ l) true) (MkStreams m (l1 ++ l') true) /\ Forall a_over l'.
Proof.
  induction 1 as [|a l I F IH]; intros l1.
  - exists []. split; constructor.
  - destruct (a_ends a I) as (a' & S & G). destruct (IH (l1 ++ [a'])) as (l' & S' & G'). exists (a' :: l'). split; [|now constructor].
    eapply st_trans; [apply st_lift, S|]. rewrite <- !app_assoc in S'. exact S'.
Qed.

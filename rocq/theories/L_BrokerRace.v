(** The memory of brokers: lemmas. *)
From Verif Require Import Go L_List S_HappensBefore M_BrokerRace S_BrokerRace L_HappensBefore.
From Coq Require Import Lia Permutation.
Open Scope list_scope.
Open Scope nat_scope.

Definition in_map (b : broker) (s : nat) : Prop := In s (map snd (b_subs b)).
(** What a step may do, in terms of what was there before it. *)
Definition fits (b : broker) (a : action) : Prop :=
  match a with
  | Reads (PSub s) | Writes (PSub s) => in_map b s \/ s = b_nsub b
  | Reads (PFilter s) => in_map b s
  | Reads (PTrace n) | Writes (PTrace n) => n = b_ntrace b
  | Writes (PFilter s) | Acquire (OMessage s _) => False
  | _ => True
  end.
(** What is not ordered by the mutex: reads of traces that were sent, and of subscribers that left. *)
Definition exempt (b : broker) (a : action) : Prop :=
  match a with Reads (PTrace n) => n < b_ntrace b | Reads (PSub s) => ~ in_map b s /\ s < b_nsub b | _ => False end.
Definition small (b : broker) (a : action) : Prop :=
  match access_of a with
  | Some (PSub s, _) | Some (PFilter s, _) => s < b_nsub b
  | Some (PTrace n, _) => n < b_ntrace b
  | _ => True
  end.
Definition g_ok (b : broker) (i : nat) (g : goroutine) : Prop :=
  Forall careful (g_ops g) /\
  (match g_phase g with
   | Leaving s => s < b_nsub b /\ ~ in_map b s /\ forall p gp, nth_error (b_log b) p = Some (gp, Writes (PSub s)) -> know (b_log b) i p
   | _ => True end) /\
  (match g_got g with
   | Some n => n < b_ntrace b /\ forall p gp, nth_error (b_log b) p = Some (gp, Writes (PTrace n)) -> know (b_log b) i p
   | None => True end).
Record Inv (b : broker) : Prop := {
  i_race : no_race (b_log b);
  i_mtx : forall p g a x, nth_error (b_log b) p = Some (g, a) -> access_of a = Some x -> passed (b_log b) OMtx p \/ exempt b a;
  i_small : forall p g a, nth_error (b_log b) p = Some (g, a) -> small b a;
  i_subs : forall s, in_map b s -> s < b_nsub b;
  i_keys : NoDup (map snd (b_subs b));
  i_gs : forall i g, nth_error (b_gs b) i = Some g -> g_ok b i g;
  i_queue : forall ch m n, In (m, n) (b_queue b ch) -> n < b_ntrace b /\
      forall p g, nth_error (b_log b) p = Some (g, Writes (PTrace n)) -> passed (b_log b) (OMessage ch m) p }.

Lemma nth_set {A} (l : list A) i x j y : nth_error (set_nth l i x) j = Some y -> (j = i /\ y = x) \/ (j <> i /\ nth_error l j = Some y).
Proof.
  revert i j. induction l as [|z l IH]; intros i j H; [destruct j; discriminate|].
  destruct i, j; cbn in *; [left; injection H as <-; auto|right; auto|right; auto|].
  destruct (IH _ _ H) as [[-> ->]|[N E]]; [left|right]; auto.
Qed.
Lemma lookup_In ch subs s : lookup ch subs = Some s -> In (ch, s) subs.
Proof.
  unfold lookup. destruct (find _ subs) as [[c t]|] eqn:F; [|discriminate]. intros [= <-]. apply find_some in F as [I E].
  apply Nat.eqb_eq in E. cbn in E. subst. exact I.
Qed.

(** *** What other goroutines and messages keep *)
Section Frame.
Variables (b b' : broker) (i : nat) (script : list action).
Hypothesis E : b_log b' = does (b_log b) i script.
Hypothesis Hsub : b_nsub b <= b_nsub b'.
Hypothesis Htrace : b_ntrace b <= b_ntrace b'.
Hypothesis Hmap : forall s, in_map b' s -> in_map b s \/ b_nsub b <= s.
Hypothesis W1 : forall s, In (Writes (PSub s)) script -> in_map b s \/ s = b_nsub b.
Hypothesis W2 : forall n, In (Writes (PTrace n)) script -> n = b_ntrace b.

Lemma frame_g j g : g_ok b j g -> g_ok b' j g.
Proof.
  intros (C & P & G). split; [exact C|]. split.
  - destruct (g_phase g) as [| |s]; auto. destruct P as (L & N & K). split; [lia|]. split.
    + intros I. destruct (Hmap _ I); [auto|lia].
    + intros p gp H. rewrite E in *. destruct (does_inv _ _ _ _ _ _ H) as [O|(k & -> & -> & Hk)].
      * apply know_mono. eauto.
      * apply nth_error_In in Hk. destruct (W1 _ Hk); [contradiction|lia].
  - destruct (g_got g) as [n|]; auto. destruct G as (L & K). split; [lia|]. intros p gp H. rewrite E in *.
    destruct (does_inv _ _ _ _ _ _ H) as [O|(k & -> & -> & Hk)].
    + apply know_mono. eauto.
    + apply nth_error_In in Hk. apply W2 in Hk. lia.
Qed.
Lemma frame_q ch m n :
  (n < b_ntrace b /\ forall p g, nth_error (b_log b) p = Some (g, Writes (PTrace n)) -> passed (b_log b) (OMessage ch m) p) ->
  n < b_ntrace b' /\ forall p g, nth_error (b_log b') p = Some (g, Writes (PTrace n)) -> passed (b_log b') (OMessage ch m) p.
Proof.
  intros (L & K). split; [lia|]. intros p g H. rewrite E in *. destruct (does_inv _ _ _ _ _ _ H) as [O|(k & -> & -> & Hk)].
  - apply passed_mono. eauto.
  - apply nth_error_In in Hk. apply W2 in Hk. lia.
Qed.
Lemma frame_exempt a : exempt b a -> exempt b' a.
Proof.
  unfold exempt. destruct a as [| |p|]; auto. destruct p; auto; intros; [|lia]. destruct H as [N L]. split; [|lia].
  intros I. destruct (Hmap _ I); [auto|lia].
Qed.
Lemma frame_small a : small b a -> small b' a.
Proof. unfold small. destruct (access_of a) as [[[] w]|]; auto; lia. Qed.
End Frame.

(** *** A step with the mutex *)
Section Locked.
Variables (b b' : broker) (i : nat) (pre body : list action) (g : goroutine).
Let script := pre ++ Acquire OMtx :: body ++ [Release OMtx].
Hypothesis I : Inv b.
Hypothesis E : b_log b' = does (b_log b) i script.
Hypothesis EG : b_gs b' = set_nth (b_gs b) i g.
Hypothesis Hpre : pre = [] \/ (pre = [Writes (PFilter (b_nsub b))] /\ b_nsub b' = S (b_nsub b)).
Hypothesis Hbody : Forall (fits b) body.
Hypothesis Hsub : b_nsub b <= b_nsub b'.
Hypothesis Htrace : b_ntrace b <= b_ntrace b'.
Hypothesis Hmap : forall s, in_map b' s -> in_map b s \/ b_nsub b <= s.
Hypothesis Hsmall : Forall (small b') body.

Lemma script_acq : nth_error script (length pre) = Some (Acquire OMtx).
Proof. unfold script. rewrite nth_error_app2, Nat.sub_diag by lia. reflexivity. Qed.
Lemma script_at k a x : nth_error script k = Some a -> access_of a = Some x ->
  (k < length pre /\ a = Writes (PFilter (b_nsub b)) /\ b_nsub b' = S (b_nsub b)) \/ (length pre < k /\ In a body).
Proof.
  unfold script. intros H A. destruct (Nat.lt_ge_cases k (length pre)) as [L|L].
  - left. split; [exact L|]. rewrite nth_error_app1 in H by exact L. destruct Hpre as [->|[-> N]]; [cbn in L; lia|].
    destruct k; [|cbn in L; lia]. injection H as <-. auto.
  - right. rewrite nth_error_app2 in H by exact L. destruct (k - length pre) as [|k'] eqn:K; [injection H as <-; discriminate|].
    cbn in H. split; [lia|]. destruct (Nat.lt_ge_cases k' (length body)) as [L'|L'].
    + rewrite nth_error_app1 in H by exact L'. eapply nth_error_In; exact H.
    + rewrite nth_error_app2 in H by exact L'. destruct (k' - length body) as [|[]]; cbn in H; try discriminate. injection H as <-. discriminate.
Qed.
Lemma script_end : nth_error script (S (length pre + length body)) = Some (Release OMtx).
Proof.
  unfold script. rewrite nth_error_app2 by lia. replace (S (length pre + length body) - length pre) with (S (length body)) by lia. cbn.
  rewrite nth_error_app2, Nat.sub_diag by lia. reflexivity.
Qed.
Lemma script_inside k a x : nth_error script k = Some a -> access_of a = Some x -> k < S (length pre + length body).
Proof.
  intros H A. assert (k < length script) by (apply nth_error_Some; congruence).
  assert (length script = S (S (length pre + length body))) by (unfold script; rewrite app_length; cbn; rewrite app_length; cbn; lia).
  destruct (Nat.eq_dec k (S (length pre + length body))) as [->|]; [|lia]. rewrite script_end in H. injection H as <-. discriminate.
Qed.
Lemma script_In a : In a script -> forall x, access_of a = Some x -> a = Writes (PFilter (b_nsub b)) \/ In a body.
Proof. intros H x A. apply In_nth_error in H as [k H]. destruct (script_at _ _ _ H A) as [(_ & -> & _)|(_ & H')]; auto. Qed.
Lemma w1 s : In (Writes (PSub s)) script -> in_map b s \/ s = b_nsub b.
Proof. intros H. destruct (script_In _ H _ eq_refl) as [?|H']; [discriminate|]. rewrite Forall_forall in Hbody. exact (Hbody _ H'). Qed.
Lemma w2 n : In (Writes (PTrace n)) script -> n = b_ntrace b.
Proof. intros H. destruct (script_In _ H _ eq_refl) as [?|H']; [discriminate|]. rewrite Forall_forall in Hbody. exact (Hbody _ H'). Qed.

Lemma locked_race : no_race (b_log b').
Proof.
  rewrite E. apply does_no_race; [apply (i_race b I)|]. intros p gp a loc w k c w' Hp Ha Hk Hc W.
  pose proof (i_small b I _ _ _ Hp) as Sm. unfold small in Sm. rewrite Ha in Sm.
  destruct (script_at _ _ _ Hk Hc) as [(_ & -> & _)|(L & Ib)].
  - injection Hc as <- <-. exfalso. lia.
  - destruct (i_mtx b I _ _ _ _ Hp Ha) as [P|X].
    + eapply passed_after; [exact P|apply script_acq|exact L|exact Hk].
    + exfalso. rewrite Forall_forall in Hbody. specialize (Hbody _ Ib). unfold exempt in X.
      destruct a as [| |[]|]; try contradiction; injection Ha as <- <-;
        (destruct c as [| |q|q]; cbn in Hc; try discriminate; injection Hc as -> <-; cbn in Hbody, Sm).
      all: try (destruct Hbody as [?|?]; [tauto|lia]). all: lia.
Qed.
Lemma locked_inv :
  (forall s, in_map b' s -> s < b_nsub b') -> NoDup (map snd (b_subs b')) ->
  ((exists g0, nth_error (b_gs b) i = Some g0) -> g_ok b' i g) ->
  (forall ch m n, In (m, n) (b_queue b' ch) -> In (m, n) (b_queue b ch) \/
     (n < b_ntrace b' /\ forall p gp, nth_error (b_log b') p = Some (gp, Writes (PTrace n)) -> passed (b_log b') (OMessage ch m) p)) ->
  Inv b'.
Proof.
  intros H1 H2 H3 H4. constructor; auto.
  - exact locked_race.
  - intros p gp a x Hp Ha. rewrite E in *. destruct (does_inv _ _ _ _ _ _ Hp) as [O|(k & -> & -> & Hk)].
    + destruct (i_mtx b I _ _ _ _ O Ha) as [P|X]; [left; apply passed_mono; exact P|right; eapply frame_exempt; eassumption].
    + left. eapply new_passed; [exact Hk|eapply script_inside; eassumption|apply script_end].
  - intros p gp a Hp. rewrite E in Hp. destruct (does_inv _ _ _ _ _ _ Hp) as [O|(k & -> & -> & Hk)].
    + eapply frame_small; eauto using (i_small b I).
    + destruct (access_of a) as [x|] eqn:A; [|unfold small; rewrite A; exact Logic.I].
      destruct (script_at _ _ _ Hk A) as [(_ & -> & N)|(_ & Ib)]; [cbn; lia|]. rewrite Forall_forall in Hsmall. auto.
  - intros j g' Hj. rewrite EG in Hj. destruct (nth_set _ _ _ _ _ Hj) as [[-> ->]|[N Hj']].
    + apply H3. clear - Hj. revert i Hj. induction (b_gs b) as [|y l IH]; intros [|i] Hj; cbn in *; try discriminate; eauto.
    + eapply frame_g; eauto using w1, w2. exact (i_gs b I _ _ Hj').
  - intros ch m n Hq. destruct (H4 _ _ _ Hq) as [Q|Q]; [|exact Q]. eapply frame_q; eauto using w2. exact (i_queue b I _ _ _ Q).
Qed.
End Locked.

(** *** A step without the mutex: one action *)
Section Free.
Variables (b b' : broker) (i : nat) (script : list action) (g : goroutine).
Hypothesis I : Inv b.
Hypothesis E : b_log b' = does (b_log b) i script.
Hypothesis EG : b_gs b' = set_nth (b_gs b) i g.
Hypothesis ES : b_subs b' = b_subs b.
Hypothesis EN : b_nsub b' = b_nsub b.
Hypothesis ET : b_ntrace b' = b_ntrace b.
Hypothesis Hexempt : forall a x, In a script -> access_of a = Some x -> exempt b a /\
  forall p gp y, nth_error (b_log b) p = Some (gp, Writes y) -> access_of a = Some (y, false) -> know (b_log b) i p.
Lemma free_map s : in_map b' s -> in_map b s \/ b_nsub b <= s.
Proof. unfold in_map. rewrite ES. auto. Qed.
Lemma free_no_write p : ~ In (Writes p) script.
Proof. intros H. destruct (Hexempt _ _ H eq_refl) as [X _]. exact X. Qed.
Lemma free_inv :
  ((exists g0, nth_error (b_gs b) i = Some g0) -> g_ok b' i g) ->
  (forall ch m n, In (m, n) (b_queue b' ch) -> In (m, n) (b_queue b ch)) -> Inv b'.
Proof.
  intros H3 H4. assert (L1 : b_nsub b <= b_nsub b') by lia. assert (L2 : b_ntrace b <= b_ntrace b') by lia. constructor.
  - rewrite E. apply does_no_race; [apply (i_race b I)|]. intros p gp a loc w k c w' Hp Ha Hk Hc W.
    destruct (Hexempt _ _ (nth_error_In _ _ Hk) Hc) as [X K].
    assert (w' = false) as -> by (destruct c; cbn in Hc; try discriminate; [injection Hc as _ <-; reflexivity|destruct X]).
    destruct W as [->|W]; [|discriminate]. destruct a; cbn in Ha; try discriminate. injection Ha as ->.
    eapply know_next; [eapply K; eassumption|exact Hk].
  - intros p gp a x Hp Ha. rewrite E in *. destruct (does_inv _ _ _ _ _ _ Hp) as [O|(k & -> & -> & Hk)].
    + destruct (i_mtx b I _ _ _ _ O Ha) as [P|X]; [left; apply passed_mono; exact P|right; eapply frame_exempt; eauto using free_map].
    + right. eapply frame_exempt; eauto using free_map. eapply Hexempt; [eapply nth_error_In; exact Hk|exact Ha].
  - intros p gp a Hp. rewrite E in Hp. destruct (does_inv _ _ _ _ _ _ Hp) as [O|(k & -> & -> & Hk)].
    + eapply frame_small; eauto using (i_small b I).
    + destruct (access_of a) as [x|] eqn:A; [|unfold small; rewrite A; exact Logic.I].
      destruct (Hexempt _ _ (nth_error_In _ _ Hk) A) as [X _]. eapply frame_small; eauto. unfold small, exempt in *.
      destruct a as [| |[]|]; try contradiction; cbn in *; tauto.
  - intros s. unfold in_map. rewrite ES, EN. apply (i_subs b I).
  - rewrite ES. apply (i_keys b I).
  - intros j g' Hj. rewrite EG in Hj. destruct (nth_set _ _ _ _ _ Hj) as [[-> ->]|[N Hj']].
    + apply H3. clear - Hj. revert i Hj. induction (b_gs b) as [|y l IH]; intros [|i] Hj; cbn in *; try discriminate; eauto.
    + eapply (frame_g b b' i script); eauto using free_map; try (intros s H; destruct (free_no_write _ H)). exact (i_gs b I _ _ Hj').
  - intros ch m n Hq. eapply (frame_q b b' i script); eauto; try (intros s H; destruct (free_no_write _ H)). exact (i_queue b I _ _ _ (H4 _ _ _ Hq)).
Qed.
End Free.

(** *** Delivering *)
Lemma deliver_spec n accepts room todo : forall queue sent script queue' sent',
  deliver n accepts room todo queue sent = (script, queue', sent') ->
  (forall a, In a script -> (exists ch s, In (ch, s) todo /\ (a = Reads (PSub s) \/ a = Reads (PFilter s) \/ a = Writes (PSub s)))
     \/ a = Reads (PTrace n) \/ exists ch m, a = Release (OMessage ch m)) /\
  (forall ch m k, In (m, k) (queue' ch) -> In (m, k) (queue ch) \/ (k = n /\ In (Release (OMessage ch m)) script)).
Proof.
  induction todo as [|[ch s] todo IH]; intros queue sent script queue' sent' H; cbn in H.
  - injection H as <- <- <-. split; [intros a []|auto].
  - destruct (accepts s && room s).
    + destruct (deliver n accepts room todo _ _) as [[script0 q0] s0] eqn:D. injection H as <- <- <-.
      destruct (IH _ _ _ _ _ D) as [H1 H2]. split.
      * intros a [<-|[<-|[<-|[<-|[<-|Ha]]]]].
        1,2,4: left; exists ch, s; split; [left; reflexivity|auto].
        1: right; left; reflexivity.
        1: right; right; eauto.
        destruct (H1 _ Ha) as [(c & t & It & A)|A]; [left; exists c, t; split; [right; exact It|exact A]|right; exact A].
      * intros c m k Hq. destruct (H2 _ _ _ Hq) as [Q|[-> Q]]; [|right; split; [reflexivity|do 5 right; exact Q]].
        unfold set_fun in Q. destruct (Nat.eqb_spec c ch) as [->|N]; [|auto].
        apply in_app_or in Q as [Q|[Q|[]]]; [auto|]. injection Q as <- <-. right. split; [reflexivity|]. do 4 right. left. reflexivity.
    + destruct (deliver n accepts room todo _ _) as [[script0 q0] s0] eqn:D. injection H as <- <- <-.
      destruct (IH _ _ _ _ _ D) as [H1 H2]. split.
      * intros a [<-|[<-|[<-|[<-|Ha]]]].
        1,2,4: left; exists ch, s; split; [left; reflexivity|auto].
        1: right; left; reflexivity.
        destruct (H1 _ Ha) as [(c & t & It & A)|A]; [left; exists c, t; split; [right; exact It|exact A]|right; exact A].
      * intros c m k Hq. destruct (H2 _ _ _ Hq) as [Q|[-> Q]]; [auto|right; split; [reflexivity|do 4 right; exact Q]].
Qed.

(** *** Every step *)
Lemma g_ok_outside b i got ops : Forall careful ops ->
  (match got with Some n => n < b_ntrace b /\ forall p gp, nth_error (b_log b) p = Some (gp, Writes (PTrace n)) -> know (b_log b) i p | None => True end) ->
  forall ph, (forall s, ph <> Leaving s) -> g_ok b i (MkG ph got ops).
Proof. intros C G ph N. split; [exact C|]. split; [|exact G]. destruct ph; cbn; auto. destruct (N s eq_refl). Qed.
Lemma In_snd {A B} (x : A) (y : B) l : In (x, y) l -> In y (map snd l).
Proof. intros H. apply in_map_iff. exists (x, y). auto. Qed.
Lemma filter_snd_incl (P : nat * nat -> bool) l s : In s (map snd (filter P l)) -> In s (map snd l).
Proof. intros H. apply in_map_iff in H as (x & <- & H). apply filter_In in H as [H _]. apply List.in_map. exact H. Qed.
Lemma filter_snd_NoDup (P : nat * nat -> bool) l : NoDup (map snd l) -> NoDup (map snd (filter P l)).
Proof.
  induction l as [|x l IH]; cbn; intros N; [constructor|]. inversion N as [|? ? N1 N2]; subst.
  destruct (P x); cbn; [constructor; [intros H; apply N1; eapply filter_snd_incl; exact H|auto]|auto].
Qed.
Lemma filter_gone ch s (l : list (nat * nat)) : NoDup (map snd l) -> In (ch, s) l -> ~ In s (map snd (filter (fun x => negb (fst x =? ch)) l)).
Proof.
  induction l as [|[c t] l IH]; cbn; intros N H; [destruct H|]. inversion N as [|? ? N1 N2]; subst. destruct H as [H|H].
  - injection H as -> ->. rewrite Nat.eqb_refl. cbn. intros X. apply N1. eapply filter_snd_incl; exact X.
  - destruct (c =? ch); cbn; [auto|]. intros [->|X]; [apply N1; eapply In_snd; exact H|exact (IH N2 H X)].
Qed.

(** nothing but the goroutine and the log changes, with the mutex held *)
Lemma locked_same b i ph got ops body :
  Inv b -> Forall (fits b) body -> Forall (small b) body -> (forall p, ~ In (Writes (PTrace p)) body) ->
  (forall s, ph <> Leaving s) -> Forall careful ops ->
  (exists ph0 ops0, nth_error (b_gs b) i = Some (MkG ph0 got ops0)) ->
  Inv (emits b i (MkG ph got ops) (Acquire OMtx :: body ++ [Release OMtx])).
Proof.
  intros I F S NW NL C (ph0 & ops0 & Hi).
  eapply (locked_inv b _ i [] body (MkG ph got ops) I); try reflexivity; auto; try (cbn; lia).
  - exact (i_subs b I).
  - exact (i_keys b I).
  - intros _. apply g_ok_outside; auto. destruct (i_gs b I _ _ Hi) as (_ & _ & G). cbn in G. destruct got as [n|]; auto.
    destruct G as [L K]. split; [exact L|]. intros p gp H. cbn in H.
    destruct (does_inv _ _ (Acquire OMtx :: body ++ [Release OMtx]) _ _ _ H) as [O|(k & -> & -> & Hk)]; [apply know_mono; eauto|].
    apply nth_error_In in Hk as [?|Hk]; [discriminate|]. apply in_app_or in Hk as [Hk|[?|[]]]; [destruct (NW _ Hk)|discriminate].
Qed.

Lemma step_inv b i : Inv b -> Inv (b_step b i).
Proof.
  intros I. unfold b_step. destruct (nth_error (b_gs b) i) as [[ph got ops]|] eqn:Hi; [|exact I].
  destruct (i_gs b I _ _ Hi) as (C & P & G). cbn in C, P, G.
  assert (Hgot : forall script, (forall n, In (Writes (PTrace n)) script -> n = b_ntrace b) -> forall b', b_log b' = does (b_log b) i script -> b_ntrace b <= b_ntrace b' ->
    match got with Some n => n < b_ntrace b' /\ forall p gp, nth_error (b_log b') p = Some (gp, Writes (PTrace n)) -> know (b_log b') i p | None => True end).
  { intros script NW b' E L. destruct got as [n|]; auto. destruct G as [Ln K]. split; [lia|]. intros p gp H. rewrite E in *.
    destruct (does_inv _ _ _ _ _ _ H) as [O|(k & -> & -> & Hk)]; [apply know_mono; eauto|]. apply nth_error_In in Hk. apply NW in Hk. lia. }
  destruct ph as [|ch|s].
  - destruct ops as [|o ops]; [exact I|]. inversion C as [|? ? Co Cs]; subst.
    destruct o as [visit accepts room|ch|ch|ch| |x|x| |s|x]; cbn in Co; try contradiction.
    + destruct (b_subs b) as [|sub subs] eqn:ES.
      * apply (locked_same b i Outside got ops [Reads PSubs] I); eauto; try (repeat constructor); try discriminate. intros p [?|[]]; discriminate.
      * rewrite <- ES in *. clear sub subs ES.
        destruct (deliver _ _ _ _ _ _) as [[script queue] sent] eqn:D. destruct (deliver_spec _ _ _ _ _ _ _ _ _ D) as [D1 D2].
        assert (Hv : forall c t, In (c, t) (visit (b_subs b)) -> in_map b t).
        { intros c t H. eapply In_snd. eapply Permutation_in; [apply Co|exact H]. }
        set (body := Reads PSubs :: Writes (PTrace (b_ntrace b)) :: script).
        assert (Hb : forall a, In a body -> fits b a /\ (forall k, a = Writes (PTrace k) -> k = b_ntrace b)).
        { intros a [<-|[<-|Ha]]; [split; [exact Logic.I|discriminate]|split; [reflexivity|intros k [= <-]; reflexivity]|].
          destruct (D1 _ Ha) as [(c & t & It & A)|[->|(c & m & ->)]]; [|split; [reflexivity|discriminate]|split; [exact Logic.I|discriminate]].
          specialize (Hv _ _ It). destruct A as [->|[->| ->]]; (split; [cbn; auto|discriminate]). }
        eapply (locked_inv b _ i [] body (MkG Outside got ops) I); try reflexivity; auto; try (cbn; lia).
        -- apply Forall_forall. intros a Ha. apply Hb. exact Ha.
        -- apply Forall_forall. intros a [<-|[<-|Ha]]; [exact Logic.I|cbn; lia|].
           destruct (D1 _ Ha) as [(c & t & It & A)|[->|(c & m & ->)]]; [|cbn; lia|exact Logic.I].
           specialize (i_subs b I _ (Hv _ _ It)) as L. destruct A as [->|[->| ->]]; exact L.
        -- exact (i_subs b I).
        -- exact (i_keys b I).
        -- intros _. apply g_ok_outside; [exact Cs| |discriminate].
           eapply (Hgot (Acquire OMtx :: body ++ [Release OMtx])); [|reflexivity|cbn; lia].
           intros n [?|H]; [discriminate|]. apply in_app_or in H as [H|[?|[]]]; [|discriminate]. apply (Hb _ H). reflexivity.
        -- intros c m n Hq. cbn in Hq. destruct (D2 _ _ _ Hq) as [Q|[-> Q]]; [left; exact Q|right].
           split; [cbn; lia|]. intros p gp H.
           change (nth_error (does (b_log b) i (Acquire OMtx :: body ++ [Release OMtx])) p = Some (gp, Writes (PTrace (b_ntrace b)))) in H.
           change (passed (does (b_log b) i (Acquire OMtx :: body ++ [Release OMtx])) (OMessage c m) p).
           destruct (does_inv _ _ _ _ _ _ H) as [O|(k & -> & -> & Hk)].
           ++ apply (i_small b I) in O. cbn in O. lia.
           ++ apply In_nth_error in Q as [q Q]. eapply (new_passed _ _ _ _ k (3 + q)); [exact Hk| |].
              ** destruct k as [|[|[|k]]]; try lia. exfalso. cbn in Hk.
                 apply nth_error_In in Hk. apply in_app_or in Hk as [Hk|[?|[]]]; [|discriminate].
                 destruct (D1 _ Hk) as [(? & ? & _ & [?|[?|?]])|[?|(? & ? & ?)]]; discriminate.
              ** cbn. apply nth_old. exact Q.
    + destruct (lookup ch (b_subs b)) as [s|] eqn:L.
      * apply (locked_same b i Outside got ops [Reads PSubs] I); eauto; try (repeat constructor); try discriminate. intros p [?|[]]; discriminate.
      * eapply (locked_inv b _ i [Writes (PFilter (b_nsub b))] [Reads PSubs; Writes (PSub (b_nsub b)); Writes PSubs] (MkG (Waiting ch) got ops) I);
          try reflexivity; auto; try (cbn; lia).
        -- constructor; [exact Logic.I|constructor; [right; reflexivity|constructor; [exact Logic.I|constructor]]].
        -- unfold in_map. cbn. intros s H. rewrite map_app in H. apply in_app_or in H as [H|[<-|[]]]; [auto|right; cbn; lia].
        -- repeat constructor.
        -- unfold in_map. cbn. intros s H. rewrite map_app in H. apply in_app_or in H as [H|[<-|[]]]; [apply (i_subs b I) in H; lia|cbn; lia].
        -- cbn. rewrite map_app. eapply Permutation_NoDup; [apply Permutation_app_comm|]. cbn. constructor; [|exact (i_keys b I)].
           intros H. apply (i_subs b I) in H. lia.
        -- intros _. apply g_ok_outside; [exact Cs| |discriminate].
           eapply (Hgot [Writes (PFilter (b_nsub b)); Acquire OMtx; Reads PSubs; Writes (PSub (b_nsub b)); Writes PSubs; Release OMtx]); [|reflexivity|cbn; lia].
           intros n H. cbn in H. repeat (destruct H as [H|H]; [discriminate|]). destruct H.
    + destruct (lookup ch (b_subs b)) as [s|] eqn:L.
      * apply lookup_In, In_snd in L.
        apply (locked_same b i Outside got ops [Reads PSubs; Reads (PSub s)] I); eauto; try discriminate.
        -- repeat constructor. exact L.
        -- repeat constructor. exact (i_subs b I _ L).
        -- intros p [?|[?|[]]]; discriminate.
      * apply (locked_same b i Outside got ops [Reads PSubs] I); eauto; try (repeat constructor); try discriminate. intros p [?|[]]; discriminate.
    + destruct (b_queue b ch) as [|[m n] rest] eqn:Q; [exact I|].
      destruct (i_queue b I ch m n) as [Ln K]; [rewrite Q; left; reflexivity|].
      eapply (free_inv b _ i [Acquire (OMessage ch m)] (MkG Outside (Some n) ops) I); try reflexivity.
      * intros a x [<-|[]]. discriminate.
      * intros _. apply g_ok_outside; [exact Cs| |discriminate]. cbn. split; [exact Ln|]. intros p gp H.
        destruct (does_inv _ _ [Acquire (OMessage ch m)] _ _ _ H) as [O|(k & -> & -> & Hk)].
        -- eapply (passed_know _ _ [Acquire (OMessage ch m)] _ 0); [eauto|reflexivity].
        -- destruct k as [|[]]; discriminate.
      * intros c m' n'. cbn. unfold set_fun. destruct (Nat.eqb_spec c ch) as [->|]; [|auto]. intros H. rewrite Q. right. exact H.
    + eapply (free_inv b _ i _ (MkG Outside got ops) I); try reflexivity.
      * destruct got as [n|]; [|intros a x []]. intros a x [<-|[]] _. destruct G as [Ln K]. split; [exact Ln|]. intros p gp y H [= <-]. eauto.
      * intros _. apply g_ok_outside; [exact Cs| |discriminate].
        eapply Hgot; [|reflexivity|cbn; lia]. intros n H. destruct got; cbn in H; [destruct H as [?|[]]; discriminate|destruct H].
      * auto.
    + eapply (free_inv b _ i [Release (OOwn x)] (MkG Outside got ops) I); try reflexivity.
      * intros a y [<-|[]]. discriminate.
      * intros _. apply g_ok_outside; [exact Cs| |discriminate]. eapply (Hgot [Release (OOwn x)]); [|reflexivity|cbn; lia]. intros n [?|[]]. discriminate.
      * auto.
    + eapply (free_inv b _ i [Acquire (OOwn x)] (MkG Outside got ops) I); try reflexivity.
      * intros a y [<-|[]]. discriminate.
      * intros _. apply g_ok_outside; [exact Cs| |discriminate]. eapply (Hgot [Acquire (OOwn x)]); [|reflexivity|cbn; lia]. intros n [?|[]]. discriminate.
      * auto.
  - destruct (lookup ch (b_subs b)) as [s|] eqn:L.
    + apply lookup_In in L. pose proof (In_snd _ _ _ L) as M.
      eapply (locked_inv b _ i [] [Reads PSubs; Writes PSubs] (MkG (Leaving s) got ops) I); try reflexivity; auto; try (cbn; lia).
      * unfold in_map. cbn. intros t H. left. eapply filter_snd_incl; exact H.
      * unfold in_map. cbn. intros t H. apply filter_snd_incl in H. exact (i_subs b I _ H).
      * cbn. apply filter_snd_NoDup, (i_keys b I).
      * intros _. split; [exact C|]. split; cbn.
        -- split; [exact (i_subs b I _ M)|]. split; [apply (filter_gone ch); [apply (i_keys b I)|exact L]|]. intros p gp H.
           destruct (does_inv _ _ [Acquire OMtx; Reads PSubs; Writes PSubs; Release OMtx] _ _ _ H) as [O|(k & -> & -> & Hk)].
           ++ eapply (passed_know _ _ [Acquire OMtx; Reads PSubs; Writes PSubs; Release OMtx] OMtx 0); [|reflexivity].
              destruct (i_mtx b I _ _ _ _ O eq_refl) as [X|[]]. exact X.
           ++ destruct k as [|[|[|[|[]]]]]; discriminate.
        -- eapply (Hgot [Acquire OMtx; Reads PSubs; Writes PSubs; Release OMtx]
                     (fun n H => ltac:(cbn in H; repeat (destruct H as [H|H]; [discriminate|]); destruct H))
                     (emit b i (MkG (Leaving s) got ops) [Acquire OMtx; Reads PSubs; Writes PSubs; Release OMtx]
                        (filter (fun x => negb (Nat.eqb (fst x) ch)) (b_subs b)) (b_queue b) (b_sent b) (b_nsub b) (b_ntrace b))); [reflexivity|cbn; lia].
    + apply (locked_same b i Outside got ops [Reads PSubs; Writes PSubs] I); eauto; try (repeat constructor); try discriminate. intros p [?|[?|[]]]; discriminate.
  - destruct P as (Ls & N & K). eapply (free_inv b _ i [Reads (PSub s)] (MkG Outside got ops) I); try reflexivity.
    + intros a x [<-|[]] _. split; [split; assumption|]. intros p gp y H [= <-]. eauto.
    + intros _. apply g_ok_outside; [exact C| |discriminate]. eapply (Hgot [Reads (PSub s)]); [|reflexivity|cbn; lia]. intros n [?|[]]. discriminate.
    + auto.
Qed.

Lemma run_inv sched : forall b, Inv b -> Inv (b_run sched b).
Proof. induction sched as [|i sched IH]; intros b I; [exact I|]. apply IH, step_inv, I. Qed.
Lemma start_inv programs : Forall (Forall careful) programs -> Inv (b_start programs).
Proof.
  intros C. constructor; cbn.
  - intros p q _ (? & ? & ? & ? & ? & ? & ? & H & _). destruct p; discriminate.
  - intros [] ? ? ? H; discriminate.
  - intros [] ? ? H; discriminate.
  - intros s [].
  - constructor.
  - intros i g H. apply nth_error_In, in_map_iff in H as (ops & <- & H). rewrite Forall_forall in C. split; [exact (C _ H)|split; exact Logic.I].
  - intros ch m n [].
Qed.

(** C73: trc stream. *)
From Verif Require Import Go L_List M_Types M_CliStream.
From Coq Require Import Sorting.Permutation.
Open Scope list_scope.
Open Scope nat_scope.

(** ** Specification *)
Section Spec.
Context {Tr : Type}.
(** what a list holds of address i *)
Definition of_address (i : nat) (l : list (nat * Tr)) : list Tr := map snd (filter (fun x => Nat.eqb (fst x) i) l).
Definition in_hand (ph : phase Tr) : list Tr := match ph with Streaming (Some t) => [t] | _ => [] end.
(** [l] with some elements left out *)
Inductive subsequence : list Tr -> list Tr -> Prop :=
| sub_nil : subsequence [] []
| sub_keep x l l' : subsequence l l' -> subsequence (x :: l) (x :: l')
| sub_skip x l l' : subsequence l l' -> subsequence l (x :: l').
(** a state of trc stream with n addresses and a buffer of size cap *)
Definition running (n cap : nat) (s : cstate Tr) : Prop :=
  exists s0 interval, cs_start n (Z.of_nat cap) interval = Ok s0 /\ csteps n cap s0 s.
End Spec.

Section Proofs.
Context {Tr : Type}.
Implicit Types s : cstate Tr.
Lemma of_address_app i (l l' : list (nat * Tr)) : of_address i (l ++ l') = of_address i l ++ of_address i l'.
Proof. unfold of_address. rewrite filter_app, map_app. reflexivity. Qed.
Lemma of_address_one i j (t : Tr) : of_address i [(j, t)] = if Nat.eqb j i then [t] else [].
Proof. unfold of_address. cbn. destruct (Nat.eqb j i); reflexivity. Qed.
Lemma upd_same {A} (f : nat -> A) i x : upd f i x i = x.
Proof. unfold upd. rewrite Nat.eqb_refl. reflexivity. Qed.
Lemma upd_other {A} (f : nat -> A) i x j : j <> i -> upd f i x j = f j.
Proof. intros N. unfold upd. destruct (Nat.eqb_spec j i); [contradiction|reflexivity]. Qed.
Lemma subsequence_refl (l : list Tr) : subsequence l l.
Proof. induction l; constructor; assumption. Qed.
Lemma subsequence_app (a a' b b' : list Tr) : subsequence a a' -> subsequence b b' -> subsequence (a ++ b) (a' ++ b').
Proof. intros H K. induction H; cbn; [exact K|constructor; assumption|constructor; assumption]. Qed.
Lemma subsequence_nil (l : list Tr) : subsequence [] l.
Proof. induction l; constructor; assumption. Qed.
Lemma subsequence_trans (a b c : list Tr) : subsequence a b -> subsequence b c -> subsequence a c.
Proof.
  intros H K. revert a H. induction K as [|x l l' K IH|x l l' K IH]; intros a H; [exact H| |constructor; apply IH; exact H].
  inversion H; subst; constructor; apply IH; assumption.
Qed.
Lemma subsequence_drop (a b : list Tr) : subsequence a (a ++ b).
Proof. rewrite <- (app_nil_r a) at 1. apply subsequence_app; [apply subsequence_refl|apply subsequence_nil]. Qed.

Definition sinv (cap : nat) s : Prop :=
  length (cs_chan s) <= cap /\
  (cs_cancelled s = false -> cs_writing s = true /\ forall i, cs_phase s i <> Stopped) /\
  (forall i, subsequence (of_address i (cs_out s ++ cs_chan s) ++ in_hand (cs_phase s i)) (cs_received s i)) /\
  (cs_cancelled s = false -> forall i, of_address i (cs_out s ++ cs_chan s) ++ in_hand (cs_phase s i) = cs_received s i).

Lemma sinv_step n cap s s' : cstep n cap s s' -> sinv cap s -> sinv cap s'.
Proof.
  intros H (I1 & I2 & I3 & I4). unfold sinv. destruct H; cbn [cs_phase cs_chan cs_out cs_received cs_writing cs_cancelled] in *.
  - split; [exact I1|]. split; [|split].
    + intros C. destruct (I2 C) as [W P]. split; [exact W|]. intros j. unfold upd. destruct (Nat.eqb j i); [discriminate|apply P].
    + intros j. specialize (I3 j). destruct (Nat.eqb_spec j i) as [->|N]; [|rewrite !upd_other by exact N; exact I3].
      rewrite !upd_same. rewrite H0 in I3. cbn [in_hand] in *. rewrite app_nil_r in I3. apply subsequence_app; [exact I3|apply subsequence_refl].
    + intros C j. specialize (I4 C j). destruct (Nat.eqb_spec j i) as [->|N]; [|rewrite !upd_other by exact N; exact I4].
      rewrite !upd_same. rewrite H0 in I4. cbn [in_hand] in *. rewrite app_nil_r in I4. rewrite I4. reflexivity.
  - assert (E : forall j, of_address j (out ++ ch ++ [(i, t)]) ++ in_hand (upd ph i (Streaming None) j) = of_address j (out ++ ch) ++ in_hand (ph j)).
    { intros j. rewrite app_assoc, (of_address_app j (out ++ ch)), of_address_one. destruct (Nat.eqb_spec i j) as [<-|N].
      - rewrite upd_same, H0. cbn [in_hand]. rewrite app_nil_r. reflexivity.
      - rewrite upd_other by congruence. rewrite app_nil_r. reflexivity. }
    split; [rewrite app_length; cbn; lia|]. split; [|split; [intros j; rewrite E; apply I3|intros C j; rewrite E; apply I4; exact C]].
    intros C. destruct (I2 C) as [W P]. split; [exact W|]. intros j. unfold upd. destruct (Nat.eqb j i); [discriminate|apply P].
  - rewrite (app_nil_r (out ++ [(i, t)])). setoid_rewrite (app_nil_r out) in I3. setoid_rewrite (app_nil_r out) in I4.
    assert (E : forall j, of_address j (out ++ [(i, t)]) ++ in_hand (upd ph i (Streaming None) j) = of_address j out ++ in_hand (ph j)).
    { intros j. rewrite (of_address_app j out), of_address_one. destruct (Nat.eqb_spec i j) as [<-|N].
      - rewrite upd_same, H0. cbn [in_hand]. rewrite app_nil_r. reflexivity.
      - rewrite upd_other by congruence. rewrite app_nil_r. reflexivity. }
    split; [exact I1|].
    split; [|split; [intros j; rewrite E; apply I3|intros C j; rewrite E; apply I4; exact C]].
    intros C. destruct (I2 C) as [W P]. split; [exact W|]. intros j. unfold upd. destruct (Nat.eqb j i); [discriminate|apply P].
  - assert (E : (out ++ [x]) ++ ch = out ++ x :: ch) by (rewrite <- app_assoc; reflexivity).
    split; [cbn in I1; cbn; lia|]. split; [exact I2|]. cbn. rewrite E. split; [exact I3|exact I4].
  - assert (E : forall j, in_hand (upd ph i Sleeping j) = in_hand (ph j)).
    { intros j. destruct (Nat.eqb_spec j i) as [->|N]; [rewrite upd_same, H0; reflexivity|rewrite upd_other by exact N; reflexivity]. }
    split; [exact I1|]. split; [|split; [intros j; cbn; rewrite E; apply I3|intros C j; cbn; rewrite E; apply I4; exact C]].
    intros C. destruct (I2 C) as [W P]. split; [exact W|]. intros j. cbn. unfold upd. destruct (Nat.eqb j i); [discriminate|apply P].
  - assert (E : forall j, in_hand (upd ph i (if c then Stopped else Streaming None) j) = in_hand (ph j)).
    { intros j. destruct (Nat.eqb_spec j i) as [->|N]; [rewrite upd_same, H0; destruct c; reflexivity|rewrite upd_other by exact N; reflexivity]. }
    split; [exact I1|]. split; [|split; [intros j; cbn; rewrite E; apply I3|intros C j; cbn; rewrite E; apply I4; exact C]].
    cbn. intros ->. destruct (I2 eq_refl) as [W P]. split; [exact W|]. intros j. unfold upd. destruct (Nat.eqb j i); [discriminate|apply P].
  - split; [exact I1|]. split; [discriminate|]. split; [exact I3|discriminate].
  - split; [exact I1|]. split; [discriminate|]. split; [|discriminate]. intros j. cbn. specialize (I3 j).
    destruct (Nat.eqb_spec j i) as [->|N]; [|rewrite upd_other by exact N; exact I3]. rewrite upd_same. cbn [in_hand]. rewrite app_nil_r.
    eapply subsequence_trans; [apply subsequence_drop|exact I3].
  - split; [exact I1|]. split; [discriminate|]. split; [|discriminate]. intros j. cbn. specialize (I3 j).
    destruct (Nat.eqb_spec j i) as [->|N]; [|rewrite upd_other by exact N; exact I3]. rewrite upd_same. rewrite H0 in I3. exact I3.
  - split; [exact I1|]. split; [discriminate|]. split; [exact I3|discriminate].
Qed.
Lemma running_inv n cap s : running n cap s -> sinv cap s.
Proof.
  intros (s0 & interval & E & H). assert (S0 : sinv cap s0).
  { unfold cs_start in E. destruct (Z.ltb_spec (Z.of_nat cap) 0); [discriminate|]. destruct ((interval <=? 0)%Z && _); [discriminate|]. injection E as <-.
    split; [cbn; lia|]. split; [cbn; intros _; split; [reflexivity|discriminate]|]. split; [cbn; constructor|reflexivity]. }
  clear E. induction H; [exact S0|]. apply IHcsteps. eapply sinv_step; eassumption.
Qed.
Lemma csteps_trans n cap s s' s'' : csteps n cap s s' -> csteps n cap s' s'' -> csteps n cap s s''.
Proof. intros H K. induction H; [exact K|econstructor; [eassumption|auto]]. Qed.
Lemma csteps_one n cap s s' : cstep n cap s s' -> csteps n cap s s'.
Proof. intros H. econstructor; [exact H|constructor]. Qed.

(** ** C73 *)
(** Until it is cancelled, trc stream prints what it receives for each address, each trace
    once and in order; what is not printed yet is in the buffer, or is one trace per
    address that waits for room. *)
Theorem C73_prints_what_is_received :
  forall n cap s i, running n cap s -> cs_cancelled s = false ->
    cs_received s i = of_address i (cs_out s) ++ of_address i (cs_chan s) ++ in_hand (cs_phase s i) /\
    length (cs_chan s) <= cap /\ length (in_hand (cs_phase s i)) <= 1.
Proof.
  intros n cap s i R C. destruct (running_inv n cap s R) as (I1 & _ & _ & I4). split; [|split; [exact I1|destruct (cs_phase s i) as [[t|]| |]; cbn; lia]].
  rewrite <- (I4 C i), of_address_app, app_assoc. reflexivity.
Qed.
(** At any time, and after it was cancelled, what is printed for an address is received in
    that order. *)
Theorem C73_prints_nothing_else :
  forall n cap s i, running n cap s -> subsequence (of_address i (cs_out s)) (cs_received s i).
Proof.
  intros n cap s i R. destruct (running_inv n cap s R) as (_ & _ & I3 & _). eapply subsequence_trans; [|apply (I3 i)].
  rewrite of_address_app, <- app_assoc. apply subsequence_drop.
Qed.
(** What is printed stays printed. *)
Theorem C73_output_grows :
  forall n cap s s', csteps n cap s s' -> exists more : list (nat * Tr), cs_out s' = cs_out s ++ more.
Proof.
  intros n cap s s' H. induction H as [s|s s1 s2 H H' (more & IH)]; [exists []; symmetry; apply app_nil_r|].
  rewrite IH. destruct H; cbn [cs_out]; try (exists more; reflexivity); [exists ((i, t) :: more)|exists (x :: more)]; rewrite <- app_assoc; reflexivity.
Qed.

(** Everything received can be printed: from every state, without another trace being
    received. *)
Lemma drain_chan n cap : forall ch ph out (rcv : nat -> list Tr) c,
  csteps n cap (MkC ph ch out rcv true c) (MkC ph [] (out ++ ch) rcv true c).
Proof.
  induction ch as [|x ch IH]; intros ph out rcv c; [rewrite app_nil_r; constructor|]. econstructor; [apply c_write|].
  specialize (IH ph (out ++ [x]) rcv c). rewrite <- app_assoc in IH. exact IH.
Qed.
Lemma drain_hands n cap c : forall k ph out (rcv : nat -> list Tr), k <= n ->
  exists ph' out', csteps n cap (MkC ph [] out rcv true c) (MkC ph' [] out' rcv true c) /\
    (forall i, i < k -> in_hand (ph' i) = []) /\ (forall i, k <= i -> ph' i = ph i).
Proof.
  induction k as [|k IH]; intros ph out rcv L; [exists ph, out; repeat split; [constructor|lia]|].
  destruct (IH ph out rcv ltac:(lia)) as (ph' & out' & H1 & H2 & H3). destruct (ph' k) as [[t|]| |] eqn:E.
  - exists (upd ph' k (Streaming None)), (out' ++ [(k, t)]). split; [|split].
    + eapply csteps_trans; [exact H1|]. apply csteps_one. apply c_hand_over; [lia|exact E].
    + intros i Hi. destruct (Nat.eqb_spec i k) as [->|N]; [rewrite upd_same; reflexivity|rewrite upd_other by exact N; apply H2; lia].
    + intros i Hi. rewrite upd_other by lia. apply H3. lia.
  - exists ph', out'. split; [exact H1|]. split; [intros i Hi; destruct (Nat.eqb_spec i k) as [->|N]; [rewrite E; reflexivity|apply H2; lia]|intros i Hi; apply H3; lia].
  - exists ph', out'. split; [exact H1|]. split; [intros i Hi; destruct (Nat.eqb_spec i k) as [->|N]; [rewrite E; reflexivity|apply H2; lia]|intros i Hi; apply H3; lia].
  - exists ph', out'. split; [exact H1|]. split; [intros i Hi; destruct (Nat.eqb_spec i k) as [->|N]; [rewrite E; reflexivity|apply H2; lia]|intros i Hi; apply H3; lia].
Qed.
Theorem C73_everything_can_be_printed :
  forall n cap s, running n cap s -> cs_cancelled s = false ->
    exists s', csteps n cap s s' /\ cs_received s' = cs_received s /\ forall i, i < n -> of_address i (cs_out s') = cs_received s i.
Proof.
  intros n cap s R C. destruct (running_inv n cap s R) as (_ & I2 & _). destruct (I2 C) as [W _].
  destruct s as [ph ch out rcv w c]. cbn in C, W. subst w c.
  destruct (drain_hands n cap false n ph (out ++ ch) rcv (le_n n)) as (ph' & out' & H1 & H2 & _).
  assert (H : csteps n cap (MkC ph ch out rcv true false) (MkC ph' [] out' rcv true false)) by (eapply csteps_trans; [apply drain_chan|exact H1]).
  exists (MkC ph' [] out' rcv true false). split; [exact H|]. split; [reflexivity|]. intros i Hi.
  assert (R' : running n cap (MkC ph' [] out' rcv true false)).
  { destruct R as (s0 & iv & E & H0). exists s0, iv. split; [exact E|]. eapply csteps_trans; eassumption. }
  destruct (C73_prints_what_is_received n cap _ i R' eq_refl) as (Q & _). cbn in Q |- *. rewrite H2 in Q by exact Hi. rewrite app_nil_r in Q. symmetry. exact Q.
Qed.

(** It never ends by itself, however often streams fail, ... *)
Theorem C73_goes_on :
  forall n cap s i, running n cap s -> cs_cancelled s = false -> i < n ->
    cs_writing s = true /\ cs_phase s i <> Stopped /\
    (cs_phase s i = Sleeping -> exists s', cstep n cap s s' /\ cs_phase s' i = Streaming None).
Proof.
  intros n cap s i R C Hi. destruct (running_inv n cap s R) as (_ & I2 & _). destruct (I2 C) as [W P]. split; [exact W|]. split; [apply P|].
  intros E. destruct s as [ph ch out rcv w c]. cbn in *. subst c. eexists. split; [apply (c_wake n cap i); [exact Hi|exact E]|]. cbn. apply upd_same.
Qed.
(** ... and once it is cancelled it can end from every state, without printing or receiving
    anything more and without needing room in the buffer; nothing that is left can keep it from ending. *)
Theorem C73_ends :
  forall n cap s, running n cap s -> cs_cancelled s = true ->
    exists s', csteps n cap s s' /\ finished n s' /\ cs_out s' = cs_out s /\ cs_received s' = cs_received s.
Proof.
  intros n cap s _ C. destruct s as [ph ch out rcv w c]. cbn in C. subst c.
  assert (H : forall k, k <= n -> exists ph', csteps n cap (MkC ph ch out rcv w true) (MkC ph' ch out rcv w true) /\ (forall i, i < k -> ph' i = Stopped) /\ forall i, k <= i -> ph' i = ph i).
  { induction k as [|k IH]; intros L; [exists ph; repeat split; [constructor|lia]|]. destruct (IH ltac:(lia)) as (ph' & H1 & H2 & H3).
    assert (X : exists ph'', csteps n cap (MkC ph' ch out rcv w true) (MkC ph'' ch out rcv w true) /\ ph'' k = Stopped /\ forall j, j <> k -> ph'' j = ph' j).
    { destruct (ph' k) as [[t|]| |] eqn:E.
      - exists (upd (upd ph' k (Streaming None)) k Stopped). split; [|split; [apply upd_same|intros j N; rewrite !upd_other by exact N; reflexivity]].
        econstructor; [eapply (c_give_up n cap k t); [lia|exact E]|]. apply csteps_one. apply c_stop; [lia|apply upd_same].
      - exists (upd ph' k Stopped). split; [|split; [apply upd_same|intros j N; apply upd_other; exact N]]. apply csteps_one. apply c_stop; [lia|exact E].
      - exists (upd ph' k Stopped). split; [|split; [apply upd_same|intros j N; apply upd_other; exact N]]. apply csteps_one.
        apply (c_wake n cap k ph' ch out rcv w true); [lia|exact E].
      - exists ph'. split; [constructor|]. split; [exact E|reflexivity]. }
    destruct X as (ph'' & X1 & X2 & X3). exists ph''. split; [eapply csteps_trans; eassumption|]. split.
    - intros i Hi. destruct (Nat.eq_dec i k) as [->|N]; [exact X2|]. rewrite X3 by exact N. apply H2. lia.
    - intros i Hi. rewrite X3 by lia. apply H3. lia. }
  destruct (H n (le_n n)) as (ph' & H1 & H2 & _). destruct w.
  - exists (MkC ph' ch out rcv false true). split; [eapply csteps_trans; [exact H1|apply csteps_one; constructor]|]. split; [split; [reflexivity|exact H2]|split; reflexivity].
  - exists (MkC ph' ch out rcv false true). split; [exact H1|]. split; [split; [reflexivity|exact H2]|split; reflexivity].
Qed.
(** An end is final. *)
Theorem C73_end_is_final :
  forall n cap s s', finished n s -> cstep n cap s s' -> cs_out s' = cs_out s /\ cs_received s' = cs_received s /\ finished n s'.
Proof.
  intros n cap s s' [F1 F2] H. destruct H; cbn in *; try discriminate; try (rewrite F2 in * by assumption; discriminate). repeat split; assumption.
Qed.

(** Finding: traces in the buffer when it is cancelled may be lost, ... *)
Theorem C73_buffered_traces_refuted :
  forall t : Tr, exists s, running 1 1 s /\ finished 1 s /\ cs_received s 0 = [t] /\ cs_out s = [].
Proof.
  intros t. eexists. split; [|split; [|split]].
  - eexists _, 1%Z. split; [reflexivity|].
    econstructor; [apply (c_receive 1 1 0 t); [lia|reflexivity]|]. econstructor; [apply (c_send 1 1 0 t); [lia|apply upd_same|cbn; lia]|].
    econstructor; [apply c_cancel|]. econstructor; [apply (c_stop 1 1 0); [lia|apply upd_same]|]. econstructor; [apply c_writer_stop|]. constructor.
  - split; [reflexivity|]. intros i Hi. cbn. assert (i = 0) as -> by lia. reflexivity.
  - reflexivity.
  - reflexivity.
Qed.
(** ... and a trace can be left out although a later one is printed. *)
Theorem C73_gap_refuted :
  forall t u : Tr, exists s, running 1 0 s /\ finished 1 s /\ cs_received s 0 = [t; u] /\ cs_out s = [(0, u)].
Proof.
  intros t u. eexists. split; [|split; [|split]].
  - eexists _, 1%Z. split; [reflexivity|].
    econstructor; [apply (c_receive 1 0 0 t); [lia|reflexivity]|]. econstructor; [apply c_cancel|].
    econstructor; [apply (c_give_up 1 0 0 t); [lia|apply upd_same]|].
    econstructor; [apply (c_receive 1 0 0 u); [lia|apply upd_same]|]. econstructor; [apply (c_hand_over 1 0 0 u); [lia|apply upd_same]|].
    econstructor; [apply (c_stop 1 0 0); [lia|apply upd_same]|]. econstructor; [apply c_writer_stop|]. constructor.
  - split; [reflexivity|]. intros i Hi. cbn. assert (i = 0) as -> by lia. reflexivity.
  - reflexivity.
  - reflexivity.
Qed.
(** Finding: a --stats-interval that is not positive or a negative --recv-buffer ends the
    program. *)
Theorem C73_start_refuted :
  forall n recvBuf interval, cs_start (Tr := Tr) n recvBuf interval = Panic <-> (recvBuf < 0 \/ (interval <= 0 /\ 0 < Z.of_nat n))%Z.
Proof.
  intros n recvBuf interval. unfold cs_start. destruct (Z.ltb_spec recvBuf 0); [split; [left; assumption|reflexivity]|].
  destruct (Z.leb_spec interval 0), (Nat.eqb_spec n 0); cbn [andb negb]; split; try discriminate; try reflexivity; lia.
Qed.
End Proofs.
Print Assumptions C73_prints_what_is_received.
Print Assumptions C73_prints_nothing_else.
Print Assumptions C73_output_grows.
Print Assumptions C73_everything_can_be_printed.
Print Assumptions C73_goes_on.
Print Assumptions C73_ends.
Print Assumptions C73_end_is_final.
Print Assumptions C73_buffered_traces_refuted.
Print Assumptions C73_gap_refuted.
Print Assumptions C73_start_refuted.

(** Two addresses, a buffer of one: a trace is printed, one is in the buffer, one waits, and
    the first stream failed and was retried. *)
Example C73_instance :
  exists s : cstate nat, running 2 1 s /\ cs_cancelled s = false /\ cs_out s = [(0, 10)] /\ cs_chan s = [(1, 20)] /\ cs_phase s 0 = Streaming (Some 11).
Proof.
  eexists. split; [|split; [|split; [|split]]].
  - eexists _, 1%Z. split; [reflexivity|].
    econstructor; [apply (c_receive 2 1 0 10); [lia|reflexivity]|]. econstructor; [apply (c_send 2 1 0 10); [lia|apply upd_same|cbn; lia]|].
    econstructor; [apply c_write|]. econstructor; [apply (c_fail 2 1 0); [lia|apply upd_same]|]. econstructor; [apply (c_wake 2 1 0); [lia|apply upd_same]|].
    econstructor; [apply (c_receive 2 1 1 20); [lia|reflexivity]|]. econstructor; [apply (c_send 2 1 1 20); [lia|apply upd_same|cbn; lia]|].
    econstructor; [apply (c_receive 2 1 0 11); [lia|reflexivity]|]. constructor.
  - reflexivity.
  - reflexivity.
  - reflexivity.
  - reflexivity.
Qed.

From Verif Require Import Go M_Stringer.

Definition sinv (c0 : option string) (st : sstate) : Prop :=
  (forall i, match calls st i with
             | AtLoad | AtFormat => True
             | AtSwap s => In s (formatted st)
             | AtReload => cell st <> None
             | Returned s => cell st = Some s
             | Panicked => False
             end) /\
  (forall s, cell st = Some s -> c0 = Some s \/ (c0 = None /\ In s (formatted st))) /\
  (c0 <> None -> cell st = c0).

Lemma sinv_init c : sinv c (sinit c).
Proof. split; [intros i; exact I|]. split; [|reflexivity]. cbn. intros s ->. left. reflexivity. Qed.

Lemma sinv_step c0 i t st : sinv c0 st -> sinv c0 (sstep_call i t st).
Proof.
  intros (H1 & H2 & H3). unfold sstep_call. pose proof (H1 i) as Hi.
  destruct (calls st i) eqn:Ei; try (repeat split; assumption).
  - destruct (cell st) as [s|] eqn:Ec.
    + split; [|split; cbn; rewrite <- Ec in *; assumption || (rewrite Ec in *; assumption)].
      intros j. cbn [calls cell formatted]. unfold set_call. destruct (Nat.eqb j i); [reflexivity|].
      specialize (H1 j). exact H1.
    + split; [|split; cbn; assumption].
      intros j. cbn. unfold set_call. destruct (Nat.eqb j i); [exact I|]. specialize (H1 j). exact H1.
  - split; [|split; cbn; [|assumption]].
    + intros j. cbn. unfold set_call. destruct (Nat.eqb j i); [left; reflexivity|].
      specialize (H1 j). destruct (calls st j); auto; try (right; exact H1).
    + intros s Hs. destruct (H2 s Hs) as [|[? ?]]; [left; assumption|right; auto].
  - destruct (cell st) as [s'|] eqn:Ec.
    + split; [|split; cbn; assumption].
      intros j. cbn. unfold set_call. destruct (Nat.eqb j i); [discriminate|]. specialize (H1 j). exact H1.
    + split; [|split; cbn].
      * intros j. cbn. unfold set_call. destruct (Nat.eqb j i); [reflexivity|].
        specialize (H1 j). destruct (calls st j); auto; discriminate || congruence.
      * intros s' [= <-]. destruct c0 as [c|]; [specialize (H3 ltac:(discriminate)); discriminate|].
        right. auto.
      * intros Hc. specialize (H3 Hc). congruence.
  - destruct (cell st) as [s'|] eqn:Ec; [|contradiction].
    split; [|split; cbn; assumption].
    intros j. cbn. unfold set_call. destruct (Nat.eqb j i); [reflexivity|]. specialize (H1 j). exact H1.
Qed.

Lemma sinv_run c0 sched : forall st, sinv c0 st -> sinv c0 (srun sched st).
Proof.
  induction sched as [|it sched IH]; intros st H; [exact H|]. apply IH. apply sinv_step. exact H.
Qed.

Lemma string_agree c0 sched : let st := srun sched (sinit c0) in
  (forall i, calls st i <> Panicked) /\
  (forall i j s s', calls st i = Returned s -> calls st j = Returned s' -> s = s') /\
  (forall i s, calls st i = Returned s -> c0 = Some s \/ (c0 = None /\ In s (formatted st))).
Proof.
  intros st. destruct (sinv_run c0 sched _ (sinv_init c0)) as (H1 & H2 & H3). fold st in H1, H2, H3.
  split; [|split].
  - intros i E. specialize (H1 i). rewrite E in H1. exact H1.
  - intros i j s s' Ei Ej. pose proof (H1 i) as Hi. pose proof (H1 j) as Hj. rewrite Ei in Hi. rewrite Ej in Hj. congruence.
  - intros i s Ei. pose proof (H1 i) as Hi. rewrite Ei in Hi. apply H2. exact Hi.
Qed.

(** A later call (in the same or a longer schedule) agrees too: a value once
    returned is returned for ever. *)
Lemma returned_stays i s sched : forall st, calls st i = Returned s -> calls (srun sched st) i = Returned s.
Proof.
  induction sched as [|[j t] sched IH]; intros st H; [exact H|]. apply IH. cbn [fst snd].
  unfold sstep_call. destruct (Nat.eqb i j) eqn:E.
  - apply Nat.eqb_eq in E. subst j. rewrite H. exact H.
  - destruct (calls st j); try exact H; try destruct (cell st); cbn; unfold set_call; rewrite E; exact H.
Qed.

(** Each call returns after at most four of its own steps. *)
Definition count_steps (i : nat) (sched : list (nat * string)) : nat :=
  length (filter (fun it => Nat.eqb (fst it) i) sched).
Definition srank (c : scall) : nat :=
  match c with AtLoad => 4 | AtFormat => 3 | AtSwap _ => 2 | AtReload => 1 | _ => 0 end.

Lemma step_rank i t st : (srank (calls (sstep_call i t st) i) <= Nat.pred (srank (calls st i)))%nat.
Proof.
  unfold sstep_call. destruct (calls st i) eqn:Ei; try destruct (cell st); cbn; unfold set_call;
  rewrite ?Nat.eqb_refl, ?Ei; cbn; repeat constructor.
Qed.
Lemma step_other i j t st : i <> j -> calls (sstep_call i t st) j = calls st j.
Proof.
  intros H. assert (E : Nat.eqb j i = false) by (apply Nat.eqb_neq; congruence).
  unfold sstep_call. destruct (calls st i); try destruct (cell st); cbn; unfold set_call; rewrite ?E; reflexivity.
Qed.
Lemma run_rank i sched : forall st, (srank (calls (srun sched st) i) <= srank (calls st i) - count_steps i sched)%nat.
Proof.
  induction sched as [|[j t] sched IH]; intros st; [cbn; lia|].
  cbn [srun fold_left fst snd]. change (fold_left _ sched ?s) with (srun sched s).
  specialize (IH (sstep_call j t st)). unfold count_steps in *. cbn [filter fst].
  destruct (Nat.eqb_spec j i) as [->|Hne].
  - cbn [length]. pose proof (step_rank i t st). lia.
  - rewrite step_other in IH by assumption. exact IH.
Qed.
Lemma call_returns c0 sched i : (4 <= count_steps i sched)%nat -> exists s, calls (srun sched (sinit c0)) i = Returned s.
Proof.
  intros H. pose proof (run_rank i sched (sinit c0)) as Hr. cbn [sinit calls srank] in Hr.
  destruct (string_agree c0 sched) as (Hp & _). specialize (Hp i).
  destruct (calls (srun sched (sinit c0)) i) eqn:E; cbn [srank] in Hr; try lia; [eauto|exfalso; apply Hp; exact E || reflexivity].
Qed.

(** Happens-before and histories: lemmas. *)
From Verif Require Import Go L_List S_HappensBefore.
From Coq Require Import Lia.
Open Scope list_scope.
Open Scope nat_scope.

Section HB.
Context {loc sync : Type}.
Notation history := (history loc sync).
Notation action := (act loc sync).
Implicit Types (l : history) (script : list action).

Lemma before_lt l i j : before l i j -> i < j.
Proof. induction 1; lia. Qed.
Lemma nth_old {A} (l s : list A) p x : nth_error l p = Some x -> nth_error (l ++ s) p = Some x.
Proof. intros H. rewrite nth_error_app1; [exact H|]. apply nth_error_Some. congruence. Qed.
Lemma before_mono l s i j : before l i j -> before (l ++ s) i j.
Proof. induction 1; [eapply before_program; eauto using nth_old|eapply before_sync; eauto using nth_old|eapply before_trans; eauto]. Qed.

(** p happens before whatever goroutine i does next; before a release of x. *)
Definition know l (i p : nat) : Prop := exists q a, nth_error l q = Some (i, a) /\ (p = q \/ before l p q).
Definition passed l (x : sync) (p : nat) : Prop := exists q g, nth_error l q = Some (g, Release x) /\ (p = q \/ before l p q).
Lemma know_mono l s i p : know l i p -> know (l ++ s) i p.
Proof. intros (q & a & H & [->|Hb]); exists q, a; eauto using nth_old, before_mono. Qed.
Lemma passed_mono l s x p : passed l x p -> passed (l ++ s) x p.
Proof. intros (q & a & H & [->|Hb]); exists q, a; eauto using nth_old, before_mono. Qed.

(** goroutine i does what is in a script *)
Definition does l i script : history := l ++ map (pair i) script.
Lemma does_new l i script k a : nth_error script k = Some a -> nth_error (does l i script) (length l + k) = Some (i, a).
Proof.
  intros H. unfold does. rewrite nth_error_app2 by lia. replace (length l + k - length l) with k by lia.
  rewrite nth_error_map, H. reflexivity.
Qed.
Lemma does_inv l i script p g a : nth_error (does l i script) p = Some (g, a) ->
  nth_error l p = Some (g, a) \/ exists k, p = length l + k /\ g = i /\ nth_error script k = Some a.
Proof.
  unfold does. intros H. destruct (Nat.lt_ge_cases p (length l)) as [L|L].
  - left. rewrite nth_error_app1 in H by exact L. exact H.
  - right. rewrite nth_error_app2, nth_error_map in H by exact L. exists (p - length l).
    destruct (nth_error script (p - length l)) as [b|]; cbn in H; [|discriminate]. injection H as -> ->.
    split; [lia|auto].
Qed.
Lemma old_bound {A} (l : list A) p x : nth_error l p = Some x -> p < length l.
Proof. intros H. apply nth_error_Some. congruence. Qed.

Lemma know_next l i script k a p : know l i p -> nth_error script k = Some a -> before (does l i script) p (length l + k).
Proof.
  intros (q & b & H & Hp) Hk.
  assert (Q : before (does l i script) q (length l + k)).
  { pose proof (old_bound _ _ _ H). eapply before_program; [lia|apply nth_old; exact H|apply does_new; exact Hk]. }
  destruct Hp as [->|Hp]; [exact Q|]. eapply before_trans; [apply before_mono; exact Hp|exact Q].
Qed.
Lemma passed_acquire l i script x k p : passed l x p -> nth_error script k = Some (Acquire x) ->
  before (does l i script) p (length l + k).
Proof.
  intros (q & g & H & Hp) Hk.
  assert (Q : before (does l i script) q (length l + k)).
  { pose proof (old_bound _ _ _ H). eapply before_sync; [lia|apply nth_old; exact H|apply does_new; exact Hk]. }
  destruct Hp as [->|Hp]; [exact Q|]. eapply before_trans; [apply before_mono; exact Hp|exact Q].
Qed.
Lemma passed_after l i script x k k' a p : passed l x p -> nth_error script k = Some (Acquire x) -> k < k' -> nth_error script k' = Some a ->
  before (does l i script) p (length l + k').
Proof.
  intros P H L H'. eapply before_trans; [eapply passed_acquire; eassumption|].
  eapply before_program; [|apply does_new; exact H|apply does_new; exact H']. lia.
Qed.
Lemma passed_know l i script x k p : passed l x p -> nth_error script k = Some (Acquire x) -> know (does l i script) i p.
Proof. intros P H. exists (length l + k), (Acquire x). split; [apply does_new; exact H|right; eapply passed_acquire; eassumption]. Qed.
Lemma new_passed l i script x k k' a : nth_error script k = Some a -> k < k' -> nth_error script k' = Some (Release x) ->
  passed (does l i script) x (length l + k).
Proof.
  intros H L H'. exists (length l + k'), i. split; [apply does_new; exact H'|right].
  eapply before_program; [|apply does_new; exact H|apply does_new; exact H']. lia.
Qed.

Lemma does_no_race l i script : no_race l ->
  (forall p g a loc w k b w', nth_error l p = Some (g, a) -> access_of a = Some (loc, w) ->
     nth_error script k = Some b -> access_of b = Some (loc, w') -> w = true \/ w' = true ->
     before (does l i script) p (length l + k)) ->
  no_race (does l i script).
Proof.
  intros N H p q L (gp & a & gq & b & loc0 & w & w' & Hp & Hq & A & B & W).
  destruct (does_inv _ _ _ _ _ _ Hq) as [Oq|(k & -> & -> & Kq)].
  - assert (p < length l) by (apply old_bound in Oq; lia).
    destruct (does_inv _ _ _ _ _ _ Hp) as [Op|(k & -> & _)]; [|lia].
    apply before_mono, N; [exact L|]. exists gp, a, gq, b, loc0, w, w'. auto.
  - destruct (does_inv _ _ _ _ _ _ Hp) as [Op|(k' & -> & -> & Kp)].
    + eapply H; eassumption.
    + eapply before_program; eassumption.
Qed.

(** *** Deciding, for a given history *)
Variable same : sync -> sync -> bool.
Hypothesis same_refl : forall x, same x x = true.
Definition edge l (i j : nat) : bool :=
  (i <? j) && match nth_error l i, nth_error l j with
              | Some (g, a), Some (g', b) => (g =? g') || match a, b with Release x, Acquire y => same x y | _, _ => false end
              | _, _ => false
              end.
(** a relation that contains what orders directly and is closed, contains happens-before *)
Definition covers l (r : nat -> nat -> bool) : bool :=
  let n := seq 0 (length l) in
  forallb (fun i => forallb (fun j => implb (edge l i j) (r i j) && forallb (fun k => implb (r i j && r j k) (r i k)) n) n) n.
Lemma covers_before l r i j : covers l r = true -> before l i j -> r i j = true /\ i < length l /\ j < length l.
Proof.
  intros C H. unfold covers in C. rewrite forallb_forall in C.
  assert (S : forall a, a < length l -> In a (seq 0 (length l))) by (intros; apply in_seq; lia).
  assert (E : forall a b, a < length l -> b < length l -> edge l a b = true -> r a b = true).
  { intros a b La Lb E. specialize (C a (S a La)). rewrite forallb_forall in C. specialize (C b (S b Lb)).
    apply andb_true_iff in C as [C _]. rewrite E in C. exact C. }
  assert (T : forall a b c, a < length l -> b < length l -> c < length l -> r a b = true -> r b c = true -> r a c = true).
  { intros a b c La Lb Lc R1 R2. specialize (C a (S a La)). rewrite forallb_forall in C. specialize (C b (S b Lb)).
    apply andb_true_iff in C as [_ C]. rewrite forallb_forall in C. specialize (C c (S c Lc)). rewrite R1, R2 in C. exact C. }
  induction H as [i j g a b L Hi Hj|i j g g' x L Hi Hj|i j k H1 (R1 & L1 & L1') H2 (R2 & L2 & L2')].
  - pose proof (old_bound _ _ _ Hi). pose proof (old_bound _ _ _ Hj). repeat split; try assumption. apply E; try assumption.
    unfold edge. rewrite Hi, Hj, Nat.eqb_refl. apply Nat.ltb_lt in L. rewrite L. reflexivity.
  - pose proof (old_bound _ _ _ Hi). pose proof (old_bound _ _ _ Hj). repeat split; try assumption. apply E; try assumption.
    unfold edge. rewrite Hi, Hj, same_refl, orb_true_r. apply Nat.ltb_lt in L. rewrite L. reflexivity.
  - repeat split; try assumption. eapply T; [| | |exact R1|exact R2]; assumption.
Qed.
(** reachability in [fuel] rounds *)
Fixpoint reach l (fuel i j : nat) : bool :=
  match fuel with
  | O => false
  | S fuel => edge l i j || existsb (fun k => edge l i k && reach l fuel k j) (seq 0 (length l))
  end.
End HB.

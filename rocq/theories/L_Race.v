(** Happens-before and logs: lemmas. *)
From Verif Require Import Go L_List S_Race M_Race.
From Coq Require Import Lia.
Open Scope list_scope.
Open Scope nat_scope.

Lemma hb_lt l i j : hb l i j -> i < j.
Proof. induction 1; lia. Qed.
Lemma hb_bound l i j : hb l i j -> j < length l.
Proof. induction 1; [|apply nth_error_Some; congruence|assumption]. apply nth_error_Some. congruence. Qed.
Lemma nth_old {A} (l s : list A) p x : nth_error l p = Some x -> nth_error (l ++ s) p = Some x.
Proof. intros H. rewrite nth_error_app1; [exact H|]. apply nth_error_Some. congruence. Qed.
Lemma hb_mono l s i j : hb l i j -> hb (l ++ s) i j.
Proof.
  induction 1; [eapply hb_program; eauto using nth_old|eapply hb_sync; eauto using nth_old|eapply hb_trans; eauto].
Qed.
Lemma hb_prefix l s i j : hb (l ++ s) i j -> j < length l -> hb l i j.
Proof.
  intros H. induction H as [i j g a b H1 H2 H3|i j g g' x H1 H2 H3|i j k H1 IH1 H2 IH2]; intros L.
  - rewrite nth_error_app1 in H2, H3 by lia. eapply hb_program; eauto.
  - rewrite nth_error_app1 in H2, H3 by lia. eapply hb_sync; eauto.
  - apply hb_lt in H2. eapply hb_trans; [apply IH1; lia|apply IH2; exact L].
Qed.

(** Goroutine i knows of p: p happens before whatever it does next. *)
Definition know (l : log) (i p : nat) : Prop := exists q a, nth_error l q = Some (i, a) /\ (p = q \/ hb l p q).
(** p happens before a release of x, so before whatever an acquirer does. *)
Definition passed (l : log) (x : sync) (p : nat) : Prop := exists q g, nth_error l q = Some (g, Rel x) /\ (p = q \/ hb l p q).

Lemma know_mono l s i p : know l i p -> know (l ++ s) i p.
Proof. intros (q & a & H & [->|Hb]); exists q, a; eauto using nth_old, hb_mono. Qed.
Lemma passed_mono l s x p : passed l x p -> passed (l ++ s) x p.
Proof. intros (q & a & H & [->|Hb]); exists q, a; eauto using nth_old, hb_mono. Qed.
Lemma know_down l i p q : know l i q -> hb l p q -> know l i p.
Proof. intros (r & a & H & [->|Hb]) H2; exists r, a; (split; [exact H|right]); eauto using hb_trans. Qed.
Lemma passed_down l x p q : passed l x q -> hb l p q -> passed l x p.
Proof. intros (r & a & H & [->|Hb]) H2; exists r, a; (split; [exact H|right]); eauto using hb_trans. Qed.
Lemma know_bound l i p : know l i p -> p < length l.
Proof.
  intros (q & a & H & Hp). assert (q < length l) by (apply nth_error_Some; congruence). destruct Hp as [->|Hp]; [assumption|]. apply hb_lt in Hp. lia.
Qed.

(** *** One action *)
Lemma nth_last {A} (l : list A) x : nth_error (l ++ [x]) (length l) = Some x.
Proof. rewrite nth_error_app2, Nat.sub_diag by lia. reflexivity. Qed.
Lemma know_hb_next l i a p : know l i p -> hb (l ++ [(i, a)]) p (length l).
Proof.
  intros K. pose proof (know_bound _ _ _ K) as B. destruct K as (q & b & H & Hp).
  assert (Q : hb (l ++ [(i, a)]) q (length l)).
  { eapply hb_program; [apply nth_error_Some; congruence|apply nth_old; exact H|apply nth_last]. }
  destruct Hp as [->|Hp]; [exact Q|]. eapply hb_trans; [apply hb_mono; exact Hp|exact Q].
Qed.
Lemma hb_next_know l i a p : hb (l ++ [(i, a)]) p (length l) -> (forall x, a <> Acq x) -> know l i p.
Proof.
  intros H N. remember (length l) as n eqn:En. induction H as [p j g b c H1 H2 H3|p j g g' x H1 H2 H3|p j k H1 IH1 H2 IH2]; subst.
  - rewrite nth_last in H3. injection H3 as <- <-. rewrite nth_error_app1 in H2 by lia. exists p, b. auto.
  - rewrite nth_last in H3. injection H3 as <- ->. destruct (N x eq_refl).
  - specialize (IH2 eq_refl). pose proof (know_bound _ _ _ IH2) as B. apply hb_prefix in H1; [|exact B]. eapply know_down; eauto.
Qed.
Lemma know_self l i a : know (l ++ [(i, a)]) i (length l).
Proof. exists (length l), a. split; [apply nth_last|auto]. Qed.
Lemma know_acq1 l i x p : passed l x p -> know (l ++ [(i, Acq x)]) i p.
Proof.
  intros (q & g & H & Hp). exists (length l), (Acq x). split; [apply nth_last|]. right.
  assert (Q : hb (l ++ [(i, Acq x)]) q (length l)).
  { eapply hb_sync; [apply nth_error_Some; congruence|apply nth_old; exact H|apply nth_last]. }
  destruct Hp as [->|Hp]; [exact Q|]. eapply hb_trans; [apply hb_mono; exact Hp|exact Q].
Qed.
Lemma pass_rel1 l i x p : know l i p -> passed (l ++ [(i, Rel x)]) x p.
Proof. intros K. exists (length l), i. split; [apply nth_last|]. right. apply know_hb_next. exact K. Qed.

(** *** Segments: a goroutine does several actions. *)
Lemma by_cons i a s : by_ i (a :: s) = [(i, a)] ++ by_ i s.
Proof. reflexivity. Qed.
Lemma by_app i s t : by_ i (s ++ t) = by_ i s ++ by_ i t.
Proof. apply map_app. Qed.
Lemma by_len i s : length (by_ i s) = length s.
Proof. apply map_length. Qed.
Lemma nth_by l i s p : length l <= p -> nth_error (l ++ by_ i s) p = match nth_error s (p - length l) with Some a => Some (i, a) | None => None end.
Proof.
  intros L. rewrite nth_error_app2 by exact L. unfold by_. rewrite nth_error_map. destruct (nth_error s (p - length l)); reflexivity.
Qed.
Lemma nth_by_old l i s p x : nth_error (l ++ by_ i s) p = Some x -> nth_error l p = Some x \/ (length l <= p /\ fst x = i /\ nth_error s (p - length l) = Some (snd x)).
Proof.
  intros H. destruct (Nat.lt_ge_cases p (length l)) as [L|L]; [left; rewrite nth_error_app1 in H by exact L; exact H|]. right.
  rewrite nth_by in H by exact L. destruct (nth_error s (p - length l)) as [a|]; [|discriminate]. injection H as <-. auto.
Qed.
Lemma know_seg l i s p : length l <= p < length l + length s -> know (l ++ by_ i s) i p.
Proof.
  intros [L U]. destruct (nth_error s (p - length l)) as [a|] eqn:E; [|apply nth_error_None in E; lia].
  exists p, a. split; [rewrite nth_by by exact L; rewrite E; reflexivity|auto].
Qed.
Lemma know_seg_acq l i s x p : In (Acq x) s -> passed l x p -> know (l ++ by_ i s) i p.
Proof.
  intros H K. apply in_split in H. destruct H as (s1 & s2 & ->). rewrite by_app, by_cons, !app_assoc. apply know_mono. apply know_acq1. apply passed_mono. exact K.
Qed.
Lemma pass_split l i s1 s2 x p : know (l ++ by_ i s1) i p -> passed (l ++ by_ i (s1 ++ Rel x :: s2)) x p.
Proof. intros K. rewrite by_app, by_cons, !app_assoc. apply passed_mono. apply pass_rel1. exact K. Qed.
Lemma pass_seg l i s x p : In (Rel x) s -> know l i p -> passed (l ++ by_ i s) x p.
Proof. intros H K. apply in_split in H. destruct H as (s1 & s2 & ->). apply pass_split. apply know_mono. exact K. Qed.

(** Accesses. *)
Definition acc (l : log) (p : nat) (c : loc) (w : bool) : Prop := exists i a, nth_error l p = Some (i, a) /\ access a = Some (c, w).
Definition touched (l : log) (p : nat) (c : loc) : Prop := exists w, acc l p c w.
Lemma acc_mono l s p c w : acc l p c w -> acc (l ++ s) p c w.
Proof. intros (i & a & H & A). exists i, a. eauto using nth_old. Qed.
Lemma acc_bound l p c w : acc l p c w -> p < length l.
Proof. intros (i & a & H & A). apply nth_error_Some. congruence. Qed.
Lemma acc_by l i s p c w : acc (l ++ by_ i s) p c w ->
  acc l p c w \/ (length l <= p < length l + length s /\ exists a, nth_error s (p - length l) = Some a /\ access a = Some (c, w)).
Proof.
  intros (j & a & H & A). apply nth_by_old in H. destruct H as [H|(L & _ & H)]; [left; exists j, a; auto|]. right. cbn [snd] in H.
  assert (p - length l < length s) by (apply nth_error_Some; congruence). split; [lia|]. eauto.
Qed.
Definition untouched (s : list action) (c : loc) : Prop := Forall (fun a => forall w, access a <> Some (c, w)) s.
Lemma acc_by_old l i s p c w : untouched s c -> acc (l ++ by_ i s) p c w -> acc l p c w.
Proof.
  intros U H. apply acc_by in H. destruct H as [H|(L & a & H & A)]; [exact H|]. apply nth_error_In in H. unfold untouched in U. rewrite Forall_forall in U. destruct (U a H w A).
Qed.

(** Each access in a segment, with what was acquired before it in the segment. *)
Fixpoint accs (ys : list sync) (s : list action) : list (loc * bool * list sync) :=
  match s with
  | [] => []
  | a :: s => (match access a with Some (c, w) => [(c, w, ys)] | None => [] end) ++ accs (match a with Acq x => x :: ys | _ => ys end) s
  end.
Definition covered (l : log) (i : nat) (x : loc * bool * list sync) : Prop :=
  let '(c, w, ys) := x in forall p w', acc l p c w' -> w' = true \/ w = true -> know l i p \/ exists y, In y ys /\ passed l y p.
Lemma race_free_1 l i a : race_free l -> (forall c w, access a = Some (c, w) -> forall p w', acc l p c w' -> w' = true \/ w = true -> know l i p) -> race_free (l ++ [(i, a)]).
Proof.
  intros R H p q L (gi & ai & gj & aj & c & wi & wj & H1 & H2 & A1 & A2 & W).
  assert (Lq : q < length (l ++ [(i, a)])) by (apply nth_error_Some; congruence). rewrite app_length in Lq. cbn [length] in Lq.
  destruct (Nat.lt_ge_cases q (length l)) as [Q|Q].
  - apply hb_mono. apply R; [exact L|]. rewrite nth_error_app1 in H1, H2 by lia. exists gi, ai, gj, aj, c, wi, wj. auto.
  - assert (q = length l) by lia. subst q. rewrite nth_last in H2. injection H2 as <- <-. rewrite nth_error_app1 in H1 by lia.
    apply know_hb_next. apply (H c wj A2 p wi); [exists gi, ai; auto|exact W].
Qed.
Lemma race_free_seg l i : forall s done ys, race_free (l ++ by_ i done) -> (forall y, In y ys -> In (Acq y) done) -> Forall (covered l i) (accs ys s) -> race_free (l ++ by_ i (done ++ s)).
Proof.
  induction s as [|a s IH]; intros done ys R Y F; [rewrite app_nil_r; exact R|].
  replace (done ++ a :: s) with ((done ++ [a]) ++ s) by (rewrite <- app_assoc; reflexivity). cbn [accs] in F. apply Forall_app in F. destruct F as [F1 F2].
  apply (IH (done ++ [a]) (match a with Acq x => x :: ys | _ => ys end)); [| |exact F2].
  - rewrite by_app, app_assoc. apply race_free_1; [exact R|]. intros c w A p w' Hp W. rewrite A in F1. inversion F1 as [|? ? C _]. subst.
    destruct (acc_by _ _ _ _ _ _ Hp) as [Ho|(Hn & _)]; [|apply know_seg; exact Hn].
    destruct (C p w' Ho W) as [K|(y & Hy & K)]; [apply know_mono; exact K|]. apply (know_seg_acq _ _ _ y); [apply Y; exact Hy|exact K].
  - assert (B : forall y, In y ys -> In (Acq y) (done ++ [a])) by (intros y Hy; apply in_or_app; left; apply Y; exact Hy).
    destruct a; try exact B. intros y [->|Hy]; [apply in_or_app; right; left; reflexivity|apply B; exact Hy].
Qed.
Lemma race_free_script l i s : race_free l -> Forall (covered l i) (accs [] s) -> race_free (l ++ by_ i s).
Proof. intros R F. apply (race_free_seg l i s [] []); [rewrite app_nil_r; exact R|intros y []|exact F]. Qed.
Lemma covered_more l i c w ys ys' : (forall y, In y ys -> In y ys') -> covered l i (c, w, ys) -> covered l i (c, w, ys').
Proof. intros H C p w' A W. destruct (C p w' A W) as [K|(y & Hy & K)]; eauto. Qed.
Lemma accs_more l i : forall s ys ys', (forall y, In y ys -> In y ys') -> Forall (covered l i) (accs ys s) -> Forall (covered l i) (accs ys' s).
Proof.
  induction s as [|a s IH]; intros ys ys' H F; [constructor|]. cbn [accs] in *. apply Forall_app in F. destruct F as [F1 F2]. apply Forall_app. split.
  - destruct (access a) as [[c w]|]; constructor; [|constructor]. inversion F1. subst. eapply covered_more; eauto.
  - apply (IH (match a with Acq x => x :: ys | _ => ys end)); [|exact F2]. destruct a; auto. intros y [->|Hy]; [left; reflexivity|right; auto].
Qed.
Lemma accs_app_safe l i ys s1 s2 : Forall (covered l i) (accs ys s1) -> Forall (covered l i) (accs ys s2) -> Forall (covered l i) (accs ys (s1 ++ s2)).
Proof.
  revert ys. induction s1 as [|a s1 IH]; intros ys F1 F2; [exact F2|]. cbn [accs app] in *. apply Forall_app in F1. destruct F1 as [F1 F3]. apply Forall_app. split; [exact F1|].
  apply IH; [exact F3|]. apply (accs_more l i s2 ys); [destruct a; auto; intros y Hy; right; exact Hy|exact F2].
Qed.

(** Held mutexes. *)
Lemma holder_app x l s : holder x (l ++ s) = fold_left (fun h ia => match snd ia with Acq y => if sync_eq_dec x y then Some (fst ia) else h | Rel y => if sync_eq_dec x y then None else h | _ => h end) s (holder x l).
Proof. unfold holder. apply fold_left_app. Qed.
Lemma holder_keep x l i s : ~ In (Acq x) s -> ~ In (Rel x) s -> holder x (l ++ by_ i s) = holder x l.
Proof.
  rewrite holder_app. generalize (holder x l). induction s as [|a s IH]; intros h H1 H2; [reflexivity|]. cbn [by_ map fold_left snd fst].
  rewrite IH by (intros Q; first [apply H1; right; exact Q|apply H2; right; exact Q]).
  destruct a as [y|y| | | | | | |]; try reflexivity; destruct (sync_eq_dec x y) as [->|n]; try reflexivity; [destruct H1|destruct H2]; left; reflexivity.
Qed.
Lemma holder_rel x l i s : holder x (l ++ by_ i (s ++ [Rel x])) = None.
Proof. rewrite by_app, app_assoc, holder_app. cbn. destruct (sync_eq_dec x x); [reflexivity|congruence]. Qed.
Lemma not_blocked l s x : blocked l s = false -> In (Acq x) s -> is_mutex x = true -> holder x l = None.
Proof.
  intros B H M. unfold blocked in B. destruct (holder x l) as [j|] eqn:E; [|reflexivity].
  assert (Q : existsb (fun a => match a with Acq x => (is_mutex x && match holder x l with Some _ => true | None => false end)%bool | _ => false end) s = true).
  { apply existsb_exists. exists (Acq x). split; [exact H|]. rewrite M, E. reflexivity. }
  congruence.
Qed.

(** Conditions on programs hold of prefixes. *)
Lemma orderly_prefix l s : orderly (l ++ s) -> orderly l.
Proof.
  intros [O1 O2 O3]. constructor.
  - intros n t p q g g' Hp Hq. assert (B : q < length l) by (destruct Hq as [Hq|Hq]; apply nth_error_Some; congruence).
    apply (hb_prefix l s); [|exact B]. eapply O1; [apply nth_old; exact Hp|]. destruct Hq as [Hq|Hq]; [left|right]; apply nth_old; exact Hq.
  - intros n t q f g g' Hq Hf. assert (B : f < length l) by (apply nth_error_Some; congruence). apply (hb_prefix l s); [|exact B]. eapply O2; apply nth_old; eassumption.
  - intros n t p q f g g' g'' Hp Hf L Hq. eapply O3; [apply nth_old; exact Hp|apply nth_old; exact Hf|exact L|]. destruct Hq as [Hq|Hq]; [left|right]; apply nth_old; exact Hq.
Qed.

(** Happens-before, order and races of a given log can be computed: for the concrete runs of C77. *)
From Verif Require Import Go S_Race M_Race L_Race.
From Coq Require Import Lia NArith.
Open Scope list_scope.
Open Scope nat_scope.

Definition edge (x y : nat * action) : bool :=
  Nat.eqb (fst x) (fst y) || match snd x, snd y with Rel a, Acq b => if sync_eq_dec a b then true else false | _, _ => false end.
(** For each position, the set of the earlier ones that happen before it, as bits. *)
Definition direct (l : log) (x : nat * action) : list nat :=
  filter (fun d => match nth_error l d with Some y => edge y x | None => false end) (seq 0 (length l)).
Definition past_of (l : log) (ps : list N) (x : nat * action) : N :=
  fold_right N.lor 0%N (map (fun d => N.setbit (nth d ps 0%N) (N.of_nat d)) (direct l x)).
Definition add_past (acc : log * list N) (x : nat * action) : log * list N := let '(l, ps) := acc in (l ++ [x], ps ++ [past_of l ps x]).
Definition pasts (l : log) : list N := snd (fold_left add_past l ([], [])).
Definition hbb (ps : list N) (i j : nat) : bool := N.testbit (nth j ps 0%N) (N.of_nat i).

Lemma fold_past l : fold_left add_past l ([], []) = (l, pasts l) /\ length (pasts l) = length l.
Proof.
  induction l as [|x l [IH1 IH2]] using rev_ind; [split; reflexivity|]. unfold pasts. rewrite fold_left_app. cbn [fold_left]. rewrite IH1. cbn [add_past snd]. rewrite !app_length, IH2. auto.
Qed.
Lemma pasts_snoc l x : pasts (l ++ [x]) = pasts l ++ [past_of l (pasts l) x].
Proof. unfold pasts at 1. rewrite fold_left_app. rewrite (proj1 (fold_past l)). reflexivity. Qed.
Lemma past_bit l ps x i : N.testbit (past_of l ps x) (N.of_nat i) = true <-> exists d, In d (direct l x) /\ (i = d \/ hbb ps i d = true).
Proof.
  unfold past_of, hbb. induction (direct l x) as [|d ds IH]; cbn [map fold_right].
  - rewrite N.bits_0. split; [discriminate|intros (d & [] & _)].
  - rewrite N.lor_spec, Bool.orb_true_iff, IH, N.setbit_eqb, Bool.orb_true_iff, N.eqb_eq. split.
    + intros [[E|E]|(d' & H & E)]; [exists d; split; [left; reflexivity|left; apply Nnat.Nat2N.inj in E; congruence]|exists d; split; [left; reflexivity|right; exact E]|exists d'; split; [right; exact H|exact E]].
    + intros (d' & [<-|H] & E); [left; destruct E as [->|E]; auto|right; exists d'; auto].
Qed.
Lemma edge_hb l i j x y : i < j -> nth_error l i = Some x -> nth_error l j = Some y -> edge x y = true -> hb l i j.
Proof.
  destruct x as [g a], y as [g' b]. intros L H1 H2 E. unfold edge in E. cbn [fst snd] in E. apply Bool.orb_true_iff in E. destruct E as [E|E].
  - apply Nat.eqb_eq in E. subst g'. exact (hb_program l i j g a b L H1 H2).
  - destruct a; try discriminate. destruct b; try discriminate. destruct (sync_eq_dec x x0) as [->|]; [|discriminate]. exact (hb_sync l i j g g' x0 L H1 H2).
Qed.
Lemma hb_edge l i j : hb l i j -> (exists x y, i < j /\ nth_error l i = Some x /\ nth_error l j = Some y /\ edge x y = true) \/
  exists d x y, hb l i d /\ d < j /\ nth_error l d = Some x /\ nth_error l j = Some y /\ edge x y = true.
Proof.
  intros H. induction H as [i j g a b H1 H2 H3|i j g g' x H1 H2 H3|i j k H1 _ H2 IH2].
  - left. exists (g, a), (g, b). unfold edge. cbn [fst snd]. rewrite Nat.eqb_refl. auto.
  - left. exists (g, Rel x), (g', Acq x). unfold edge. cbn [fst snd]. destruct (sync_eq_dec x x); [rewrite Bool.orb_true_r; auto|congruence].
  - right. destruct IH2 as [(x & y & L & Q)|(d & x & y & Q1 & Q)]; [exists j, x, y; tauto|]. exists d, x, y. split; [exact (hb_trans l i j d H1 Q1)|exact Q].
Qed.
Lemma hbb_spec l : forall i j, hbb (pasts l) i j = true <-> hb l i j.
Proof.
  induction l as [|x l IH] using rev_ind; intros i j.
  - assert (E : nth j (pasts []) 0%N = 0%N) by (destruct j as [|[|j]]; reflexivity). unfold hbb. rewrite E, N.bits_0. split; [discriminate|]. intros H. apply hb_bound in H. inversion H.
  - unfold hbb. rewrite pasts_snoc. pose proof (proj2 (fold_past l)) as Lp. destruct (Nat.lt_trichotomy j (length l)) as [L|[->|L]].
    + rewrite app_nth1 by lia. fold (hbb (pasts l) i j). rewrite IH. split; [apply hb_mono|]. intros H. exact (hb_prefix _ _ _ _ H L).
    + rewrite app_nth2, Lp, Nat.sub_diag by lia. cbn [nth]. rewrite past_bit. split.
      * intros (d & Hd & E). apply filter_In in Hd. destruct Hd as [Hd Ed]. apply in_seq in Hd. destruct (nth_error l d) as [y|] eqn:Ny; [|discriminate].
        assert (Q : hb (l ++ [x]) d (length l)) by (apply (edge_hb _ _ _ y x); [lia|apply nth_old; exact Ny|apply nth_last|exact Ed]).
        destruct E as [->|E]; [exact Q|]. apply IH in E. exact (hb_trans _ _ _ _ (hb_mono _ _ _ _ E) Q).
      * intros H. pose proof (hb_lt _ _ _ H) as Li. apply hb_edge in H. destruct H as [(y & x' & _ & H1 & H2 & E)|(d & y & x' & H0 & Ld & H1 & H2 & E)];
          rewrite nth_last in H2; injection H2 as <-.
        -- exists i. split; [|left; reflexivity]. apply filter_In. split; [apply in_seq; lia|]. rewrite nth_error_app1 in H1 by lia. rewrite H1. exact E.
        -- exists d. split; [|right; apply IH; exact (hb_prefix _ _ _ _ H0 Ld)]. apply filter_In. split; [apply in_seq; lia|]. rewrite nth_error_app1 in H1 by lia. rewrite H1. exact E.
    + rewrite nth_overflow by (rewrite app_length; cbn; lia). rewrite N.bits_0. split; [discriminate|]. intros H. apply hb_bound in H. rewrite app_length in H. cbn in H. lia.
Qed.
Definition loc_eq_dec (x y : loc) : {x = y} + {x <> y}.
Proof. repeat decide equality. Defined.
(** All pairs of positions. *)
Definition pairs (l : log) (f : nat -> nat * action -> nat -> nat * action -> bool) : bool :=
  let xs := combine (seq 0 (length l)) l in
  forallb (fun px => forallb (fun qy => f (fst px) (snd px) (fst qy) (snd qy)) xs) xs.
Lemma in_combine_seq {A} (l : list A) p x : nth_error l p = Some x -> In (p, x) (combine (seq 0 (length l)) l).
Proof.
  intros H. assert (L : p < length l) by (apply nth_error_Some; congruence). apply (nth_error_In _ p).
  assert (G : forall (l : list A) k p x, nth_error l p = Some x -> nth_error (combine (seq k (length l)) l) p = Some (k + p, x)).
  { clear. induction l as [|y l IH]; intros k [|p] x H; try discriminate; cbn [length seq combine nth_error] in *.
    - injection H as <-. rewrite Nat.add_0_r. reflexivity.
    - rewrite (IH (S k) p x H). f_equal. f_equal. lia. }
  exact (G l 0 p x H).
Qed.
Lemma pairs_spec l f p q x y : pairs l f = true -> nth_error l p = Some x -> nth_error l q = Some y -> f p x q y = true.
Proof.
  unfold pairs. intros H Hp Hq. rewrite forallb_forall in H. specialize (H _ (in_combine_seq _ _ _ Hp)). rewrite forallb_forall in H. exact (H _ (in_combine_seq _ _ _ Hq)).
Qed.
Definition uses (n t : nat) (a : action) : bool := match a with Use n' => Nat.eqb n n' | Look n' t' => Nat.eqb n n' && Nat.eqb t t' | _ => false end.
Lemma uses_spec (l : log) n t q g : nth_error l q = Some (g, Use n) \/ nth_error l q = Some (g, Look n t) -> exists a, nth_error l q = Some (g, a) /\ uses n t a = true.
Proof. intros [H|H]; eexists; (split; [exact H|]); cbn; rewrite ?Nat.eqb_refl; reflexivity. Qed.
Definition toldb (l : log) : bool :=
  let ps := pasts l in pairs l (fun p x q y => match snd x with New n t => negb (uses n t (snd y)) || hbb ps p q | _ => true end).
Definition lookedb (l : log) : bool :=
  let ps := pasts l in pairs l (fun q x f y => match snd x, snd y with Look n _, Fin n' => negb (Nat.eqb n n') || hbb ps q f | _, _ => true end).
(** Stronger than needed: after a trace is freed nobody uses any earlier trace at its address. *)
Definition usedb (l : log) : bool :=
  pairs l (fun f x p y => match snd x, snd y with
                          | Recycle t, New n t' => negb (Nat.eqb t t' && Nat.ltb p f) || forallb (fun qz => negb (uses n t (snd (snd qz))) || Nat.ltb (fst qz) f) (combine (seq 0 (length l)) l)
                          | _, _ => true
                          end).
Definition racesb (l : log) (p q : nat) : bool :=
  match nth_error l p, nth_error l q with
  | Some (_, a), Some (_, b) => match access a, access b with
                                | Some (c, w), Some (c', w') => (if loc_eq_dec c c' then true else false) && (w || w') && Nat.ltb p q && negb (hbb (pasts l) p q)
                                | _, _ => false
                                end
  | _, _ => false
  end.
Lemma toldb_sound l : toldb l = true -> told l.
Proof.
  intros H n t p q g g' Hp Hq. destruct (uses_spec _ _ _ _ _ Hq) as (a & Ha & U). pose proof (pairs_spec _ _ _ _ _ _ H Hp Ha) as Q. cbn [snd] in Q. rewrite U in Q. apply hbb_spec. exact Q.
Qed.
Lemma lookedb_sound l : lookedb l = true -> looked_first l.
Proof.
  intros H n t q f g g' Hq Hf. pose proof (pairs_spec _ _ _ _ _ _ H Hq Hf) as Q. cbn [snd] in Q. rewrite Nat.eqb_refl in Q. apply hbb_spec. exact Q.
Qed.
Lemma usedb_sound l : usedb l = true -> used_first l.
Proof.
  intros H n t p q f g g' g'' Hp Hf L Hq. pose proof (pairs_spec _ _ _ _ _ _ H Hf Hp) as Q. cbn [snd] in Q. rewrite Nat.eqb_refl in Q. apply Nat.ltb_lt in L. rewrite L in Q. cbn [andb negb orb] in Q.
  rewrite forallb_forall in Q. destruct (uses_spec _ _ _ _ _ Hq) as (a & Ha & U). specialize (Q _ (in_combine_seq _ _ _ Ha)). cbn [fst snd] in Q. rewrite U in Q. apply Nat.ltb_lt. exact Q.
Qed.
Lemma racesb_sound l p q : racesb l p q = true -> ~ race_free l.
Proof.
  unfold racesb. destruct (nth_error l p) as [[g a]|] eqn:Hp; [|discriminate]. destruct (nth_error l q) as [[g' b]|] eqn:Hq; [|discriminate].
  destruct (access a) as [[c w]|] eqn:Ea; [|discriminate]. destruct (access b) as [[c' w']|] eqn:Eb; [|discriminate]. rewrite !Bool.andb_true_iff. intros [[[E W] L] N] R.
  destruct (loc_eq_dec c c') as [<-|]; [|discriminate]. apply Nat.ltb_lt in L. apply Bool.orb_true_iff in W.
  assert (Q : hb l p q) by (apply (R p q L); exists g, a, g', b, c, w, w'; auto). apply hbb_spec in Q. rewrite Q in N. discriminate.
Qed.

(** Who knows what about accesses to traces. *)
From Verif Require Import Go L_List S_Race M_Race L_Race.
From Coq Require Import Lia.
Open Scope list_scope.
Open Scope nat_scope.

Notation key := (nat * string)%type.
(** The trace at address t was created at position c as number n, and its memory has not been given back. *)
Definition alive (l : log) (t c n : nat) : Prop :=
  (exists g, nth_error l c = Some (g, New n t)) /\
  forall q g, c < q -> (forall n', nth_error l q <> Some (g, New n' t)) /\ nth_error l q <> Some (g, Recycle t).
Definition is_look (l : log) (t p : nat) : Prop := exists g n, nth_error l p = Some (g, Look n t).

(** [way j]: the traces that goroutine j has on the way into or out of a category;
    [ring k]: those in a category; [walks j k]: j walks category k, with its lock. *)
Record JT (way : nat -> list nat) (ring : key -> list nat) (pool handles : list nat) (fin : nat -> bool) (walks : nat -> key -> Prop) (l : log) : Prop := {
  t_new1 : forall n t, nth_error handles n = Some t -> exists c g, nth_error l c = Some (g, New n t);
  t_new2 : forall n t c g, nth_error l c = Some (g, New n t) -> nth_error handles n = Some t;
  t_new3 : forall n t t' c c' g g', nth_error l c = Some (g, New n t) -> nth_error l c' = Some (g', New n t') -> c = c';
  t_again : forall n n' t c c' g g', nth_error l c = Some (g, New n t) -> nth_error l c' = Some (g', New n' t) -> c < c' ->
    exists f g'', nth_error l f = Some (g'', Recycle t) /\ c < f < c';
  t_alive : forall t, (exists j, In t (way j)) \/ (exists k, In t (ring k)) -> exists c n, alive l t c n;
  t_pool : forall t p, In t pool -> touched l p (LId t) \/ touched l p (LState t) -> passed l (SPoolT t) p;
  t_pool2 : forall t c n g, In t pool -> nth_error l c = Some (g, New n t) -> exists f g', nth_error l f = Some (g', Recycle t) /\ c < f;
  t_before : forall t c n p, alive l t c n -> touched l p (LId t) \/ touched l p (LState t) -> p < c -> hb l p c;
  t_write : forall t c n p, alive l t c n -> acc l p (LId t) true -> p < c;
  t_state : forall t c n p, alive l t c n -> touched l p (LState t) -> c < p -> passed l (SMtx t) p;
  t_own : forall j t c n, In t (way j) -> alive l t c n -> know l j c /\
    forall p, c < p -> touched l p (LId t) -> know l j p \/ passed l (SMtx t) p \/ is_look l t p;
  t_ring : forall k t c n, In t (ring k) -> alive l t c n -> passed l (SRing k) c /\
    forall p, c < p -> touched l p (LId t) -> passed l (SRing k) p \/ passed l (SMtx t) p \/ is_look l t p \/ exists j, walks j k /\ know l j p;
  t_fin : forall t c n, alive l t c n -> fin t = true -> (exists f g, nth_error l f = Some (g, Fin n)) /\
    forall p, c < p -> is_look l t p -> passed l (SMtx t) p
}.

Definition no_marks (s : list action) : Prop := Forall (fun a => match a with New _ _ | Recycle _ | Look _ _ => False | _ => True end) s.
Lemma no_mark_new l i s p x : no_marks s -> nth_error (l ++ by_ i s) p = Some x ->
  (match snd x with New _ _ | Recycle _ | Look _ _ => True | _ => False end) -> nth_error l p = Some x.
Proof.
  intros N H M. destruct (nth_by_old _ _ _ _ _ H) as [H'|(L & _ & H')]; [exact H'|]. apply nth_error_In in H'. unfold no_marks in N. rewrite Forall_forall in N.
  specialize (N _ H'). destruct (snd x); contradiction.
Qed.
Lemma alive_more l i s t c n : no_marks s -> alive l t c n -> alive (l ++ by_ i s) t c n.
Proof.
  intros N [(g & H) A]. split; [exists g; apply nth_old; exact H|]. intros q g' L. destruct (A q g' L) as [A1 A2]. split.
  - intros n' H'. apply (A1 n'). apply (no_mark_new _ _ _ _ _ N H'). exact Logic.I.
  - intros H'. apply A2. apply (no_mark_new _ _ _ _ _ N H'). exact Logic.I.
Qed.
Lemma alive_less l i s t c n : no_marks s -> alive (l ++ by_ i s) t c n -> alive l t c n.
Proof.
  intros N [(g & H) A]. split; [exists g; apply (no_mark_new _ _ _ _ _ N H); exact Logic.I|]. intros q g' L. destruct (A q g' L) as [A1 A2]. split.
  - intros n' H'. apply (A1 n'). apply nth_old. exact H'.
  - intros H'. apply A2. apply nth_old. exact H'.
Qed.
Lemma alive_bound l t c n : alive l t c n -> c < length l.
Proof. intros [(g & H) _]. apply nth_error_Some. congruence. Qed.
Lemma alive_fun l t c c' n n' : alive l t c n -> alive l t c' n' -> c = c' /\ n = n'.
Proof.
  intros [(g & H) A] [(g' & H') A']. assert (c = c').
  { destruct (Nat.lt_trichotomy c c') as [L|[L|L]]; [|exact L|].
    - destruct (proj1 (A c' g' L) n' H').
    - destruct (proj1 (A' c g L) n H). }
  subst c'. split; [reflexivity|congruence].
Qed.
Lemma touched_mono l s p c : touched l p c -> touched (l ++ s) p c.
Proof. intros (w & H). exists w. apply acc_mono. exact H. Qed.
Lemma touched_by l i s p c : touched (l ++ by_ i s) p c -> touched l p c \/ (length l <= p < length l + length s /\ exists a w, nth_error s (p - length l) = Some a /\ access a = Some (c, w)).
Proof. intros (w & H). apply acc_by in H. destruct H as [H|(L & a & H & A)]; [left; exists w; exact H|right; split; [exact L|exists a, w; auto]]. Qed.
Lemma look_touched l t p : is_look l t p -> touched l p (LId t).
Proof. intros (g & n & H). exists false, g, (Look n t). auto. Qed.
Lemma look_mono l s t p : is_look l t p -> is_look (l ++ s) t p.
Proof. intros (g & n & H). exists g, n. apply nth_old. exact H. Qed.
Lemma look_less l i s t p : no_marks s -> is_look (l ++ by_ i s) t p -> is_look l t p.
Proof. intros N (g & n & H). exists g, n. apply (no_mark_new _ _ _ _ _ N H). exact Logic.I. Qed.

(** A step without creation, recycling and unlocked looks. *)
Lemma JT_step way ring pool handles fin walks way' ring' pool' fin' (walks' : nat -> key -> Prop) (l : log) i s :
  JT way ring pool handles fin walks l -> no_marks s -> incl pool' pool ->
  (forall t p, length l <= p -> touched (l ++ by_ i s) p (LState t) -> ~ In t pool' /\ passed (l ++ by_ i s) (SMtx t) p) ->
  (forall t p w, length l <= p -> acc (l ++ by_ i s) p (LId t) w -> ~ In t pool' /\ w = false /\
     (passed (l ++ by_ i s) (SMtx t) p \/ ((forall k, In t (ring' k) -> walks' i k) /\ forall j, ~ In t (way' j)))) ->
  (forall j t, In t (way' j) -> In t (way j) \/ (j = i /\ exists k, In t (ring k) /\ In (Acq (SRing k)) s /\ forall j, ~ walks j k)) ->
  (forall k t, In t (ring' k) -> In t (ring k) \/ (In t (way i) /\ In (Rel (SRing k)) s)) ->
  (forall j k, walks j k -> walks' j k \/ (j = i /\ In (Rel (SRing k)) s)) ->
  (forall t c n, alive l t c n -> fin' t = true -> fin t = true \/
     (In (Fin n) s /\ forall p, c < p -> is_look l t p -> passed (l ++ by_ i s) (SMtx t) p)) ->
  JT way' ring' pool' handles fin' walks' (l ++ by_ i s).
Proof.
  intros J N IP HS HI HW HR HK HF. set (l' := l ++ by_ i s) in *.
  assert (Old : forall p c, touched l' p c -> touched l p c \/ length l <= p).
  { intros p c H. destruct (touched_by _ _ _ _ _ H) as [H'|(L & _)]; [auto|right; lia]. }
  constructor.
  - intros n t H. destruct (t_new1 _ _ _ _ _ _ _ J n t H) as (c & g & Q). exists c, g. apply nth_old. exact Q.
  - intros n t c g H. apply (t_new2 _ _ _ _ _ _ _ J n t c g). apply (no_mark_new _ _ _ _ _ N H). exact Logic.I.
  - intros n t t' c c' g g' H1 H2. eapply (t_new3 _ _ _ _ _ _ _ J); eapply (no_mark_new _ _ _ _ _ N); try eassumption; exact Logic.I.
  - intros n n' t c c' g g' H1 H2 L. destruct (t_again _ _ _ _ _ _ _ J n n' t c c' g g') as (f & g'' & Q & Lf);
      [eapply (no_mark_new _ _ _ _ _ N); try eassumption; exact Logic.I|eapply (no_mark_new _ _ _ _ _ N); try eassumption; exact Logic.I|exact L|].
    exists f, g''. split; [apply nth_old; exact Q|exact Lf].
  - intros t H. destruct (t_alive _ _ _ _ _ _ _ J t) as (c & n & A).
    + destruct H as [(j & H)|(k & H)].
      * destruct (HW j t H) as [H'|(-> & k & H' & _)]; [left; eauto|right; eauto].
      * destruct (HR k t H) as [H'|(H' & _)]; [right; eauto|left; eauto].
    + exists c, n. apply alive_more; assumption.
  - intros t p Hp H. apply passed_mono. apply (t_pool _ _ _ _ _ _ _ J); [apply IP; exact Hp|].
    destruct H as [H|H]; destruct (Old _ _ H) as [H'|L]; auto; exfalso.
    + destruct H as (w & H). exact (proj1 (HI t p w L H) Hp).
    + exact (proj1 (HS t p L H) Hp).
  - intros t c n g Hp H. destruct (t_pool2 _ _ _ _ _ _ _ J t c n g (IP _ Hp)) as (f & g' & Q & L);
      [apply (no_mark_new _ _ _ _ _ N H); exact Logic.I|]. exists f, g'. split; [apply nth_old; exact Q|exact L].
  - intros t c n p A H L. apply alive_less in A; [|exact N]. pose proof (alive_bound _ _ _ _ A) as B. apply hb_mono. apply (t_before _ _ _ _ _ _ _ J t c n); [exact A| |exact L].
    destruct H as [H|H]; destruct (Old _ _ H) as [H'|L']; auto; lia.
  - intros t c n p A H. apply alive_less in A; [|exact N]. destruct (acc_by _ _ _ _ _ _ H) as [H'|(L & _)]; [exact (t_write _ _ _ _ _ _ _ J t c n p A H')|].
    destruct (HI t p true (proj1 L) H) as (_ & Q & _). discriminate.
  - intros t c n p A H L. apply alive_less in A; [|exact N]. destruct (Old _ _ H) as [H'|L']; [apply passed_mono; exact (t_state _ _ _ _ _ _ _ J t c n p A H' L)|].
    exact (proj2 (HS t p L' H)).
  - intros j t c n Hj A. apply alive_less in A; [|exact N]. destruct (HW j t Hj) as [Hj'|(-> & k & Hk & Ha & Hw)].
    + destruct (t_own _ _ _ _ _ _ _ J j t c n Hj' A) as [K1 K2]. split; [apply know_mono; exact K1|]. intros p L H. destruct (Old _ _ H) as [H'|L'].
      * destruct (K2 p L H') as [Q|[Q|Q]]; [left; apply know_mono; exact Q|right; left; apply passed_mono; exact Q|right; right; apply look_mono; exact Q].
      * destruct H as (w & H). destruct (HI t p w L' H) as (_ & _ & [Q|[_ Q]]); [auto|destruct (Q j Hj)].
    + destruct (t_ring _ _ _ _ _ _ _ J k t c n Hk A) as [K1 K2]. split; [apply (know_seg_acq l i s (SRing k)); assumption|]. intros p L H. destruct (Old _ _ H) as [H'|L'].
      * destruct (K2 p L H') as [Q|[Q|[Q|(j & Q & _)]]]; [left; apply (know_seg_acq l i s (SRing k)); assumption|right; left; apply passed_mono; exact Q|right; right; apply look_mono; exact Q|].
        destruct (Hw j Q).
      * destruct H as (w & H). destruct (HI t p w L' H) as (_ & _ & [Q|[_ Q]]); [auto|destruct (Q i Hj)].
  - intros k t c n Hk A. apply alive_less in A; [|exact N]. destruct (HR k t Hk) as [Hk'|(Hi & Hr)].
    + destruct (t_ring _ _ _ _ _ _ _ J k t c n Hk' A) as [K1 K2]. split; [apply passed_mono; exact K1|]. intros p L H. destruct (Old _ _ H) as [H'|L'].
      * destruct (K2 p L H') as [Q|[Q|[Q|(j & Q & Q2)]]]; [left; apply passed_mono; exact Q|right; left; apply passed_mono; exact Q|right; right; left; apply look_mono; exact Q|].
        destruct (HK j k Q) as [Q'|(-> & Q')]; [right; right; right; exists j; split; [exact Q'|apply know_mono; exact Q2]|]. left. apply pass_seg; assumption.
      * pose proof H as (w & H'). destruct (HI t p w L' H') as (_ & _ & [Q|[Q _]]); [auto|]. right. right. right. exists i. split; [apply Q; exact Hk|].
        apply know_seg. destruct H as (w' & H). apply acc_bound in H. unfold l' in H. rewrite app_length, by_len in H. lia.
    + destruct (t_own _ _ _ _ _ _ _ J i t c n Hi A) as [K1 K2]. split; [apply pass_seg; assumption|]. intros p L H. destruct (Old _ _ H) as [H'|L'].
      * destruct (K2 p L H') as [Q|[Q|Q]]; [left; apply pass_seg; assumption|right; left; apply passed_mono; exact Q|right; right; left; apply look_mono; exact Q].
      * pose proof H as (w & H'). destruct (HI t p w L' H') as (_ & _ & [Q|[Q _]]); [auto|]. right. right. right. exists i. split; [apply Q; exact Hk|].
        apply know_seg. destruct H as (w' & H). apply acc_bound in H. unfold l' in H. rewrite app_length, by_len in H. lia.
  - intros t c n A F. apply alive_less in A; [|exact N]. destruct (HF t c n A F) as [F'|(F1 & F2)].
    + destruct (t_fin _ _ _ _ _ _ _ J t c n A F') as [(f & g & Q) K]. split; [exists f, g; apply nth_old; exact Q|].
      intros p L H. apply passed_mono. apply K; [exact L|]. apply (look_less _ _ _ _ _ N H).
    + split; [|intros p L H; apply F2; [exact L|apply (look_less _ _ _ _ _ N H)]].
      apply In_nth_error in F1. destruct F1 as (d & F1). exists (length l + d), i. unfold l'. rewrite nth_by by lia. replace (length l + d - length l) with d by lia. rewrite F1. reflexivity.
Qed.

(** A trace is created by goroutine i at t, which comes from the pool or is new. *)
Lemma JT_new way ring pool handles fin walks way' pool' fin' l i s0 t :
  JT way ring pool handles fin walks l ->
  s0 = [Wr (LId t); Wr (LState t); New (length handles) t] \/ s0 = Acq (SPoolT t) :: [Wr (LId t); Wr (LState t); New (length handles) t] ->
  (In t pool /\ In (Acq (SPoolT t)) s0 \/ (~ In t handles /\ forall p, ~ touched l p (LId t) /\ ~ touched l p (LState t))) ->
  (forall k, ~ In t (ring k)) -> (forall j, ~ In t (way j)) -> incl pool' pool -> ~ In t pool' ->
  (forall j t', In t' (way' j) -> In t' (way j) \/ (j = i /\ t' = t)) ->
  fin' t = false -> (forall t', t' <> t -> fin' t' = fin t') ->
  JT way' ring pool' (handles ++ [t]) fin' walks (l ++ by_ i s0).
Proof.
  intros J Es Ht NR NW IP NP HW Ft Fo.
  set (s1 := match s0 with Acq _ :: _ => [Acq (SPoolT t)] | _ => [] end).
  assert (Es' : s0 = (s1 ++ [Wr (LId t); Wr (LState t)]) ++ [New (length handles) t]) by (destruct Es as [->| ->]; reflexivity).
  set (d := length (s1 ++ [Wr (LId t); Wr (LState t)])) in *.
  assert (Ln : length s0 = S d) by (rewrite Es', app_length; cbn [length]; fold d; lia).
  set (cn := length l + d). set (l' := l ++ by_ i s0).
  assert (Hcn : nth_error l' cn = Some (i, New (length handles) t)).
  { unfold l', cn. rewrite nth_by by lia. replace (length l + d - length l) with d by lia. rewrite Es', nth_error_app2, Nat.sub_diag by (unfold d; lia). reflexivity. }
  assert (Only : forall p x, nth_error l' p = Some x -> (match snd x with New _ _ | Recycle _ | Look _ _ | Fin _ => True | _ => False end) -> nth_error l p = Some x \/ (p = cn /\ x = (i, New (length handles) t))).
  { intros p x H M. destruct (nth_by_old _ _ _ _ _ H) as [H'|(L & E & H')]; [auto|]. right.
    assert (B : p - length l < S d) by (rewrite <- Ln; apply nth_error_Some; congruence).
    destruct (Nat.eq_dec (p - length l) d) as [Q|Q].
    - assert (p = cn) by (unfold cn; lia). subst p. split; [reflexivity|]. rewrite Hcn in H. congruence.
    - exfalso. rewrite Es', nth_error_app1 in H' by (fold d; lia). apply nth_error_In in H'. clear - H' M. unfold s1 in H'. destruct x as [j a]. cbn [snd] in *.
      destruct s0 as [|[] ?]; cbn in H'; repeat (destruct H' as [<-|H']; [exact M|]); exact H'. }
  assert (Tch : forall p c, touched l' p c -> touched l p c \/ (length l <= p < cn /\ (c = LId t \/ c = LState t))).
  { intros p c H. destruct (touched_by _ _ _ _ _ H) as [H'|(L & a & w & H' & Ha)]; [auto|]. right.
    assert (B : p - length l < S d) by (rewrite <- Ln; apply nth_error_Some; congruence).
    destruct (Nat.eq_dec (p - length l) d) as [Q|Q].
    - exfalso. rewrite Q, Es', nth_error_app2, Nat.sub_diag in H' by (unfold d; lia). injection H' as <-. discriminate.
    - split; [unfold cn; lia|]. rewrite Es', nth_error_app1 in H' by (fold d; lia). apply nth_error_In in H'. clear - H' Ha. unfold s1 in H'.
      destruct s0 as [|[] ?]; cbn in H'; repeat (destruct H' as [<-|H']; [cbn in Ha; try discriminate; injection Ha as <- _; auto|]); destruct H'. }
  assert (Bn : forall n t' c g, nth_error l c = Some (g, New n t') -> n < length handles).
  { intros n t' c g H. apply nth_error_Some. rewrite (t_new2 _ _ _ _ _ _ _ J _ _ _ _ H). discriminate. }
  assert (Alive : forall t' c n, alive l' t' c n -> (t' = t /\ c = cn /\ n = length handles) \/ (t' <> t /\ alive l t' c n)).
  { intros t' c n [(g & H) A]. destruct (Nat.eq_dec t' t) as [->|Ne].
    - left. destruct (Only _ _ H Logic.I) as [H'|[-> H']]; [|injection H' as _ <-; auto].
      assert (Q : c < cn) by (assert (c < length l) by (apply nth_error_Some; congruence); unfold cn; lia). destruct (proj1 (A cn i Q) _ Hcn).
    - right. split; [exact Ne|]. split.
      + exists g. destruct (Only _ _ H Logic.I) as [H'|[-> H']]; [exact H'|congruence].
      + intros q g' L. destruct (A q g' L) as [A1 A2]. split; [intros n' Q; apply (A1 n')|intros Q; apply A2]; apply nth_old; exact Q. }
  assert (Alive2 : forall t' c n, t' <> t -> alive l t' c n -> alive l' t' c n).
  { intros t' c n Ne [(g & H) A]. split; [exists g; apply nth_old; exact H|]. intros q g' L. destruct (A q g' L) as [A1 A2]. split.
    - intros n' Q. destruct (Only _ _ Q Logic.I) as [Q'|[_ Q']]; [exact (A1 _ Q')|congruence].
    - intros Q. destruct (Only _ _ Q Logic.I) as [Q'|[_ Q']]; [exact (A2 Q')|congruence]. }
  assert (Live : alive l' t cn (length handles)).
  { split; [exists i; exact Hcn|]. intros q g L. split.
    - intros n' Q. destruct (Only _ _ Q Logic.I) as [Q'|[-> _]]; [|lia]. assert (q < length l) by (apply nth_error_Some; congruence). unfold cn in L. lia.
    - intros Q. destruct (Only _ _ Q Logic.I) as [Q'|[-> _]]; [|lia]. assert (q < length l) by (apply nth_error_Some; congruence). unfold cn in L. lia. }
  assert (Known : forall p, touched l' p (LId t) \/ touched l' p (LState t) -> p < cn -> hb l' p cn).
  { intros p H L. assert (El : l' = (l ++ by_ i (s1 ++ [Wr (LId t); Wr (LState t)])) ++ [(i, New (length handles) t)]).
    { unfold l'. rewrite Es', by_app, app_assoc. reflexivity. }
    assert (Ec : cn = length (l ++ by_ i (s1 ++ [Wr (LId t); Wr (LState t)]))) by (rewrite app_length, by_len; reflexivity).
    rewrite El, Ec. apply know_hb_next. destruct (Nat.lt_ge_cases p (length l)) as [Q|Q]; [|apply know_seg; fold d; unfold cn in L; lia].
    assert (H' : touched l p (LId t) \/ touched l p (LState t)) by (destruct H as [H|H]; destruct (Tch _ _ H) as [H'|(H' & _)]; auto; lia).
    destruct Ht as [[Ht1 Ht2]|[_ Ht]].
    - apply (know_seg_acq l i _ (SPoolT t)); [|exact (t_pool _ _ _ _ _ _ _ J t p Ht1 H')]. rewrite Es' in Ht2. apply in_app_or in Ht2. destruct Ht2 as [Q2|[Q2|[]]]; [exact Q2|discriminate].
    - destruct (Ht p) as [T1 T2]. destruct H' as [H'|H']; [destruct (T1 H')|destruct (T2 H')]. }
  constructor.
  - intros n t' H. destruct (Nat.lt_ge_cases n (length handles)) as [L|L].
    + rewrite nth_error_app1 in H by exact L. destruct (t_new1 _ _ _ _ _ _ _ J n t' H) as (c & g & Q). exists c, g. apply nth_old. exact Q.
    + rewrite nth_error_app2 in H by exact L. destruct (n - length handles) as [|x] eqn:E; [|destruct x; discriminate]. cbn in H. injection H as ->. assert (n = length handles) by lia. subst n. eauto.
  - intros n t' c g H. destruct (Only _ _ H Logic.I) as [H'|[_ H']].
    + apply nth_old. exact (t_new2 _ _ _ _ _ _ _ J _ _ _ _ H').
    + injection H' as _ -> ->. rewrite nth_error_app2, Nat.sub_diag by lia. reflexivity.
  - intros n t1 t2 c c' g g' H1 H2. destruct (Only _ _ H1 Logic.I) as [H1'|[-> H1']], (Only _ _ H2 Logic.I) as [H2'|[-> H2']].
    + exact (t_new3 _ _ _ _ _ _ _ J _ _ _ _ _ _ _ H1' H2').
    + injection H2' as _ -> _. apply Bn in H1'. lia.
    + injection H1' as _ -> _. apply Bn in H2'. lia.
    + reflexivity.
  - intros n n' t' c c' g g' H1 H2 L. destruct (Only _ _ H1 Logic.I) as [H1'|[-> H1']], (Only _ _ H2 Logic.I) as [H2'|[-> H2']].
    + destruct (t_again _ _ _ _ _ _ _ J _ _ _ _ _ _ _ H1' H2' L) as (f & g'' & Q & Lf). exists f, g''. split; [apply nth_old; exact Q|exact Lf].
    + injection H2' as _ -> ->. destruct Ht as [[Ht _]|[Ht _]].
      * destruct (t_pool2 _ _ _ _ _ _ _ J t c n g Ht H1') as (f & g'' & Q & Lf). exists f, g''. split; [apply nth_old; exact Q|]. split; [exact Lf|].
        assert (f < length l) by (apply nth_error_Some; congruence). unfold cn. lia.
      * destruct Ht. apply (nth_error_In _ n). exact (t_new2 _ _ _ _ _ _ _ J _ _ _ _ H1').
    + assert (c' < length l) by (apply nth_error_Some; congruence). unfold cn in L. lia.
    + lia.
  - intros t' H. destruct (Nat.eq_dec t' t) as [->|Ne]; [eauto|]. destruct (t_alive _ _ _ _ _ _ _ J t') as (c & n & A).
    + destruct H as [(j & H)|H]; [|right; exact H]. destruct (HW j t' H) as [H'|[_ H']]; [left; eauto|congruence].
    + exists c, n. auto.
  - intros t' p Hp H. assert (Ne : t' <> t) by (intros ->; exact (NP Hp)). apply passed_mono. apply (t_pool _ _ _ _ _ _ _ J t' p (IP _ Hp)).
    destruct H as [H|H]; destruct (Tch _ _ H) as [H'|(_ & H')]; auto; destruct H'; congruence.
  - intros t' c n g Hp H. assert (Ne : t' <> t) by (intros ->; exact (NP Hp)). destruct (Only _ _ H Logic.I) as [H'|[_ H']]; [|congruence].
    destruct (t_pool2 _ _ _ _ _ _ _ J t' c n g (IP _ Hp) H') as (f & g' & Q & L). exists f, g'. split; [apply nth_old; exact Q|exact L].
  - intros t' c n p A H L. destruct (Alive _ _ _ A) as [(-> & -> & _)|(Ne & A')]; [apply Known; assumption|].
    apply hb_mono. apply (t_before _ _ _ _ _ _ _ J t' c n p A'); [|exact L]. destruct H as [H|H]; destruct (Tch _ _ H) as [H'|(_ & H')]; auto; destruct H'; congruence.
  - intros t' c n p A H. destruct (Alive _ _ _ A) as [(-> & -> & _)|(Ne & A')].
    + destruct (Tch p (LId t)) as [H'|(H' & _)]; [exists true; exact H| |lia]. destruct H' as (w & H'). apply acc_bound in H'. unfold cn. lia.
    + apply (t_write _ _ _ _ _ _ _ J t' c n p A'). destruct (acc_by _ _ _ _ _ _ H) as [H'|(L & _)]; [exact H'|].
      destruct (Tch p (LId t')) as [(w & H')|(_ & H')]; [exists true; exact H|apply acc_bound in H'; lia|destruct H'; congruence].
  - intros t' c n p A H L. destruct (Alive _ _ _ A) as [(-> & -> & _)|(Ne & A')].
    + destruct (Tch _ _ H) as [(w & H')|(H' & _)]; [apply acc_bound in H'; unfold cn in L; lia|lia].
    + apply passed_mono. destruct (Tch _ _ H) as [H'|(_ & H')]; [exact (t_state _ _ _ _ _ _ _ J t' c n p A' H' L)|destruct H'; congruence].
  - intros j t' c n Hj A. destruct (Alive _ _ _ A) as [(-> & -> & _)|(Ne & A')].
    + destruct (HW j t Hj) as [Q|[-> _]]; [destruct (NW j Q)|]. split; [apply know_seg; rewrite Ln; unfold cn; lia|]. intros p L H.
      destruct (Tch _ _ H) as [(w & H')|(H' & _)]; [apply acc_bound in H'; unfold cn in L; lia|lia].
    + destruct (HW j t' Hj) as [Q|[_ Q]]; [|congruence]. destruct (t_own _ _ _ _ _ _ _ J j t' c n Q A') as [K1 K2]. split; [apply know_mono; exact K1|]. intros p L H.
      destruct (Tch _ _ H) as [H'|(_ & H')]; [|destruct H'; congruence].
      destruct (K2 p L H') as [K|[K|K]]; [left; apply know_mono; exact K|right; left; apply passed_mono; exact K|right; right; apply look_mono; exact K].
  - intros k t' c n Hk A. destruct (Alive _ _ _ A) as [(-> & -> & _)|(Ne & A')]; [destruct (NR k Hk)|].
    destruct (t_ring _ _ _ _ _ _ _ J k t' c n Hk A') as [K1 K2]. split; [apply passed_mono; exact K1|]. intros p L H.
    destruct (Tch _ _ H) as [H'|(_ & H')]; [|destruct H'; congruence].
    destruct (K2 p L H') as [K|[K|[K|(j & K & K')]]]; [left; apply passed_mono; exact K|right; left; apply passed_mono; exact K|right; right; left; apply look_mono; exact K|].
    right. right. right. exists j. split; [exact K|apply know_mono; exact K'].
  - intros t' c n A F. destruct (Alive _ _ _ A) as [(-> & _ & _)|(Ne & A')]; [congruence|]. rewrite (Fo _ Ne) in F. destruct (t_fin _ _ _ _ _ _ _ J t' c n A' F) as [(f & g & Q) K].
    split; [exists f, g; apply nth_old; exact Q|]. intros p L (g' & n' & H). apply passed_mono. apply K; [exact L|]. destruct (Only _ _ H Logic.I) as [H'|[_ H']]; [exists g', n'; exact H'|discriminate].
Qed.

(** Who uses a trace in an orderly way uses one that is alive. *)
Lemma use_alive way ring pool handles fin walks l i n t a :
  JT way ring pool handles fin walks l -> orderly (l ++ [(i, a)]) -> a = Use n \/ a = Look n t -> nth_error handles n = Some t ->
  exists c, alive l t c n /\ know l i c /\ ~ In t pool.
Proof.
  intros J O Ha Hn. destruct (t_new1 _ _ _ _ _ _ _ J n t Hn) as (c & g & Hc). exists c.
  assert (Lc : c < length l) by (apply nth_error_Some; congruence).
  assert (Hq : nth_error (l ++ [(i, a)]) (length l) = Some (i, Use n) \/ nth_error (l ++ [(i, a)]) (length l) = Some (i, Look n t)).
  { rewrite nth_last. destruct Ha as [->| ->]; auto. }
  assert (NR : forall f g', nth_error l f = Some (g', Recycle t) -> c < f -> False).
  { intros f g' Hf L. pose proof (o_freed _ O n t c (length l) f g g' i (nth_old _ _ _ _ Hc) (nth_old _ _ _ _ Hf) L Hq) as Q.
    assert (f < length l) by (apply nth_error_Some; congruence). lia. }
  split; [|split].
  - split; [exists g; exact Hc|]. intros q g' L. split.
    + intros n' H. destruct (t_again _ _ _ _ _ _ _ J _ _ _ _ _ _ _ Hc H L) as (f & g'' & Hf & Lf). exact (NR f g'' Hf (proj1 Lf)).
    + intros H. exact (NR q g' H L).
  - pose proof (o_known _ O n t c (length l) g i (nth_old _ _ _ _ Hc) Hq) as Q. apply (hb_next_know _ _ _ _ Q). intros x ->. destruct Ha; discriminate.
  - intros Q. destruct (t_pool2 _ _ _ _ _ _ _ J t c n g Q Hc) as (f & g' & Hf & L). exact (NR f g' Hf L).
Qed.

Lemma JT_look way ring pool handles fin walks way' (walks' : nat -> key -> Prop) (l : log) i n t :
  JT way ring pool handles fin walks l -> orderly (l ++ by_ i [Look n t]) -> nth_error handles n = Some t ->
  (forall j t, In t (way' j) -> In t (way j)) -> (forall j k, walks j k -> walks' j k) ->
  JT way' ring pool handles fin walks' (l ++ by_ i [Look n t]).
Proof.
  intros J O Hn HW HK. destruct (use_alive _ _ _ _ _ _ _ _ _ _ _ J O (or_intror eq_refl) Hn) as (c & A & K & NP).
  cbn [by_ map] in *. set (l' := l ++ [(i, Look n t)]) in *.
  assert (Only : forall p x, nth_error l' p = Some x -> nth_error l p = Some x \/ (p = length l /\ x = (i, Look n t))).
  { intros p x H. destruct (nth_by_old l i [Look n t] p x H) as [H'|(L & E & H')]; [auto|]. right. destruct (p - length l) as [|y] eqn:Ep; [|destruct y; discriminate].
    cbn in H'. injection H' as H'. destruct x as [j a]. cbn in *. subst. split; [lia|reflexivity]. }
  assert (Tch : forall p x, touched l' p x -> touched l p x \/ (p = length l /\ x = LId t)).
  { intros p x (w & j & a & H & Ha). destruct (Only _ _ H) as [H'|[-> H']]; [left; exists w, j, a; auto|]. right. injection H' as -> ->. cbn in Ha. injection Ha as <- _. auto. }
  assert (Al : forall t' c' n', alive l' t' c' n' -> alive l t' c' n').
  { intros t' c' n' [(g & H) B]. split; [destruct (Only _ _ H) as [H'|[_ H']]; [eauto|discriminate]|]. intros q g' L. destruct (B q g' L) as [B1 B2].
    split; [intros m Q; apply (B1 m)|intros Q; apply B2]; apply nth_old; exact Q. }
  assert (Al2 : forall t' c' n', alive l t' c' n' -> alive l' t' c' n').
  { intros t' c' n' [(g & H) B]. split; [exists g; apply nth_old; exact H|]. intros q g' L. destruct (B q g' L) as [B1 B2]. split.
    - intros m Q. destruct (Only _ _ Q) as [Q'|[_ Q']]; [exact (B1 _ Q')|discriminate].
    - intros Q. destruct (Only _ _ Q) as [Q'|[_ Q']]; [exact (B2 Q')|discriminate]. }
  assert (NF : fin t = false).
  { destruct (fin t) eqn:F; [|reflexivity]. destruct (t_fin _ _ _ _ _ _ _ J t c n A F) as [(f & g & Hf) _].
    pose proof (o_look _ O n t (length l) f i g (nth_last _ _) (nth_old _ _ _ _ Hf)) as Q. apply hb_lt in Q. assert (f < length l) by (apply nth_error_Some; congruence). lia. }
  assert (Lk : is_look l' t (length l)) by (exists i, n; apply nth_last).
  constructor.
  - intros n' t' H. destruct (t_new1 _ _ _ _ _ _ _ J n' t' H) as (c' & g & Q). exists c', g. apply nth_old. exact Q.
  - intros n' t' c' g H. destruct (Only _ _ H) as [H'|[_ H']]; [exact (t_new2 _ _ _ _ _ _ _ J _ _ _ _ H')|discriminate].
  - intros n' t1 t2 c1 c2 g g' H1 H2. destruct (Only _ _ H1) as [H1'|[_ H1']]; [|discriminate]. destruct (Only _ _ H2) as [H2'|[_ H2']]; [|discriminate].
    exact (t_new3 _ _ _ _ _ _ _ J _ _ _ _ _ _ _ H1' H2').
  - intros n1 n2 t' c1 c2 g g' H1 H2 L. destruct (Only _ _ H1) as [H1'|[_ H1']]; [|discriminate]. destruct (Only _ _ H2) as [H2'|[_ H2']]; [|discriminate].
    destruct (t_again _ _ _ _ _ _ _ J _ _ _ _ _ _ _ H1' H2' L) as (f & g'' & Q & Lf). exists f, g''. split; [apply nth_old; exact Q|exact Lf].
  - intros t' H. destruct (t_alive _ _ _ _ _ _ _ J t') as (c' & n' & B); [destruct H as [(j & H)|H]; [left; exists j; apply HW; exact H|right; exact H]|]. eauto.
  - intros t' p Hp H. apply passed_mono. apply (t_pool _ _ _ _ _ _ _ J t' p Hp). destruct H as [H|H]; destruct (Tch _ _ H) as [H'|[_ H']]; auto; [|discriminate].
    injection H' as ->. destruct (NP Hp).
  - intros t' c' n' g Hp H. destruct (Only _ _ H) as [H'|[_ H']]; [|discriminate]. destruct (t_pool2 _ _ _ _ _ _ _ J t' c' n' g Hp H') as (f & g' & Q & L).
    exists f, g'. split; [apply nth_old; exact Q|exact L].
  - intros t' c' n' p B H L. apply Al in B. pose proof (alive_bound _ _ _ _ B) as Bd. apply hb_mono. apply (t_before _ _ _ _ _ _ _ J t' c' n' p B); [|exact L].
    destruct H as [H|H]; destruct (Tch _ _ H) as [H'|[H' _]]; auto; lia.
  - intros t' c' n' p B H. apply Al in B. destruct H as (j & a & H & Ha). destruct (Only _ _ H) as [H'|[_ H']]; [|injection H' as -> ->; discriminate].
    apply (t_write _ _ _ _ _ _ _ J t' c' n' p B). exists j, a. auto.
  - intros t' c' n' p B H L. apply Al in B. destruct (Tch _ _ H) as [H'|[_ H']]; [|discriminate]. apply passed_mono. exact (t_state _ _ _ _ _ _ _ J t' c' n' p B H' L).
  - intros j t' c' n' Hj B. apply Al in B. destruct (t_own _ _ _ _ _ _ _ J j t' c' n' (HW _ _ Hj) B) as [K1 K2]. split; [apply know_mono; exact K1|]. intros p L H.
    destruct (Tch _ _ H) as [H'|[-> H']]; [|injection H' as ->; auto].
    destruct (K2 p L H') as [Q|[Q|Q]]; [left; apply know_mono; exact Q|right; left; apply passed_mono; exact Q|right; right; apply look_mono; exact Q].
  - intros k t' c' n' Hk B. apply Al in B. destruct (t_ring _ _ _ _ _ _ _ J k t' c' n' Hk B) as [K1 K2]. split; [apply passed_mono; exact K1|]. intros p L H.
    destruct (Tch _ _ H) as [H'|[-> H']]; [|injection H' as ->; auto].
    destruct (K2 p L H') as [Q|[Q|[Q|(j & Q & Q')]]]; [left; apply passed_mono; exact Q|right; left; apply passed_mono; exact Q|right; right; left; apply look_mono; exact Q|].
    right. right. right. exists j. split; [apply HK; exact Q|apply know_mono; exact Q'].
  - intros t' c' n' B F. apply Al in B. destruct (t_fin _ _ _ _ _ _ _ J t' c' n' B F) as [(f & g & Q) K']. split; [exists f, g; apply nth_old; exact Q|].
    intros p L (g' & m & H). apply passed_mono. apply K'; [exact L|]. destruct (Only _ _ H) as [H'|[_ H']]; [exists g', m; exact H'|]. injection H' as _ _ ->. congruence.
Qed.

(** A finished trace is freed by goroutine i. *)
Lemma JT_free way ring pool handles fin walks way' l i s1 t :
  let s := s1 ++ [Recycle t; Rel (SPoolT t); Rel (SMtx t)] in
  JT way ring pool handles fin walks l -> no_marks s1 -> In (Acq (SMtx t)) s1 ->
  (forall a, In a s1 -> forall t' w, access a <> Some (LId t', w)) -> (forall a, In a s1 -> forall t' w, access a = Some (LState t', w) -> t' = t) ->
  In t (way i) -> fin t = true -> (forall k, ~ In t (ring k)) -> (forall j, ~ In t (way' j)) -> (forall j t', In t' (way' j) -> In t' (way j)) ->
  JT way' ring (t :: pool) handles fin walks (l ++ by_ i s).
Proof.
  intros s J N HA HI HS Ht Ft NR NW HW. set (l' := l ++ by_ i s).
  set (d := length s1). set (f0 := length l + d).
  assert (Hf0 : nth_error l' f0 = Some (i, Recycle t)).
  { unfold l', f0. rewrite nth_by by lia. replace (length l + d - length l) with d by lia. unfold s, d. rewrite nth_error_app2, Nat.sub_diag by lia. reflexivity. }
  assert (Only : forall p x, nth_error l' p = Some x -> (match snd x with New _ _ | Recycle _ | Look _ _ => True | _ => False end) -> nth_error l p = Some x \/ (p = f0 /\ x = (i, Recycle t))).
  { intros p x H M. destruct (nth_by_old _ _ _ _ _ H) as [H'|(L & E & H')]; [auto|]. right. destruct x as [j a]. cbn [snd fst] in *. subst j.
    destruct (Nat.lt_ge_cases (p - length l) d) as [Q|Q].
    - unfold s in H'. rewrite nth_error_app1 in H' by exact Q. apply nth_error_In in H'. unfold no_marks in N. rewrite Forall_forall in N. specialize (N _ H'). destruct a; contradiction.
    - unfold s in H'. rewrite nth_error_app2 in H' by exact Q. fold d in H'. destruct (p - length l - d) as [|[|[|y]]] eqn:Ep; cbn in H'.
      + injection H' as <-. split; [unfold f0; lia|reflexivity].
      + injection H' as <-. destruct M.
      + injection H' as <-. destruct M.
      + destruct y; discriminate. }
  assert (Tch : forall p c, touched l' p c -> touched l p c \/ (length l <= p < f0 /\ exists a w, In a s1 /\ access a = Some (c, w))).
  { intros p c H. destruct (touched_by _ _ _ _ _ H) as [H'|(L & a & w & H' & Ha)]; [auto|]. right. unfold s in H'.
    destruct (Nat.lt_ge_cases (p - length l) d) as [Q|Q].
    - rewrite nth_error_app1 in H' by exact Q. split; [unfold f0; lia|]. exists a, w. split; [exact (nth_error_In _ _ H')|exact Ha].
    - exfalso. rewrite nth_error_app2 in H' by exact Q. fold d in H'. destruct (p - length l - d) as [|[|[|y]]]; cbn in H'; try (injection H' as <-; discriminate). destruct y; discriminate. }
  assert (Al : forall t' c' n', alive l' t' c' n' -> t' <> t /\ alive l t' c' n').
  { intros t' c' n' [(g & H) B]. destruct (Only _ _ H Logic.I) as [H'|[_ H']]; [|discriminate]. assert (L : c' < f0) by (assert (c' < length l) by (apply nth_error_Some; congruence); unfold f0; lia).
    split; [intros ->; destruct (proj2 (B f0 i L) Hf0)|]. split; [eauto|]. intros q g' Lq. destruct (B q g' Lq) as [B1 B2].
    split; [intros m Q; apply (B1 m)|intros Q; apply B2]; apply nth_old; exact Q. }
  assert (Al2 : forall t' c' n', t' <> t -> alive l t' c' n' -> alive l' t' c' n').
  { intros t' c' n' Ne [(g & H) B]. split; [exists g; apply nth_old; exact H|]. intros q g' L. destruct (B q g' L) as [B1 B2]. split.
    - intros m Q. destruct (Only _ _ Q Logic.I) as [Q'|[_ Q']]; [exact (B1 _ Q')|discriminate].
    - intros Q. destruct (Only _ _ Q Logic.I) as [Q'|[_ Q']]; [exact (B2 Q')|congruence]. }
  assert (TchI : forall p t', touched l' p (LId t') -> touched l p (LId t')).
  { intros p t' H. destruct (Tch _ _ H) as [H'|(_ & a & w & Ha & Hw)]; [exact H'|]. destruct (HI a Ha t' w Hw). }
  assert (TchS : forall p t', t' <> t -> touched l' p (LState t') -> touched l p (LState t')).
  { intros p t' Ne H. destruct (Tch _ _ H) as [H'|(_ & a & w & Ha & Hw)]; [exact H'|]. destruct (Ne (HS a Ha t' w Hw)). }
  constructor.
  - intros n' t' H. destruct (t_new1 _ _ _ _ _ _ _ J n' t' H) as (c' & g & Q). exists c', g. apply nth_old. exact Q.
  - intros n' t' c' g H. destruct (Only _ _ H Logic.I) as [H'|[_ H']]; [exact (t_new2 _ _ _ _ _ _ _ J _ _ _ _ H')|discriminate].
  - intros n' t1 t2 c1 c2 g g' H1 H2. destruct (Only _ _ H1 Logic.I) as [H1'|[_ H1']]; [|discriminate]. destruct (Only _ _ H2 Logic.I) as [H2'|[_ H2']]; [|discriminate].
    exact (t_new3 _ _ _ _ _ _ _ J _ _ _ _ _ _ _ H1' H2').
  - intros n1 n2 t' c1 c2 g g' H1 H2 L. destruct (Only _ _ H1 Logic.I) as [H1'|[_ H1']]; [|discriminate]. destruct (Only _ _ H2 Logic.I) as [H2'|[_ H2']]; [|discriminate].
    destruct (t_again _ _ _ _ _ _ _ J _ _ _ _ _ _ _ H1' H2' L) as (f & g'' & Q & Lf). exists f, g''. split; [apply nth_old; exact Q|exact Lf].
  - intros t' H. assert (Ne : t' <> t) by (intros ->; destruct H as [(j & H)|(k & H)]; [exact (NW j H)|exact (NR k H)]).
    destruct (t_alive _ _ _ _ _ _ _ J t') as (c' & n' & B); [destruct H as [(j & H)|H]; [left; exists j; apply HW; exact H|right; exact H]|]. eauto.
  - intros t' p Hp H. destruct (Nat.eq_dec t' t) as [->|Ne].
    + destruct (t_alive _ _ _ _ _ _ _ J t) as (c & n & A); [left; eauto|]. destruct (t_own _ _ _ _ _ _ _ J i t c n Ht A) as [K1 K2].
      unfold l'. replace s with ((s1 ++ [Recycle t]) ++ Rel (SPoolT t) :: [Rel (SMtx t)]) by (unfold s; rewrite <- app_assoc; reflexivity). apply pass_split.
      assert (HA' : In (Acq (SMtx t)) (s1 ++ [Recycle t])) by (apply in_or_app; auto).
      assert (Old : touched l p (LId t) \/ touched l p (LState t) -> know (l ++ by_ i (s1 ++ [Recycle t])) i p).
      { intros H'. destruct (Nat.lt_trichotomy p c) as [L|[->|L]].
        - apply know_mono. apply (know_down _ _ _ c K1). exact (t_before _ _ _ _ _ _ _ J t c n p A H' L).
        - exfalso. destruct A as [(g & Hg) _]. destruct H' as [(w & j & a & H1 & H2)|(w & j & a & H1 & H2)]; rewrite Hg in H1; injection H1 as <- <-; discriminate.
        - destruct H' as [H'|H'].
          + destruct (K2 p L H') as [Q|[Q|Q]]; [apply know_mono; exact Q| |]; apply (know_seg_acq l i _ (SMtx t) _ HA'); [exact Q|].
            apply (proj2 (t_fin _ _ _ _ _ _ _ J t c n A Ft)); assumption.
          + apply (know_seg_acq l i _ (SMtx t) _ HA'). exact (t_state _ _ _ _ _ _ _ J t c n p A H' L). }
      assert (New : length l <= p < f0 -> know (l ++ by_ i (s1 ++ [Recycle t])) i p) by (intros L; apply know_seg; rewrite app_length; fold d; unfold f0 in L; cbn [length]; lia).
      destruct H as [H|H]; destruct (Tch _ _ H) as [H'|(L & _)]; auto.
    + destruct Hp as [<-|Hp]; [congruence|]. apply passed_mono. apply (t_pool _ _ _ _ _ _ _ J t' p Hp). destruct H as [H|H]; [left; apply TchI; exact H|right; apply TchS; assumption].
  - intros t' c' n' g Hp H. destruct (Only _ _ H Logic.I) as [H'|[_ H']]; [|discriminate]. destruct Hp as [<-|Hp].
    + exists f0, i. split; [exact Hf0|]. assert (c' < length l) by (apply nth_error_Some; congruence). unfold f0. lia.
    + destruct (t_pool2 _ _ _ _ _ _ _ J t' c' n' g Hp H') as (f & g' & Q & L). exists f, g'. split; [apply nth_old; exact Q|exact L].
  - intros t' c' n' p B H L. apply Al in B. destruct B as [Ne B]. apply hb_mono. apply (t_before _ _ _ _ _ _ _ J t' c' n' p B); [|exact L].
    destruct H as [H|H]; [left; apply TchI; exact H|right; apply TchS; assumption].
  - intros t' c' n' p B H. apply Al in B. destruct B as [Ne B]. destruct (acc_by _ _ _ _ _ _ H) as [H'|(L & a & Ha & Hw)]; [exact (t_write _ _ _ _ _ _ _ J t' c' n' p B H')|].
    exfalso. unfold s in Ha. apply nth_error_In in Ha. apply in_app_or in Ha. destruct Ha as [Ha|Ha]; [exact (HI a Ha _ _ Hw)|].
    repeat (destruct Ha as [<-|Ha]; [discriminate|]). destruct Ha.
  - intros t' c' n' p B H L. apply Al in B. destruct B as [Ne B]. apply passed_mono. exact (t_state _ _ _ _ _ _ _ J t' c' n' p B (TchS _ _ Ne H) L).
  - intros j t' c' n' Hj B. apply Al in B. destruct B as [Ne B]. destruct (t_own _ _ _ _ _ _ _ J j t' c' n' (HW _ _ Hj) B) as [K1 K2]. split; [apply know_mono; exact K1|]. intros p L H.
    destruct (K2 p L (TchI _ _ H)) as [Q|[Q|Q]]; [left; apply know_mono; exact Q|right; left; apply passed_mono; exact Q|right; right; apply look_mono; exact Q].
  - intros k t' c' n' Hk B. apply Al in B. destruct B as [Ne B]. destruct (t_ring _ _ _ _ _ _ _ J k t' c' n' Hk B) as [K1 K2]. split; [apply passed_mono; exact K1|]. intros p L H.
    destruct (K2 p L (TchI _ _ H)) as [Q|[Q|[Q|(j & Q & Q')]]]; [left; apply passed_mono; exact Q|right; left; apply passed_mono; exact Q|right; right; left; apply look_mono; exact Q|].
    right. right. right. exists j. split; [exact Q|apply know_mono; exact Q'].
  - intros t' c' n' B F. apply Al in B. destruct B as [Ne B]. destruct (t_fin _ _ _ _ _ _ _ J t' c' n' B F) as [(f & g & Q) K']. split; [exists f, g; apply nth_old; exact Q|].
    intros p L (g' & m & H). apply passed_mono. apply K'; [exact L|]. destruct (Only _ _ H Logic.I) as [H'|[_ H']]; [exists g', m; exact H'|discriminate].
Qed.

(** What a goroutine that knows of the creation of a trace may do to it. *)
Lemma may_lock way ring pool handles fin walks l i t c n p :
  JT way ring pool handles fin walks l -> alive l t c n -> know l i c -> touched l p (LState t) -> know l i p \/ passed l (SMtx t) p.
Proof.
  intros J A K H. destruct (Nat.lt_trichotomy p c) as [L|[->|L]].
  - left. apply (know_down _ _ _ c K). apply (t_before _ _ _ _ _ _ _ J t c n); auto.
  - left. exact K.
  - right. exact (t_state _ _ _ _ _ _ _ J t c n p A H L).
Qed.
Lemma may_look way ring pool handles fin walks l i t c n p :
  JT way ring pool handles fin walks l -> alive l t c n -> know l i c -> acc l p (LId t) true -> know l i p.
Proof.
  intros J A K H. apply (know_down _ _ _ c K). apply (t_before _ _ _ _ _ _ _ J t c n); [exact A|left; exists true; exact H|]. exact (t_write _ _ _ _ _ _ _ J t c n p A H).
Qed.

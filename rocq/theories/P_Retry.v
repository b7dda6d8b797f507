(** C104: trc stream does not hammer a server. *)
From Coq Require Import Sorted.
From Verif Require Import Go M_Retry S_Retry.
Open Scope list_scope.
Open Scope Z_scope.

Lemma turns_app R : forall h1 l h2, turns R l (h1 ++ h2) = match turns R l h1 with Some l' => turns R l' h2 | None => None end.
Proof. induction h1 as [|[t w] h1 IH]; intros l h2; [reflexivity|]. cbn. destruct (turn R l t w); [apply IH|reflexivity]. Qed.

Lemma attempts_other h a b t w : is_start w = false -> attempts ((t, w) :: h) a b = attempts h a b.
Proof. intros E. unfold attempts. cbn [filter snd]. rewrite E. reflexivity. Qed.
Lemma attempts_start h a b t : attempts ((t, Start) :: h) a b = ((if ((a <=? t) && (t <=? b))%Z then 1 else 0) + attempts h a b)%nat.
Proof. unfold attempts. cbn [filter snd fst is_start andb]. destruct ((a <=? t) && (t <=? b)); reflexivity. Qed.

Lemma cancelled_attempts R : forall h l l' a b, turns R l h = Some l' -> l_cancelled l = true ->
  (attempts h a b <= match l_place l with Ready => 1 | _ => 0 end)%nat.
Proof.
  induction h as [|[t w] h IH]; intros l l' a b T C; [cbn; lia|].
  cbn in T. destruct (turn R l t w) as [l1|] eqn:E; [|discriminate]. destruct l as [c p]. cbn in C. subst c.
  destruct w; destruct p as [| | |s|]; cbn in E; try discriminate; injection E as <-; specialize (IH _ _ a b T eq_refl); cbn [l_place] in IH |- *;
    try (rewrite attempts_other by reflexivity; exact IH).
  rewrite attempts_start. destruct ((a <=? t) && (t <=? b)); lia.
Qed.

(** The earliest time at which an attempt can begin. *)
Definition earliest (R : Z) (p : place) (now : Z) : Z :=
  match p with Waiting => now + R | Asleep s => s + R | _ => now end.

Lemma attempts_bound R : 0 < R -> forall h l l' a b now,
  in_order h -> Forall (fun x => now <= fst x) h -> turns R l h = Some l' -> a <= b ->
  (Z.of_nat (attempts h a b) - 1) * R <= Z.max (-R) (b - Z.max a (earliest R (l_place l) now)).
Proof.
  intros HR. induction h as [|[t w] h IH]; intros l l' a b now O F T Hab.
  - change (attempts [] a b) with 0%nat. lia.
  - inversion O as [|? ? O1 O2]; subst. inversion F as [|? ? F1 F2]; subst. cbn in F1.
    cbn in T. destruct (turn R l t w) as [l1|] eqn:E; [|discriminate].
    assert (F3 : Forall (fun x => t <= fst x) h) by exact O2.
    specialize (IH l1 l' a b t O1 F3 T Hab). pose proof (cancelled_attempts R h l1 l' a b T) as K.
    destruct l as [c p]. cbn [l_place].
    destruct w; try rewrite attempts_other by reflexivity.
    + assert (l1 = MkLoop true p) as -> by (destruct p; injection E as <-; reflexivity). cbn [l_place l_cancelled] in *.
      destruct p; cbn [earliest] in *; lia.
    + destruct p; cbn in E; try discriminate. injection E as <-. cbn [l_place] in *. destruct c; cbn [earliest] in *; lia.
    + destruct p; cbn in E; try discriminate. injection E as <-. rewrite attempts_start. cbn [l_place earliest] in *.
      remember (attempts h a b) as k eqn:Ek. clear Ek.
      destruct (Z.leb_spec a t); cbn [andb]; [|cbn [Nat.add]; lia]. destruct (Z.leb_spec t b); [|cbn [Nat.add]; lia].
      replace (Z.of_nat (1 + k) - 1) with (Z.of_nat k) by lia. destruct k as [|k]; [lia|].
      assert (0 <= (Z.of_nat (S k) - 1) * R) by (apply Z.mul_nonneg_nonneg; lia). lia.
    + destruct p; cbn in E; try discriminate. injection E as <-. cbn [l_place earliest] in *. lia.
    + destruct p; cbn in E; try discriminate. destruct c; [|discriminate]. injection E as <-. cbn [l_place l_cancelled earliest] in *.
      specialize (K eq_refl). replace (attempts h a b) with 0%nat by lia. lia.
    + destruct p as [| | |s|]; cbn in E; try discriminate. destruct (contextSleep_returns c s R t) eqn:B; [|discriminate]. injection E as <-.
      cbn [l_place l_cancelled earliest] in *.
      destruct c; [specialize (K eq_refl); replace (attempts h a b) with 0%nat by lia; lia|].
      unfold contextSleep_returns in B. cbn in B. apply Z.leb_le in B. lia.
Qed.

(** However the server fails, and whatever the context does: in a time of length b - a, there are at most
    1 + (b - a) / retryInterval attempts. *)
Theorem C104_attempts_are_spaced :
  forall retryInterval h l a b, 0 < retryInterval -> a <= b ->
  in_order h -> runStream_loop retryInterval h = Some l ->
  (Z.of_nat (attempts h a b) - 1) * retryInterval <= b - a.
Proof.
  intros R h l a b HR Hab O T.
  assert (B : exists now, Forall (fun x : Z * what => now <= fst x) h).
  { destruct h as [|[t w] h]; [exists 0; constructor|]. exists t. inversion O; subst. constructor; [cbn; lia|assumption]. }
  destruct B as (now & B). pose proof (attempts_bound R HR h _ l a b now O B T Hab) as Q. cbn [l_place earliest] in Q. lia.
Qed.
Print Assumptions C104_attempts_are_spaced.

(** After an attempt has failed, the next one begins retryInterval later or more. *)
Theorem C104_wait_after_a_failure :
  forall retryInterval h1 h2 h3 l t1 t2,
  in_order (h1 ++ (t1, Fail) :: h2 ++ (t2, Start) :: h3) ->
  runStream_loop retryInterval (h1 ++ (t1, Fail) :: h2 ++ (t2, Start) :: h3) = Some l ->
  t1 + retryInterval <= t2.
Proof.
  intros R h1 h2 h3 l t1 t2 O T. unfold runStream_loop in T. rewrite turns_app in T.
  destruct (turns R (MkLoop false Head) h1) as [l1|]; [|discriminate]. cbn [turns] in T.
  destruct (turn R l1 t1 Fail) as [l2|] eqn:E; [|discriminate].
  assert (P : l_place l2 = Asleep t1). { destruct l1 as [c []]; cbn in E; try discriminate. injection E as <-. reflexivity. }
  assert (O2 : StronglySorted (fun x y : Z * what => fst x <= fst y) (h2 ++ (t2, Start) :: h3)).
  { clear - O. unfold in_order in O. induction h1 as [|x h1 IH]; [inversion O; assumption|]. inversion O; subst. apply IH. assumption. }
  clear O E h1 l1.
  assert (G : forall h2 l2, StronglySorted (fun x y : Z * what => fst x <= fst y) (h2 ++ (t2, Start) :: h3) ->
     turns R l2 (h2 ++ (t2, Start) :: h3) = Some l -> l_place l2 = Asleep t1 -> t1 + R <= t2).
  { clear. induction h2 as [|[t w] h2 IH]; intros l2 O T P.
    - cbn in T. destruct l2 as [c p]. cbn in P. subst p. discriminate.
    - cbn [app turns] in T. destruct (turn R l2 t w) as [l3|] eqn:E; [|discriminate].
      inversion O as [|? ? O1 O2]; subst. destruct l2 as [c p]. cbn in P. subst p.
      destruct w; cbn in E; try discriminate; [injection E as <-; exact (IH _ O1 T eq_refl)|].
      assert (t <= t2). { apply (proj1 (Forall_forall _ _) O2 (t2, Start)). apply in_or_app. right. left. reflexivity. }
      destruct (contextSleep_returns c t1 R t) eqn:B; [|discriminate]. injection E as <-. unfold contextSleep_returns in B.
      apply orb_prop in B. destruct B as [->|B]; [|apply Z.leb_le in B; lia].
      pose proof (cancelled_attempts R _ _ _ t2 t2 T eq_refl) as K. cbn [l_place] in K. exfalso.
      unfold attempts in K. rewrite filter_app, app_length in K. cbn [filter snd fst is_start andb] in K. rewrite Z.leb_refl in K. cbn in K. lia. }
  exact (G h2 l2 O2 T P).
Qed.
Print Assumptions C104_wait_after_a_failure.

(** After the context was cancelled, at most one attempt begins, and only if the loop had looked at the context just before. *)
Theorem C104_cancelled :
  forall retryInterval h1 t h2 l a b,
  runStream_loop retryInterval (h1 ++ (t, Cancel) :: h2) = Some l ->
  (attempts h2 a b <= 1)%nat /\
  (forall h t' w, h1 = h ++ [(t', w)] -> w = Start \/ w = Fail \/ w = Wake -> attempts h2 a b = 0%nat).
Proof.
  intros R h1 t h2 l a b T. unfold runStream_loop in T. rewrite turns_app in T.
  destruct (turns R (MkLoop false Head) h1) as [l1|] eqn:E1; [|discriminate]. cbn [turns] in T.
  destruct (turn R l1 t Cancel) as [l2|] eqn:E; [|discriminate].
  assert (l2 = MkLoop true (l_place l1)) as -> by (destruct l1 as [c []]; injection E as <-; reflexivity).
  pose proof (cancelled_attempts R h2 _ l a b T eq_refl) as K. cbn [l_place] in K.
  split; [destruct (l_place l1); lia|]. intros h t' w -> W. rewrite turns_app in E1.
  destruct (turns R (MkLoop false Head) h) as [l0|]; [|discriminate]. cbn [turns] in E1.
  destruct (turn R l0 t' w) as [l1'|] eqn:E0; [|discriminate]. injection E1 as ->.
  destruct l0 as [c p]. destruct W as [->|[->| ->]]; destruct p; cbn in E0; try discriminate.
  - injection E0 as <-. cbn in K. lia.
  - injection E0 as <-. cbn in K. lia.
  - destruct (contextSleep_returns c since R t'); [|discriminate]. injection E0 as <-. cbn in K. lia.
Qed.
Print Assumptions C104_cancelled.

(** The loop never ends by itself. *)
Theorem C104_never_gives_up :
  forall retryInterval h l, runStream_loop retryInterval h = Some l ->
  (forall t, ~ In (t, Cancel) h) -> l_place l <> Returned /\ exists t w l', w <> Cancel /\ runStream_loop retryInterval (h ++ [(t, w)]) = Some l' /\ (forall x, In x h -> fst x <= t).
Proof.
  intros R h l T N.
  assert (G : forall h l0, turns R l0 h = Some l -> l_cancelled l0 = false -> l_place l0 <> Returned -> (forall t, ~ In (t, Cancel) h) -> l_cancelled l = false /\ l_place l <> Returned).
  { clear. induction h as [|[t w] h IH]; intros l0 T C P N; [injection T as <-; auto|]. cbn in T.
    destruct (turn R l0 t w) as [l1|] eqn:E; [|discriminate]. destruct l0 as [c p]. cbn in C, P. subst c.
    destruct w; [exfalso; apply (N t); left; reflexivity| | | | |]; destruct p as [| | |s|]; cbn in E; try discriminate.
    - injection E as <-. apply (IH _ T eq_refl); [discriminate|]. intros t' H. apply (N t'). right. exact H.
    - injection E as <-. apply (IH _ T eq_refl); [discriminate|]. intros t' H. apply (N t'). right. exact H.
    - injection E as <-. apply (IH _ T eq_refl); [discriminate|]. intros t' H. apply (N t'). right. exact H.
    - match type of E with (if ?x then _ else _) = _ => destruct x end; [|discriminate E]. injection E as <-. apply (IH _ T eq_refl); [discriminate|]. intros t' H. apply (N t'). right. exact H. }
  destruct (G h _ T eq_refl ltac:(discriminate) N) as (C & P). split; [exact P|].
  assert (M : exists m, forall x : Z * what, In x h -> fst x <= m).
  { clear. induction h as [|x h (m & IH)]; [exists 0; intros _ []|]. exists (Z.max (fst x) m). intros y [<-|H]; [lia|]. specialize (IH y H). lia. }
  destruct M as (m & M). destruct l as [c p]. cbn in C, P. subst c.
  assert (S1 : forall t w l', turn R (MkLoop false p) t w = Some l' -> runStream_loop R (h ++ [(t, w)]) = Some l').
  { intros t w l' E. unfold runStream_loop in *. rewrite turns_app, T. cbn [turns]. rewrite E. reflexivity. }
  destruct p as [| | |s|]; [| | | |exfalso; apply P; reflexivity].
  - exists m, Check. eexists. split; [discriminate|]. split; [apply S1; reflexivity|exact M].
  - exists m, Start. eexists. split; [discriminate|]. split; [apply S1; reflexivity|exact M].
  - exists m, Fail. eexists. split; [discriminate|]. split; [apply S1; reflexivity|exact M].
  - exists (Z.max m (s + R)), Wake. eexists. split; [discriminate|]. split.
    + apply S1. cbn. unfold contextSleep_returns. cbn [orb]. destruct (Z.leb_spec (s + R) (Z.max m (s + R))); [reflexivity|lia].
    + intros x H. specialize (M x H). lia.
Qed.
Print Assumptions C104_never_gives_up.

(** Finding: the client that trc stream uses waits at least a second before it asks again; trc stream itself takes the
    interval as it is.  With an interval that is not positive, nothing bounds the number of attempts within one moment. *)
Definition attempt (t : Z) : list (Z * what) := [(t, Check); (t, Start); (t, Fail); (t, Wake)].
Fixpoint hammering (n : nat) (t : Z) : list (Z * what) :=
  match n with O => [] | S n => attempt t ++ hammering n t end.
Theorem C104_hammering_refuted :
  forall retryInterval t n, retryInterval <= 0 -> exists h l,
  in_order h /\ runStream_loop retryInterval h = Some l /\ attempts h t t = n.
Proof.
  intros R t n HR. exists (hammering n t), (MkLoop false Head). split; [|split].
  - assert (A : forall x, In x (hammering n t) -> fst x = t).
    { induction n as [|n IH]; [intros x []|]. cbn. intros x [<-|[<-|[<-|[<-|H]]]]; try reflexivity. apply IH. exact H. }
    revert A. generalize (hammering n t). induction l as [|x l IH]; intros A; [constructor|]. constructor; [apply IH; intros y H; apply A; right; exact H|].
    apply Forall_forall. intros y H. rewrite (A x), (A y); [lia|right; exact H|left; reflexivity].
  - unfold runStream_loop. induction n as [|n IH]; [reflexivity|]. cbn. unfold contextSleep_returns. cbn [orb].
    destruct (Z.leb_spec (t + R) t); [exact IH|lia].
  - induction n as [|n IH]; [reflexivity|]. unfold attempts in *. cbn. rewrite Z.leb_refl. cbn. f_equal. exact IH.
Qed.
Print Assumptions C104_hammering_refuted.

(** Three attempts within two intervals, and a cancellation while asleep. *)
Definition demo : list (Z * what) :=
  [(0, Check); (0, Start); (0, Fail); (5, Wake); (5, Check); (5, Start); (5, Fail); (10, Wake); (10, Check); (10, Start); (12, Fail); (13, Cancel); (13, Wake); (13, Check)].
Example C104_instance :
  runStream_loop 5 demo = Some (MkLoop true Returned) /\ in_order demo /\ attempts demo 0 10 = 3%nat /\ attempts demo 0 9 = 2%nat /\
  runStream_loop 5 [(0, Check); (0, Start); (0, Fail); (4, Wake)] = None.
Proof.
  repeat split; unfold in_order, demo; repeat (constructor; try (cbn; lia)).
Qed.

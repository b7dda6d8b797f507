From Verif Require Import Go S_Order.
From Coq Require Import Sorted.
Section Order.
Context {A : Type}.
Variable above : A -> A -> bool.
Notation in_order := (in_order above).
Notation highest := (highest above).
Notation strict_weak := (strict_weak above).

Definition cnt (p : A -> bool) (l : list A) : nat := length (filter p l).
Lemma cnt_app p l l' : cnt p (l ++ l') = (cnt p l + cnt p l')%nat.
Proof. unfold cnt. rewrite filter_app, app_length. reflexivity. Qed.
Lemma cnt_perm p l l' : Permutation l l' -> cnt p l = cnt p l'.
Proof.
  induction 1; unfold cnt in *; cbn [filter]; [reflexivity| | |congruence].
  - destruct (p x); cbn; congruence.
  - destruct (p x), (p y); reflexivity.
Qed.
Lemma cnt_all p l : (forall x, In x l -> p x = true) -> cnt p l = length l.
Proof.
  induction l as [|x l IH]; intros H; [reflexivity|]. unfold cnt in *. cbn [filter]. rewrite H by (left; reflexivity). cbn. f_equal.
  apply IH. intros y Hy. apply H. right. exact Hy.
Qed.
Lemma cnt_none p l : (forall x, In x l -> p x = false) -> cnt p l = 0%nat.
Proof.
  induction l as [|x l IH]; intros H; [reflexivity|]. unfold cnt in *. cbn [filter]. rewrite H by (left; reflexivity).
  apply IH. intros y Hy. apply H. right. exact Hy.
Qed.
Lemma cnt_le p l : (cnt p l <= length l)%nat.
Proof. unfold cnt. induction l as [|x l IH]; cbn; [lia|]. destruct (p x); cbn; lia. Qed.
Lemma cnt_lt p l x : In x l -> p x = false -> (cnt p l < length l)%nat.
Proof.
  intros Hx Hp. apply in_split in Hx as (l1 & l2 & ->). rewrite cnt_app, app_length. cbn [length].
  pose proof (cnt_le p l1). pose proof (cnt_le p l2). unfold cnt in *. cbn [filter]. rewrite Hp. lia.
Qed.

Lemma in_order_app l l' : in_order (l ++ l') <-> in_order l /\ in_order l' /\ (forall x y, In x l -> In y l' -> above y x = false).
Proof.
  unfold S_Order.in_order. induction l as [|a l IH]; cbn [app].
  - split; [intros H; split; [constructor|split; [exact H|intros x y []]]|tauto].
  - split.
    + intros H. inversion H as [|? ? Hs Hf]; subst. apply IH in Hs as (H1 & H2 & H3). rewrite Forall_app in Hf. destruct Hf as [Hf1 Hf2].
      split; [constructor; assumption|]. split; [exact H2|]. intros x y [<-|Hx] Hy; [|apply H3; assumption].
      rewrite Forall_forall in Hf2. apply Hf2. exact Hy.
    + intros (H1 & H2 & H3). inversion H1 as [|? ? Hs Hf]; subst. constructor.
      * apply IH. split; [exact Hs|]. split; [exact H2|]. intros x y Hx Hy. apply H3; [right; exact Hx|exact Hy].
      * apply Forall_app. split; [exact Hf|]. apply Forall_forall. intros y Hy. apply H3; [left; reflexivity|exact Hy].
Qed.

Lemma highest_firstn k l : in_order l -> highest k l (firstn k l).
Proof.
  intros H. rewrite <- (firstn_skipn k l) in H. apply in_order_app in H as (H1 & _ & H3).
  split; [exact H1|]. split; [apply firstn_length|]. exists (skipn k l). rewrite firstn_skipn. split; [reflexivity|exact H3].
Qed.
Lemma highest_perm k l l' r : Permutation l l' -> highest k l r -> highest k l' r.
Proof.
  intros Hp (H1 & H2 & rest & H3 & H4). split; [exact H1|]. split; [rewrite H2, (Permutation_length Hp); reflexivity|].
  exists rest. split; [etransitivity; eassumption|exact H4].
Qed.
Lemma highest_sort k l sort : is_sort above sort -> highest k l (firstn k (sort l)).
Proof. intros Hs. destruct (Hs l) as [Hp Ho]. eapply highest_perm; [exact Hp|]. apply highest_firstn. exact Ho. Qed.

Lemma highest_concat k ls : strict_weak -> forall rs r, Forall2 (highest k) ls rs -> highest k (concat rs) r -> highest k (concat ls) r.
Proof.
  intros (Hirr & _ & Hneg) rs r HF (Ho & Hl & rest & Hp & Hr).
  assert (Hrest : exists rests, Permutation (concat rs ++ rests) (concat ls) /\
            forall y, In y rests -> exists ri, (exists a b, rs = a ++ ri :: b) /\ length ri = k /\ (forall z, In z ri -> above y z = false)).
  { clear Ho Hl Hp Hr. induction HF as [|l ri ls rs (_ & Hli & resti & Hpi & Hri) HF IH].
    - exists []. split; [reflexivity|]. intros y [].
    - destruct IH as (rests & Hp & Hy). exists (resti ++ rests). split.
      + cbn [concat]. transitivity ((ri ++ resti) ++ (concat rs ++ rests)).
        * rewrite <- !app_assoc. apply Permutation_app_head. rewrite !app_assoc. apply Permutation_app_tail. apply Permutation_app_comm.
        * apply Permutation_app; assumption.
      + intros y Hin. apply in_app_or in Hin as [Hin|Hin].
        * exists ri. split; [exists [], rs; reflexivity|]. split.
          -- apply Permutation_length in Hpi. rewrite app_length in Hpi. destruct resti; [destruct Hin|]. cbn [length] in Hpi. lia.
          -- intros z Hz. apply Hri; assumption.
        * destruct (Hy y Hin) as (rj & (a & b & ->) & H1 & H2). exists rj. split; [exists (ri :: a), b; reflexivity|]. auto. }
  assert (Hlen : length r = Nat.min k (length (concat ls))).
  { rewrite Hl. clear -HF. assert (H : (length (concat rs) <= length (concat ls))%nat /\
      (length (concat rs) = length (concat ls) \/ (k <= length (concat rs))%nat)); [|lia].
    induction HF as [|l ri ls rs (_ & Hli & _) HF IH]; [cbn; lia|]. cbn [concat]. rewrite !app_length. lia. }
  destruct Hrest as (rests & Hpr & Hdom). split; [exact Ho|]. split; [exact Hlen|].
  exists (rest ++ rests). split.
  - rewrite app_assoc. etransitivity; [apply Permutation_app_tail; exact Hp|exact Hpr].
  - intros x y Hx Hy. apply in_app_or in Hy as [Hy|Hy]; [apply Hr; assumption|].
    destruct (above y x) eqn:E; [|reflexivity]. exfalso.
    destruct (Hdom y Hy) as (ri & (a & b & Ers) & Hk & Hz).
    set (p := fun z => above z x).
    assert (H1 : cnt p ri = k).
    { rewrite <- Hk. apply cnt_all. intros z Hin. unfold p. destruct (Hneg y z x E) as [H|H]; [rewrite (Hz z Hin) in H; discriminate|exact H]. }
    assert (H2 : (k <= cnt p (concat rs))%nat).
    { rewrite Ers, concat_app. cbn [concat]. rewrite !cnt_app, H1. lia. }
    rewrite <- (cnt_perm p _ _ Hp), cnt_app in H2.
    rewrite (cnt_none p rest) in H2 by (intros z Hin; unfold p; apply Hr; assumption).
    pose proof (cnt_lt p r x Hx (Hirr x)). lia.
Qed.

(** uniqueness for distinct keys *)
Lemma in_order_unique l : forall l', strict_weak -> in_order l -> in_order l' -> Permutation l l' ->
  (forall x y, In x l -> In y l -> above x y = false -> above y x = false -> x = y) -> l = l'.
Proof.
  induction l as [|x l IH]; intros l' Hsw H H' Hp Hinj; [symmetry; apply Permutation_nil; exact Hp|].
  destruct l' as [|y l']; [apply Permutation_sym, Permutation_nil in Hp; discriminate|].
  inversion H as [|? ? Hs Hf]; subst. inversion H' as [|? ? Hs' Hf']; subst. rewrite Forall_forall in Hf, Hf'.
  assert (Hxy : x = y).
  { assert (Hyin : In y (x :: l)) by (eapply Permutation_in; [symmetry; exact Hp|left; reflexivity]).
    assert (Hxin : In x (y :: l')) by (eapply Permutation_in; [exact Hp|left; reflexivity]).
    destruct Hyin as [E|Hyin]; [exact E|]. destruct Hxin as [E|Hxin]; [congruence|].
    apply Hinj; [left; reflexivity|right; exact Hyin|apply Hf'; exact Hxin|apply Hf; exact Hyin]. }
  subst y. f_equal. apply IH; auto; [eapply Permutation_cons_inv; exact Hp|]. intros a b Ha Hb. apply Hinj; right; assumption.
Qed.

(** insertion sort *)
Fixpoint insert (x : A) (l : list A) : list A :=
  match l with
  | [] => [x]
  | y :: l => if above y x then y :: insert x l else x :: y :: l
  end.
Fixpoint isort (l : list A) : list A := match l with [] => [] | x :: l => insert x (isort l) end.
Lemma insert_perm x l : Permutation (insert x l) (x :: l).
Proof.
  induction l as [|y l IH]; cbn [insert]; [reflexivity|]. destruct (above y x); [|reflexivity].
  etransitivity; [apply perm_skip, IH|apply perm_swap].
Qed.
Lemma isort_perm l : Permutation (isort l) l.
Proof. induction l as [|x l IH]; [reflexivity|]. cbn [isort]. rewrite insert_perm. apply perm_skip. exact IH. Qed.
Lemma insert_in_order x l : strict_weak -> in_order l -> in_order (insert x l).
Proof.
  intros (Hirr & Htr & Hneg). induction l as [|y l IH]; intros H; cbn [insert]; [constructor; [constructor|constructor]|].
  inversion H as [|? ? Hs Hf]; subst. destruct (above y x) eqn:E.
  - constructor; [apply IH; exact Hs|]. rewrite Forall_forall in *. intros z Hz.
    apply (Permutation_in z (insert_perm x l)) in Hz. destruct Hz as [<-|Hz]; [|apply Hf; exact Hz].
    destruct (above x y) eqn:E'; [|reflexivity]. rewrite <- (Hirr x). symmetry. eapply Htr; eassumption.
  - constructor; [exact H|]. constructor; [exact E|]. rewrite Forall_forall in *. intros z Hz.
    destruct (above z x) eqn:E'; [|reflexivity]. destruct (Hneg z y x E') as [H1|H1]; [rewrite (Hf z Hz) in H1; discriminate|congruence].
Qed.
Lemma isort_in_order l : strict_weak -> in_order (isort l).
Proof. intros H. induction l as [|x l IH]; [constructor|]. cbn [isort]. apply insert_in_order; assumption. Qed.
Lemma isort_is_sort : strict_weak -> is_sort above isort.
Proof. intros H l. split; [apply isort_perm|apply isort_in_order; exact H]. Qed.

Lemma highest_unique k l r r' : strict_weak -> highest k l r -> highest k l r' ->
  (forall x y, In x l -> In y l -> above x y = false -> above y x = false -> x = y) -> r = r'.
Proof.
  intros Hsw (H1 & H2 & rest & H3 & H4) (H1' & H2' & rest' & H3' & H4') Hinj.
  assert (Hfull : forall r rest, in_order r -> Permutation (r ++ rest) l -> (forall x y, In x r -> In y rest -> above y x = false) ->
            in_order (r ++ isort rest) /\ Permutation (r ++ isort rest) l).
  { intros q qs Hq Hp Hd. split.
    - apply in_order_app. split; [exact Hq|]. split; [apply isort_in_order; exact Hsw|]. intros x y Hx Hy. apply Hd; [exact Hx|].
      eapply Permutation_in; [apply isort_perm|exact Hy].
    - rewrite isort_perm. exact Hp. }
  destruct (Hfull r rest H1 H3 H4) as [Ho Hp]. destruct (Hfull r' rest' H1' H3' H4') as [Ho' Hp'].
  assert (E : r ++ isort rest = r' ++ isort rest').
  { apply in_order_unique; auto; [rewrite Hp, Hp'; reflexivity|]. intros x y Hx Hy. apply Hinj; (eapply Permutation_in; [exact Hp|assumption]). }
  assert (El : length r = length r') by congruence.
  pose proof (f_equal (firstn (length r)) E) as Ef. rewrite !firstn_app in Ef. rewrite <- El, !Nat.sub_diag in Ef. cbn [firstn] in Ef.
  rewrite !app_nil_r, firstn_all, El, firstn_all in Ef. exact Ef.
Qed.
End Order.

(** comparing through a function *)
Lemma in_order_map {A B} (f : A -> B) above (l : list A) :
  in_order above (map f l) <-> in_order (fun x y => above (f x) (f y)) l.
Proof.
  unfold in_order. induction l as [|x l IH]; cbn [map]; [split; constructor|]. split; intros H; inversion H as [|? ? Hs Hf]; subst; constructor.
  - apply IH. exact Hs.
  - rewrite Forall_map in Hf. exact Hf.
  - apply IH. exact Hs.
  - rewrite Forall_map. exact Hf.
Qed.
Lemma highest_map {A B} (f : A -> B) above k (l r : list A) :
  highest (fun x y => above (f x) (f y)) k l r -> highest above k (map f l) (map f r).
Proof.
  intros (H1 & H2 & rest & H3 & H4). split; [apply in_order_map; exact H1|]. split; [rewrite !map_length; exact H2|].
  exists (map f rest). split; [rewrite <- map_app; apply Permutation_map; exact H3|].
  intros x y Hx Hy. apply in_map_iff in Hx as (a & <- & Ha). apply in_map_iff in Hy as (b & <- & Hb). apply H4; assumption.
Qed.
Lemma in_order_filter {A} above (p : A -> bool) l : in_order above l -> in_order above (filter p l).
Proof.
  unfold in_order. induction l as [|x l IH]; intros H; [exact H|]. inversion H as [|? ? Hs Hf]; subst. cbn [filter].
  destruct (p x); [|apply IH; exact Hs]. constructor; [apply IH; exact Hs|]. rewrite Forall_forall in *. intros y Hy.
  apply filter_In in Hy as [Hy _]. apply Hf. exact Hy.
Qed.

(** A coarser comparison: sorting by [above] also sorts by [above']. *)
Lemma in_order_coarser {A} (above above' : A -> A -> bool) l :
  (forall x y, above' x y = true -> above x y = true) -> in_order above l -> in_order above' l.
Proof.
  intros H. unfold in_order. induction 1 as [|x l Hs IH Hf]; constructor; [exact IH|].
  rewrite Forall_forall in *. intros y Hy. specialize (Hf y Hy). destruct (above' y x) eqn:E; [|reflexivity].
  apply H in E. congruence.
Qed.

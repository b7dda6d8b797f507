(** C89: searches beside other goroutines. *)
From Verif Require Import Go L_List M_Strings M_Types M_Frame M_Filter S_Filter L_Filter S_RingBuf M_RingBuf L_RingBuf
  M_RingBufs L_RingBufs M_Stats S_Stats S_StatsView L_Stats S_Order L_Order M_Search S_Search L_Search P_Search P_Multi S_TraceView L_Broker
  M_SearchConc S_SearchConc P_Filter.
Open Scope string_scope.
Open Scope list_scope.
Open Scope Z_scope.

(** ** The storage *)
Lemma NoDup_app_l {A} (a b : list A) : NoDup (a ++ b) -> NoDup a.
Proof. induction a as [|x a IH]; intros H; [constructor|]. inversion H; subst. constructor; [intros Hi; apply H2, in_or_app; now left|auto]. Qed.
Lemma NoDup_app_r {A} (a b : list A) : NoDup (a ++ b) -> NoDup b.
Proof. induction a as [|x a IH]; intros H; [exact H|]. inversion H; subst. auto. Qed.
Section Storage.
Context {T : Type}.
Variable zero : T.
Implicit Types (s : rbs T) (f : string -> option (list T)) (h : list (sop T)).
Notation sop_step := (sop_step zero).
Notation srun := (srun zero).

Definition WRep s f : Prop :=
  0 < rbs_cap s /\ NoDup (map_keys (rbs_bufs s)) /\
  forall c, match map_get c (rbs_bufs s), f c with
            | Some r, Some l => Rep r l /\ (0 < length (rb_buf r))%nat
            | None, None => True
            | _, _ => False
            end.
Definition set_f f c l : string -> option (list T) := fun x => if String.eqb x c then Some l else f x.

Lemma WRep_set s f c r l : WRep s f -> Rep r l -> (0 < length (rb_buf r))%nat ->
  WRep (MkRBS (rbs_cap s) (map_set c r (rbs_bufs s))) (set_f f c l).
Proof.
  intros (H1 & H2 & H3) HR Hl. split; [exact H1|]. split; [apply map_keys_set_NoDup; exact H2|].
  intros x. cbn [rbs_bufs]. rewrite map_get_set. unfold set_f. destruct (String.eqb x c); [auto|apply H3].
Qed.

(** The effect of a step on what is held. *)
Inductive eff : sop T -> (string -> option (list T)) -> (string -> option (list T)) -> Prop :=
| ECreateOld c f : f c <> None -> eff (SCreate c) f f
| ECreateNew c f : f c = None -> eff (SCreate c) f (set_f f c [])
| EAdd c tr f l k : f c = Some l -> eff (SAdd c tr) f (set_f f c (firstn (S k) (tr :: l)))
| ECap cap f : eff (SCap cap) f f
| EResize c cap f l : f c = Some l -> eff (SResize c cap) f (set_f f c (firstn (Z.to_nat cap) l)).

Lemma step_spec s f o : WRep s f ->
  match o with SCreate _ => True | SAdd c _ => f c <> None | SCap cap => 0 < cap | SResize c cap => f c <> None /\ 0 < cap end ->
  exists s' f', sop_step s o = Ok s' /\ WRep s' f' /\ eff o f f'.
Proof.
  intros HW Ho. pose proof HW as (H1 & H2 & H3). destruct o as [c|c tr|cap|c cap]; cbn [M_SearchConc.sop_step].
  - unfold GetOrCreate. pose proof (H3 c) as Hc. destruct (map_get c (rbs_bufs s)) as [r|].
    + destruct (f c) as [l|] eqn:Ef; [|tauto]. exists s, f. split; [reflexivity|]. split; [exact HW|]. apply ECreateOld. congruence.
    + destruct (f c) as [l|] eqn:Ef; [tauto|]. destruct (New_spec zero (rbs_cap s) ltac:(lia)) as (r & -> & HR & Hl). cbn [bind].
      exists (MkRBS (rbs_cap s) (map_set c r (rbs_bufs s))), (set_f f c []). split; [reflexivity|]. split; [apply WRep_set; [exact HW|exact HR|lia]|].
      apply ECreateNew. exact Ef.
  - unfold AddTo. pose proof (H3 c) as Hc. destruct (map_get c (rbs_bufs s)) as [r|]; [|destruct (f c); [tauto|congruence]].
    destruct (f c) as [l|] eqn:Ef; [|tauto]. destruct Hc as [HR Hl].
    destruct (Add_spec zero r l tr HR) as (r' & -> & HR' & Hl'). cbn [bind].
    destruct (Nat.eqb_spec (length (rb_buf r)) 0) as [|_]; [lia|].
    pose proof (Rep_len_le r l HR) as Hle.
    assert (Hf : (if (length l =? length (rb_buf r))%nat then tr :: removelast l else tr :: l) = firstn (S (length (rb_buf r) - 1)) (tr :: l)).
    { replace (S (length (rb_buf r) - 1)) with (length (rb_buf r)) by lia. destruct (Nat.eqb_spec (length l) (length (rb_buf r))) as [He|Hne].
      - rewrite <- He. apply L_RingBufs.removelast_firstn_len. intros ->. cbn in He. lia.
      - rewrite firstn_all2; [reflexivity|]. cbn [length]. lia. }
    rewrite Hf in HR'. destruct (if (length l =? length (rb_buf r))%nat then (last l zero, true) else (zero, false)) as [d b].
    cbn [bind]. eexists _, _. split; [reflexivity|]. split; [apply WRep_set; [exact HW|exact HR'|lia]|]. apply EAdd. exact Ef.
  - exists (MkRBS cap (rbs_bufs s)), f. split; [reflexivity|]. split; [split; [exact Ho|split; [exact H2|exact H3]]|]. apply ECap.
  - destruct Ho as [Ho Hp]. pose proof (H3 c) as Hc. destruct (map_get c (rbs_bufs s)) as [r|]; [|destruct (f c); [tauto|congruence]].
    destruct (f c) as [l|] eqn:Ef; [|tauto]. destruct Hc as [HR Hl].
    destruct (Resize_spec zero r l cap HR) as (r' & -> & HR' & Hl'). destruct (Z.leb_spec cap 0); [lia|]. cbn [bind].
    eexists _, _. split; [reflexivity|]. split; [apply WRep_set; [exact HW|exact HR'|lia]|]. apply EResize. exact Ef.
Qed.

(** Where a trace that is held comes from. *)
Definition put_in (c : string) h : list T := flat_map (fun o => match o with SAdd c' tr => if String.eqb c c' then [tr] else [] | _ => [] end) h.
Definition Inv h s f : Prop :=
  WRep s f /\ (forall c, In (SCreate c) h -> f c <> None) /\ (forall c l, f c = Some l -> subseq l (rev (put_in c h))).
Lemma put_in_snoc c h o : put_in c (h ++ [o]) = put_in c h ++ put_in c [o].
Proof. apply flat_map_app. Qed.
Lemma subseq_trans {A} (l1 l2 l3 : list A) : subseq l1 l2 -> subseq l2 l3 -> subseq l1 l3.
Proof.
  intros H H2; revert l1 H. induction H2 as [|x l l' H2 IH|x l l' H2 IH]; intros l1 H; [exact H| |constructor; auto].
  inversion H; subst; constructor; auto.
Qed.
Lemma firstn_subseq {A} n (l : list A) : subseq (firstn n l) l.
Proof. revert n. induction l as [|x l IH]; intros [|n]; try constructor; try apply subseq_nil_l. apply IH. Qed.
Lemma eff_inv h o f f' : eff o f f' ->
  (forall c, In (SCreate c) h -> f c <> None) -> (forall c l, f c = Some l -> subseq l (rev (put_in c h))) ->
  (forall c, In (SCreate c) (h ++ [o]) -> f' c <> None) /\ (forall c l, f' c = Some l -> subseq l (rev (put_in c (h ++ [o])))).
Proof.
  intros He H1 H2.
  assert (Hk : forall c l, subseq l (rev (put_in c h)) -> subseq l (rev (put_in c (h ++ [o])))).
  { intros c l Hl. rewrite put_in_snoc, rev_app_distr. apply (subseq_app [] _); [apply subseq_nil_l|exact Hl]. }
  destruct He as [c f Hf|c f Hf|c tr f l k Hf|cap f|c cap f l Hf]; split; intros c'.
  - intros Hi. apply in_app_or in Hi as [Hi|[Hi|[]]]; [auto|]. injection Hi as <-. exact Hf.
  - intros l Hl. auto.
  - intros Hi. unfold set_f. destruct (String.eqb_spec c' c); [discriminate|].
    apply in_app_or in Hi as [Hi|[Hi|[]]]; [auto|]. injection Hi as ->. congruence.
  - intros l. unfold set_f. destruct (String.eqb c' c); [intros Hl; injection Hl as <-; apply subseq_nil_l|auto].
  - intros Hi. unfold set_f. destruct (String.eqb c' c); [discriminate|].
    apply in_app_or in Hi as [Hi|[Hi|[]]]; [auto|discriminate].
  - intros l'. unfold set_f. destruct (String.eqb_spec c' c) as [->|]; [|auto]. intros Hl; injection Hl as <-.
    rewrite put_in_snoc, rev_app_distr. cbn. rewrite String.eqb_refl. cbn. apply subseq_keep.
    eapply subseq_trans; [apply firstn_subseq|auto].
  - intros Hi. apply in_app_or in Hi as [Hi|[Hi|[]]]; [auto|discriminate].
  - intros l Hl. auto.
  - intros Hi. unfold set_f. destruct (String.eqb c' c); [discriminate|].
    apply in_app_or in Hi as [Hi|[Hi|[]]]; [auto|discriminate].
  - intros l'. unfold set_f. destruct (String.eqb_spec c' c) as [->|]; [|auto]. intros Hl; injection Hl as <-.
    apply Hk. eapply subseq_trans; [apply firstn_subseq|auto].
Qed.
Lemma eff_keeps o f f' c : eff o f f' -> f c <> None -> f' c <> None.
Proof.
  intros He H. destruct He; unfold set_f; try exact H; destruct (String.eqb c _); try discriminate; exact H.
Qed.

Lemma inv_init : Inv [] new_collector_storage (fun _ => None).
Proof.
  split; [|split; [intros c []|discriminate]]. split; [reflexivity|]. split; [constructor|]. intros c. exact Logic.I.
Qed.
Lemma srun_spec : forall h2 h1 s f, Inv h1 s f -> proper (h1 ++ h2) ->
  exists s' f', srun s h2 = Ok s' /\ Inv (h1 ++ h2) s' f' /\ (forall c, f c <> None -> f' c <> None).
Proof.
  induction h2 as [|o h2 IH]; intros h1 s f HI Hp.
  - exists s, f. rewrite app_nil_r. auto.
  - destruct HI as (HW & H1 & H2). pose proof Hp as (Hp1 & _). specialize (Hp1 h1 o h2 eq_refl).
    destruct (step_spec s f o HW) as (s1 & f1 & E1 & HW1 & He).
    { destruct o as [c|c tr|cap|c cap]; [exact Logic.I|auto|exact Hp1|destruct Hp1; auto]. }
    destruct (eff_inv h1 o f f1 He H1 H2) as (G1 & G2).
    change (h1 ++ o :: h2) with (h1 ++ [o] ++ h2) in *. rewrite app_assoc in *.
    destruct (IH (h1 ++ [o]) s1 f1) as (s2 & f2 & E2 & HI2 & Hk); [split; auto|exact Hp|].
    exists s2, f2. cbn [M_SearchConc.srun]. rewrite E1. cbn [bind]. split; [exact E2|]. split; [exact HI2|].
    intros c Hc. apply Hk. eapply eff_keeps; eassumption.
Qed.
Lemma srun_app s h1 h2 : srun s (h1 ++ h2) = (s <- srun s h1 ;; srun s h2).
Proof. revert s; induction h1 as [|o h1 IH]; intros s; [reflexivity|]. cbn. destruct (sop_step s o); cbn; [apply IH|reflexivity]. Qed.
Lemma proper_prefix h1 h2 : proper (h1 ++ h2) -> proper h1.
Proof.
  intros (H1 & H2). split.
  - intros p o q E. apply (H1 p o (q ++ h2)). rewrite E, <- app_assoc. reflexivity.
  - unfold put in *. rewrite flat_map_app in H2. apply NoDup_app_l in H2. exact H2.
Qed.
Lemma content_W s f c : WRep s f -> category_content s c = option_map (fun l => Ok l) (f c).
Proof.
  intros (_ & _ & H). specialize (H c). unfold category_content.
  destruct (map_get c (rbs_bufs s)) as [r|], (f c) as [l|]; try tauto; try reflexivity.
  destruct H as [HR _]. rewrite (Walk_spec zero _ r l [] HR), visit_collect. reflexivity.
Qed.
Lemma subseq_In {A} (l l' : list A) x : subseq l l' -> In x l -> In x l'.
Proof. induction 1 as [|y l l' _ IH|y l l' _ IH]; intros Hi; [exact Hi| |right; auto]. destruct Hi as [->|Hi]; [now left|right; auto]. Qed.
Lemma subseq_NoDup {A} (l l' : list A) : subseq l l' -> NoDup l' -> NoDup l.
Proof.
  induction 1 as [|x l l' Hs IH|x l l' Hs IH]; intros Hn; [constructor| |]; inversion Hn; subst; auto.
  constructor; auto. intros Hi. apply H1. eapply subseq_In; eassumption.
Qed.
Lemma put_in_In c h tr : In tr (put_in c h) <-> In (SAdd c tr) h.
Proof.
  unfold put_in. rewrite in_flat_map. split.
  - intros (o & Ho & Hi). destruct o as [c'|c' tr'|cap|c' cap]; try easy. destruct (String.eqb_spec c c') as [->|]; [|easy]. destruct Hi as [->|[]]. exact Ho.
  - intros H. exists (SAdd c tr). split; [exact H|]. cbn. rewrite String.eqb_refl. now left.
Qed.
Lemma put_in_put c h : subseq (put_in c h) (put h).
Proof.
  induction h as [|o h IH]; [constructor|]. change (o :: h) with ([o] ++ h).
  unfold put_in, put. rewrite !flat_map_app. apply subseq_app; [|exact IH].
  destruct o as [c'|c' tr|cap|c' cap]; cbn; try apply subseq_refl. destruct (String.eqb c c'); [apply subseq_refl|apply subseq_nil_l].
Qed.
Lemma put_once h c c' tr : NoDup (put h) -> In (SAdd c tr) h -> In (SAdd c' tr) h -> c = c'.
Proof.
  induction h as [|o h IH]; intros Hn H H'; [easy|].
  assert (Hm : forall x, In (SAdd x tr) h -> In tr (put h)) by (intros x Hx; unfold put; apply in_flat_map; exists (SAdd x tr); split; [exact Hx|now left]).
  assert (Hn' : NoDup (put h)) by (change (o :: h) with ([o] ++ h) in Hn; unfold put in *; rewrite flat_map_app in Hn; apply NoDup_app_r in Hn; exact Hn).
  destruct H as [->|H], H' as [H'|H'].
  - congruence.
  - cbn in Hn. inversion Hn; subst. exfalso. eauto.
  - subst o. cbn in Hn. inversion Hn; subst. exfalso. eauto.
  - auto.
Qed.
Lemma NoDup_rev' {A} (l : list A) : NoDup l -> NoDup (rev l).
Proof. intros H. apply (Permutation_NoDup (Permutation_rev l)). exact H. Qed.
End Storage.

(** ** The search *)
Lemma Forall2_weaken {A B} (P Q : A -> B -> Prop) l l' : (forall x y, P x y -> Q x y) -> Forall2 P l l' -> Forall2 Q l l'.
Proof. intros H. induction 1; constructor; auto. Qed.
Definition numbered {T} (j : nat) (l : list T) : list (nat * T) := combine (seq j (length l)) l.
Lemma numbered_app {T} j (l l' : list T) : numbered j (l ++ l') = numbered j l ++ numbered (j + length l) l'.
Proof.
  unfold numbered. revert j; induction l as [|x l IH]; intros j; cbn [app length seq combine]; [rewrite Nat.add_0_r; reflexivity|].
  rewrite IH. f_equal. f_equal. f_equal. f_equal. lia.
Qed.
Lemma numbered_nth {T} j (l : list T) k v : In (k, v) (numbered j l) <-> (j <= k)%nat /\ nth_error l (k - j) = Some v.
Proof.
  revert j; induction l as [|x l IH]; intros j.
  - split; [intros []|]. intros [_ H]. destruct (k - j)%nat; discriminate.
  - change (numbered j (x :: l)) with ((j, x) :: numbered (S j) l). cbn [In]. rewrite (IH (S j)). split.
    + intros [E|[H1 H2]].
      * injection E as -> ->. split; [lia|]. rewrite Nat.sub_diag. reflexivity.
      * split; [lia|]. replace (k - j)%nat with (S (k - S j)) by lia. exact H2.
    + intros [H1 H2]. destruct (Nat.eq_dec j k) as [->|Hne].
      * left. rewrite Nat.sub_diag in H2. injection H2 as ->. reflexivity.
      * right. split; [lia|]. replace (k - j)%nat with (S (k - S j)) in H2 by lia. exact H2.
Qed.
Lemma numbered_NoDup {T} j (l : list T) : NoDup (map fst (numbered j l)).
Proof.
  replace (map fst (numbered j l)) with (seq j (length l)); [apply seq_NoDup|].
  unfold numbered. revert j; induction l as [|x l IH]; intros j; [reflexivity|]. cbn. f_equal. apply IH.
Qed.


Section Conc.
Context {T RE : Type}.
Variable zero : T.
Variable Compile : string -> RE + string.
Variable MatchString : RE -> string -> bool.
Variable look : nat -> T -> StaticTrace.
Notation conc_fn := (conc_fn Compile MatchString look).
Notation conc_categories := (conc_categories zero Compile MatchString look).
Notation conc_search := (conc_search zero Compile MatchString look).
Notation srun := (srun zero).

Definition first_look (p : nat * T) : StaticTrace := look (3 * fst p) (snd p).
Definition second_look (p : nat * T) : StaticTrace := look (3 * fst p + 1) (snd p).
Definition third_look (p : nat * T) : StaticTrace := look (3 * fst p + 2) (snd p).

Variables (limit depth : Z).
Let k := Z.to_nat limit.

Lemma conc_visit f (acc : StaticTrace -> bool) l : (forall t, acc t = snd (Allow Compile MatchString f t)) -> forall j n st stats,
  n = (3 * j)%nat ->
  same_verdict Compile MatchString (st_filter st) f -> (length (st_cat st) <= k)%nat ->
  Observe (st_stats st) (map first_look (numbered j l)) = Ok stats ->
  exists st', visit (conc_fn limit depth) l (Ok (n, st)) = (Ok ((3 * (j + length l))%nat, st'), None) /\
    st_stats st' = stats /\ st_total st' = st_total st + zlen l /\
    st_cat st' = firstn k (st_cat st ++ map (fun p => shown depth (third_look p)) (filter (fun p => acc (second_look p)) (numbered j l))) /\
    st_match st' = st_match st + zlen (st_cat st') - zlen (st_cat st) /\
    same_verdict Compile MatchString (st_filter st') f.
Proof.
  intros Hacc. induction l as [|t l IH]; intros j n st stats Hn Hv Hk Ho.
  - exists st. cbn [visit length]. cbn in Ho. injection Ho as <-. rewrite Nat.add_0_r. subst n. cbn [numbered seq length combine filter map]. rewrite app_nil_r, firstn_all2 by lia.
    change (zlen []) with 0. repeat split; try lia. exact Hv.
  - change (numbered j (t :: l)) with ((j, t) :: numbered (S j) l) in *. cbn [map Observe] in Ho.
    assert (Hl : (n + 3 = 3 * S j)%nat) by lia.
    replace (3 * (j + length (t :: l)))%nat with (3 * (S j + length l))%nat by (cbn [length]; lia).
    assert (F1 : first_look (j, t) = look n t) by (unfold first_look; cbn [fst snd]; rewrite Hn; reflexivity).
    assert (F2 : second_look (j, t) = look (n + 1) t) by (unfold second_look; cbn [fst snd]; rewrite Hn; reflexivity).
    assert (F3 : third_look (j, t) = look (n + 2) t) by (unfold third_look; cbn [fst snd]; rewrite Hn; reflexivity).
    cbn [filter]. rewrite F1 in Ho. rewrite F2.
    destruct (observe1 (st_stats st) (look n t)) as [ss|] eqn:E1; [|discriminate]. cbn [bind] in Ho.
    cbn [visit]. unfold conc_fn at 1. cbn [bind]. cbn [Observe]. rewrite E1. cbn [bind st_cat st_filter st_stats st_total st_match].
    assert (Hz : zlen (t :: l) = 1 + zlen l) by (unfold zlen; cbn [length]; lia).
    destruct (Z.leb_spec limit (zlen (st_cat st))) as [Hfull|Hroom].
    + destruct (IH (S j) (n + 3)%nat (MkSt ss (st_total st + 1) (st_match st) (st_cat st) (st_filter st)) stats Hl Hv Hk Ho) as (st' & E & H1 & H2 & H3 & H4 & H5).
      cbn [st_cat st_filter st_stats st_total st_match] in *. exists st'. split; [exact E|]. split; [exact H1|]. split; [lia|].
      split; [|split; assumption]. rewrite H3. unfold k, zlen in *. rewrite !firstn_app. replace (Z.to_nat limit - length (st_cat st))%nat with 0%nat by lia. reflexivity.
    + destruct (Allow Compile MatchString (st_filter st) (look (n + 1) t)) as [f' allowed] eqn:EA.
      assert (Hall : allowed = acc (look (n + 1) t)) by (rewrite Hacc, <- (Hv (look (n + 1) t)), EA; reflexivity).
      assert (Hv' : same_verdict Compile MatchString f' f).
      { intros tr. rewrite <- (Hv tr). pose proof (Allow_same_verdict Compile MatchString (st_filter st) (look (n + 1) t) tr) as H. rewrite EA in H. exact H. }
      rewrite <- Hall. destruct allowed; cbn [negb].
      * rewrite snapshot_spec. cbn [bind].
        destruct (IH (S j) (n + 3)%nat (MkSt ss (st_total st + 1) (st_match st + 1) (st_cat st ++ [shown depth (look (n + 2) t)]) f') stats Hl Hv') as (st' & E & H1 & H2 & H3 & H4 & H5).
        { cbn [st_cat]. rewrite app_length. cbn [length]. unfold k, zlen in *. lia. }
        { exact Ho. }
        cbn [st_cat st_filter st_stats st_total st_match] in *. exists st'. split; [exact E|]. split; [exact H1|]. split; [lia|].
        split; [|split; [|exact H5]].
        -- rewrite H3. cbn [map]. rewrite <- app_assoc, F3. reflexivity.
        -- rewrite H4. unfold zlen in *. rewrite app_length. cbn [length]. lia.
      * destruct (IH (S j) (n + 3)%nat (MkSt ss (st_total st + 1) (st_match st) (st_cat st) f') stats Hl Hv' Hk Ho) as (st' & E & H1 & H2 & H3 & H4 & H5).
        cbn [st_cat st_filter st_stats st_total st_match] in *. exists st'. split; [exact E|]. split; [exact H1|]. split; [lia|]. auto.
Qed.

Lemma conc_cats before f (acc : StaticTrace -> bool) : (forall t, acc t = snd (Allow Compile MatchString f t)) ->
  forall names i j n s st traces h g, n = (3 * j)%nat ->
  Inv h s g -> proper (h ++ flat_map before (seq i (length names))) -> (forall c, In c names -> g c <> None) ->
  same_verdict Compile MatchString (st_filter st) f ->
  (forall l, exists ss, Observe (st_stats st) l = Ok ss) ->
  exists st' walked idx,
    conc_categories before limit depth names i n s st traces = Ok (st', traces ++ map (fun p => shown depth (third_look p)) idx) /\
    Forall2 (fun c l => exists p q s', flat_map before (seq i (length names)) = p ++ q /\ srun s p = Ok s' /\ category_content s' c = Some (Ok l)) names walked /\
    Observe (st_stats st) (map first_look (numbered j (concat walked))) = Ok (st_stats st') /\
    st_total st' = st_total st + zlen (concat walked) /\
    st_match st' = st_match st + zlen idx /\
    subseq idx (filter (fun p => acc (second_look p)) (numbered j (concat walked))) /\
    ((length idx < k)%nat -> idx = filter (fun p => acc (second_look p)) (numbered j (concat walked))) /\
    same_verdict Compile MatchString (st_filter st') f.
Proof.
  intros Hacc. induction names as [|c names IH]; intros i j n s st traces h g Hn HI Hp Hin Hv Hobs.
  - exists st, [], []. cbn. rewrite app_nil_r. change (zlen []) with 0. repeat split; try lia; try constructor. exact Hv.
  - cbn [length seq flat_map] in *. rewrite app_assoc in Hp.
    destruct (srun_spec zero (before i) h s g HI (proper_prefix _ _ Hp)) as (s1 & g1 & E1 & HI1 & Hk1).
    cbn [M_SearchConc.conc_categories]. rewrite E1. cbn [bind]. pose proof HI1 as (HW1 & _ & _). pose proof HW1 as (_ & _ & HW1c). specialize (HW1c c).
    assert (Hc : g1 c <> None) by (apply Hk1, Hin; now left).
    destruct (map_get c (rbs_bufs s1)) as [r|]; [|destruct (g1 c); [tauto|congruence]].
    destruct (g1 c) as [l|] eqn:Egc; [|tauto]. destruct HW1c as [HR _].
    rewrite (Walk_spec zero _ r l _ HR).
    destruct (Hobs (map first_look (numbered j l))) as (ss & Ess).
    destruct (conc_visit f acc l Hacc j n (MkSt (st_stats st) (st_total st) (st_match st) [] (st_filter st)) ss Hn Hv) as (st1 & Ev & H1 & H2 & H3 & H4 & H5).
    { cbn [st_cat length]. lia. }
    { exact Ess. }
    rewrite Ev. cbn [bind]. cbn [st_cat st_filter st_stats st_total st_match app] in *.
    destruct (IH (S i) (j + length l)%nat (3 * (j + length l))%nat s1 st1 (traces ++ st_cat st1) (h ++ before i) g1 eq_refl HI1 Hp) as (st2 & walked & idx & G1 & G2 & G3 & G4 & G5 & G6 & G7 & G8).
    { intros c' Hc'. apply Hk1, Hin. now right. }
    { exact H5. }
    { intros l'. destruct (Hobs (map first_look (numbered j l) ++ l')) as (ss' & E'). rewrite Observe_app, Ess in E'. cbn [bind] in E'. rewrite H1. eauto. }
    set (F := filter (fun p => acc (second_look p)) (numbered j l)) in *.
    exists st2, (l :: walked), (firstn k F ++ idx). rewrite G1, H3. cbn [concat]. rewrite numbered_app, filter_app, !map_app. fold F.
    rewrite firstn_map. split; [rewrite <- app_assoc; reflexivity|].
    split. { constructor.
      - exists (before i), (flat_map before (seq (S i) (length names))), s1. split; [reflexivity|]. split; [exact E1|]. rewrite (content_W zero s1 g1 c HW1), Egc. reflexivity.
      - eapply Forall2_weaken; [|exact G2]. intros c' l' (p & q & s' & A1 & A2 & A3). exists (before i ++ p), q, s'. rewrite A1, app_assoc. split; [reflexivity|].
        split; [|exact A3]. rewrite srun_app, E1. exact A2. }
    rewrite Observe_app, Ess. cbn [bind]. rewrite <- H1. split; [exact G3|].
    unfold zlen in *. rewrite !app_length. rewrite H3 in H4. rewrite firstn_map, map_length in H4. cbn [length] in H4.
    split; [lia|]. split; [lia|]. split; [apply subseq_app; [apply firstn_subseq|exact G6]|].
    split; [|exact G8]. intros Hlt. rewrite firstn_length in Hlt.
    rewrite (firstn_all2 F) by (rewrite ?firstn_length; lia). rewrite G7 by lia. reflexivity.
Qed.
End Conc.

Lemma Forall2_weaken_in {A B} (P Q : A -> B -> Prop) l l' : (forall x y, In x l -> P x y -> Q x y) -> Forall2 P l l' -> Forall2 Q l l'.
Proof. intros H HF. revert H. induction HF as [|x y l l' Hp HF IH]; intros H; constructor; [apply H; [now left|exact Hp]|]. apply IH. intros a b Ha. apply H. now right. Qed.
Lemma Forall2_in_r {A B} (P : A -> B -> Prop) l l' y : Forall2 P l l' -> In y l' -> exists x, In x l /\ P x y.
Proof. induction 1 as [|a b l l' Hp _ IH]; intros Hi; [easy|]. destruct Hi as [->|Hi]; [exists a; split; [now left|exact Hp]|]. destruct (IH Hi) as (x & H1 & H2). exists x. split; [now right|exact H2]. Qed.
Lemma Forall2_in_l {A B} (P : A -> B -> Prop) l l' x : Forall2 P l l' -> In x l -> exists y, In y l' /\ P x y.
Proof. induction 1 as [|a b l l' Hp _ IH]; intros Hi; [easy|]. destruct Hi as [->|Hi]; [exists b; split; [now left|exact Hp]|]. destruct (IH Hi) as (y & H1 & H2). exists y. split; [now right|exact H2]. Qed.
Lemma concat_NoDup {A B} (P : A -> B -> Prop) names walked :
  NoDup names -> Forall2 (fun c l => NoDup l /\ forall v, In v l -> P c v) names walked ->
  (forall c c' v, P c v -> P c' v -> c = c') -> NoDup (concat walked).
Proof.
  intros Hn H HP. induction H as [|c l names walked [H1 H2] H IH]; [constructor|]. inversion Hn as [|? ? Hc Hn']; subst. specialize (IH Hn').
  cbn [concat]. assert (Hd : forall v, In v l -> ~ In v (concat walked)).
  { intros v Hv Hi. apply in_concat in Hi as (l' & Hl' & Hi). destruct (Forall2_in_r _ _ _ _ H Hl') as (c' & Hc' & [_ Hq]).
    apply Hc. rewrite (HP c c' v); auto. }
  clear -H1 IH Hd. induction l as [|x l IHl]; [exact IH|]. cbn [app]. inversion H1; subst. constructor.
  - intros Hi. apply in_app_or in Hi as [Hi|Hi]; [auto|]. apply (Hd x); [now left|exact Hi].
  - apply IHl; [assumption|]. intros v Hv. apply Hd. now right.
Qed.
Lemma subseq_map {A B} (g : A -> B) l l' : subseq l l' -> subseq (map g l) (map g l').
Proof. induction 1; cbn; constructor; auto. Qed.
Lemma subseq_length {A} (l l' : list A) : subseq l l' -> (length l <= length l')%nat.
Proof. induction 1; cbn [length]; lia. Qed.
Lemma filter_length_le {A} (g : A -> bool) l : (length (filter g l) <= length l)%nat.
Proof. induction l as [|x l IH]; [reflexivity|]. cbn. destruct (g x); cbn [length]; lia. Qed.
Lemma subseq_filter' {A} (g : A -> bool) l : subseq (filter g l) l.
Proof. induction l as [|x l IH]; cbn; [constructor|]. destruct (g x); constructor; auto. Qed.
Lemma highest_map {A B} (above : B -> B -> bool) (g : A -> B) m (l : list A) (sort : list B -> list B) :
  is_sort above sort -> exists l', firstn m (sort (map g l)) = map g l' /\ (exists rest, Permutation (l' ++ rest) l).
Proof.
  intros Hs. destruct (Hs (map g l)) as [Hp _]. apply Permutation_map_inv in Hp as (l3 & E & Hp). exists (firstn m l3). rewrite E, firstn_map. split; [reflexivity|].
  exists (skipn m l3). rewrite firstn_skipn. symmetry. exact Hp.
Qed.

(** What a search does while other goroutines work: [seen] are the traces it visits; it looks
    at the k-th of them three times, and [acc] decides at the second. *)
Theorem C89_search_beside_others :
  forall (T RE : Type) (zero : T) (Compile : string -> RE + string) (MatchString : RE -> string -> bool) (look : nat -> T -> StaticTrace)
         (sort : list StaticTrace -> list StaticTrace) (order : list string -> list string) (source : string)
         (past : list (sop T)) (before : nat -> list (sop T)) (s : rbs T) (req : SearchRequest RE) (acc : StaticTrace -> bool),
    let walks := length (GetAll s order) in
    let depth := req_StackDepth req in
    let limit := effective_limit (req_Limit req) in
    is_sort Less sort -> is_order order ->
    srun zero new_collector_storage past = Ok s -> proper (past ++ meanwhile before walks) ->
    unused (req_Filter req) -> decides Compile MatchString (req_Filter req) acc ->
    exists req' resp (seen : list T) (stats : SearchStats) (chosen : list nat),
      conc_search zero Compile MatchString look before sort order source s req = Ok (req', resp) /\
      (* which traces it visits *)
      NoDup seen /\ resp_TotalCount resp = zlen seen /\
      (forall v, In v seen -> exists s', moment zero s (meanwhile before walks) s' /\ holds s' v) /\
      (forall v, (forall s', moment zero s (meanwhile before walks) s' -> holds s' v) -> In v seen) /\
      (* the statistics are those of one look at each *)
      resp_Stats resp = Some stats /\
      describes (norm_bucketing (req_Bucketing req)) stats (map (fun '(k, v) => look (3 * k)%nat v) (combine (seq 0 (length seen)) seen)) /\
      (* the traces it returns *)
      zlen (resp_Traces resp) <= limit /\ zlen (resp_Traces resp) <= resp_MatchCount resp <= zlen seen /\
      in_order newer (resp_Traces resp) /\
      NoDup chosen /\
      Forall2 (fun k tr => exists v, nth_error seen k = Some v /\ acc (look (3 * k + 1)%nat v) = true /\ tr = shown depth (look (3 * k + 2)%nat v))
              chosen (resp_Traces resp) /\
      (zlen (resp_Traces resp) < limit ->
       resp_MatchCount resp = zlen (resp_Traces resp) /\
       forall k v, nth_error seen k = Some v -> acc (look (3 * k + 1)%nat v) = true -> In k chosen).
Proof.
  intros T RE zero Compile MatchString look sort order source past before s req acc walks depth limit Hsort Hord Hpast Hprop Hun Hdec.
  destruct (srun_spec zero past [] _ _ inv_init) as (s0 & g & E0 & HI & _); [cbn [app]; eapply proper_prefix; exact Hprop|].
  rewrite Hpast in E0. injection E0 as <-. cbn [app] in HI. pose proof HI as (HW & Hcr & Hsub). pose proof HW as (_ & Hnd & HWc).
  assert (Hmem : forall c, In c (GetAll s order) <-> g c <> None).
  { intros c. unfold GetAll. pose proof (Hord (map_keys (rbs_bufs s))) as P. transitivity (In c (map_keys (rbs_bufs s))).
    - split; intros Hi; [eapply Permutation_in; [exact P|exact Hi]|eapply Permutation_in; [symmetry; exact P|exact Hi]].
    - rewrite <- map_get_in. specialize (HWc c). destruct (map_get c (rbs_bufs s)), (g c); split; try tauto; congruence. }
  assert (Hnames : NoDup (GetAll s order)).
  { unfold GetAll. eapply Permutation_NoDup; [symmetry; apply Hord|exact Hnd]. }
  pose proof (effective_limit_bounds (req_Limit req)) as Hlim. fold limit in Hlim.
  assert (Hacc : forall t, acc t = snd (Allow Compile MatchString (req_Filter req) t)) by (apply decides_Allow; assumption).
  destruct (conc_cats zero Compile MatchString look limit depth before (req_Filter req) acc Hacc (GetAll s order) 0 0 0 s
              (MkSt (NewSearchStats (norm_bucketing (req_Bucketing req))) 0 0 [] (fst (FilterNormalize Compile (req_Filter req)))) [] past g eq_refl HI Hprop)
    as (st & walked & idx & E & HF & Hst & Htot & Hmat & Hss & Hfull & _).
  { intros c Hc. apply Hmem. exact Hc. }
  { cbn [st_filter]. apply Normalize_same_verdict. }
  { cbn [st_stats]. intros l. destruct (observe_new (norm_bucketing (req_Bucketing req)) l) as (ss & Es & _). eauto. }
  cbn [st_stats st_total st_match] in *. rewrite !Z.add_0_l in *.
  destruct (highest_map newer (fun p => shown depth (third_look look p)) (Z.to_nat limit) idx sort (is_sort_newer _ Hsort)) as (ch & Ech & rest & Hrest).
  pose proof (is_sort_newer _ Hsort) as Hsn.
  destruct (highest_sort newer (Z.to_nat limit) (map (fun p => shown depth (third_look look p)) idx) sort Hsn) as (Hio & Hlen & _).
  set (seen := concat walked) in *.
  assert (Hin : forall p, In p idx -> nth_error seen (fst p) = Some (snd p) /\ acc (second_look look p) = true).
  { intros [k v] Hp. apply (subseq_In _ _ _ Hss) in Hp. apply filter_In in Hp as [Hp Ha]. apply numbered_nth in Hp as [_ Hp]. rewrite Nat.sub_0_r in Hp. split; [exact Hp|exact Ha]. }
  assert (Hprov : forall c l, In c (GetAll s order) -> (exists p q s', flat_map before (seq 0 (length (GetAll s order))) = p ++ q /\ srun zero s p = Ok s' /\ category_content s' c = Some (Ok l)) ->
            NoDup l /\ forall v, In v l -> In (SAdd c v) (past ++ meanwhile before walks)).
  { intros c l Hc (p & q & s' & A1 & A2 & A3).
    assert (Hpp : proper (past ++ p)) by (unfold meanwhile, walks in Hprop; rewrite A1, app_assoc in Hprop; eapply proper_prefix; exact Hprop).
    destruct (srun_spec zero p past s g HI Hpp) as (s2 & g2 & B1 & (B2 & _ & B3) & _). rewrite A2 in B1. injection B1 as <-.
    rewrite (content_W zero s' g2 c B2) in A3. destruct (g2 c) as [l2|] eqn:Eg2; [|discriminate]. injection A3 as ->. specialize (B3 c l Eg2). split.
    - eapply subseq_NoDup; [exact B3|]. apply NoDup_rev'. eapply subseq_NoDup; [apply put_in_put|]. apply Hpp.
    - intros v Hv. apply (subseq_In _ _ _ B3) in Hv. apply in_rev in Hv. apply put_in_In in Hv. unfold meanwhile, walks. rewrite A1, app_assoc. apply in_or_app. now left. }
  eexists _, _, seen, (st_stats st), (map fst ch). split.
  { unfold conc_search. rewrite Normalize_spec. cbn [bind req_Bucketing req_Filter req_Limit req_StackDepth]. fold limit depth. rewrite E. cbn [bind app].
    rewrite limit_traces_spec by lia. rewrite Ech. reflexivity. }
  cbn [resp_Stats resp_TotalCount resp_MatchCount resp_Traces].
  split. { apply (concat_NoDup (fun c v => In (SAdd c v) (past ++ meanwhile before walks)) (GetAll s order)); [exact Hnames| |].
    - eapply Forall2_weaken_in; [|exact HF]. exact Hprov.
    - intros c c' v Hc Hc'. eapply put_once; [apply Hprop|exact Hc|exact Hc']. }
  split; [exact Htot|].
  split. { intros v Hv. apply in_concat in Hv as (l & Hl & Hv). destruct (Forall2_in_r _ _ _ _ HF Hl) as (c & Hc & p & q & s' & A1 & A2 & A3).
    exists s'. split; [exists p, q; auto|]. exists c, l. auto. }
  split. { intros v Hv.
    assert (Hmom : forall p q s', meanwhile before walks = p ++ q -> srun zero s p = Ok s' -> exists c l, category_content s' c = Some (Ok l) /\ In v l /\ In (SAdd c v) (past ++ meanwhile before walks) /\ (p = [] -> In c (GetAll s order))).
    { intros p q s' A1 A2. destruct (Hv s') as (c & l & Hc & Hl); [exists p, q; auto|]. exists c, l. split; [exact Hc|]. split; [exact Hl|].
      assert (Hpp : proper (past ++ p)) by (rewrite A1, app_assoc in Hprop; eapply proper_prefix; exact Hprop).
      destruct (srun_spec zero p past s g HI Hpp) as (s2 & g2 & B1 & (B2 & _ & B3) & _). rewrite A2 in B1. injection B1 as <-.
      rewrite (content_W zero s' g2 c B2) in Hc. destruct (g2 c) as [l2|] eqn:Eg2; [|discriminate]. injection Hc as ->. specialize (B3 c l Eg2). split.
      - apply (subseq_In _ _ _ B3) in Hl. apply in_rev in Hl. apply put_in_In in Hl. rewrite A1, app_assoc. apply in_or_app. now left.
      - intros ->. cbn in A2. injection A2 as <-. apply Hmem. assert (Hx : category_content s c = Some (Ok l)) by (rewrite (content_W zero s g2 c B2), Eg2; reflexivity).
        rewrite (content_W zero s g c HW) in Hx. intros Hg. rewrite Hg in Hx. discriminate. }
    destruct (Hmom [] _ s eq_refl eq_refl) as (c & l0 & _ & _ & Hadd & Hname). specialize (Hname eq_refl).
    destruct (Forall2_in_l _ _ _ _ HF Hname) as (l & Hl & p & q & s' & A1 & A2 & A3).
    destruct (Hmom p q s' A1 A2) as (c' & l' & B1 & B2 & B3 & _).
    assert (c = c') as <- by (eapply put_once; [apply Hprop|exact Hadd|exact B3]).
    rewrite A3 in B1. injection B1 as <-. apply in_concat. exists l. auto. }
  split; [reflexivity|].
  split. { destruct (observe_new (norm_bucketing (req_Bucketing req)) (map (first_look look) (numbered 0 seen))) as (ss & Es & Hr & _).
    rewrite Hst in Es. injection Es as <-. apply describes_represents.
    replace (map (fun '(k, v) => look (3 * k)%nat v) (combine (seq 0 (length seen)) seen)) with (map (first_look look) (numbered 0 seen)); [exact Hr|].
    apply map_ext. intros [k v]. reflexivity. }
  assert (Hlc : length ch = Nat.min (Z.to_nat limit) (length idx)) by (rewrite Ech, !map_length in Hlen; exact Hlen).
  assert (Hli : (length idx <= length seen)%nat).
  { pose proof (subseq_length _ _ Hss) as L1. pose proof (filter_length_le (fun p => acc (second_look look p)) (numbered 0 seen)) as L2.
    unfold numbered in L1, L2 at 2. rewrite combine_length, seq_length, Nat.min_id in L2. unfold numbered in L2. lia. }
  unfold zlen in *. rewrite map_length.
  split; [lia|]. split; [lia|]. split; [rewrite <- Ech; exact Hio|].
  assert (Hni : NoDup (map fst idx)).
  { eapply subseq_NoDup; [apply subseq_map; eapply subseq_trans; [exact Hss|apply subseq_filter']|]. apply numbered_NoDup. }
  split. { apply (Permutation_map fst) in Hrest. rewrite map_app in Hrest. eapply NoDup_app_l. eapply Permutation_NoDup; [symmetry; exact Hrest|exact Hni]. }
  assert (Hchi : forall p, In p ch -> In p idx) by (intros p Hp; eapply Permutation_in; [exact Hrest|apply in_or_app; now left]).
  split. { clear -Hchi Hin. induction ch as [|[k v] ch IH]; constructor.
    - destruct (Hin (k, v) (Hchi _ (or_introl eq_refl))) as [H1 H2]. exists v. auto.
    - apply IH. intros p Hp. apply Hchi. now right. }
  intros Hlt. split; [lia|]. intros k v Hk Ha.
  assert (Hr0 : rest = []) by (apply Permutation_length in Hrest; rewrite app_length in Hrest; destruct rest; [reflexivity|cbn [length] in Hrest; lia]).
  rewrite Hr0, app_nil_r in Hrest. specialize (Hfull ltac:(lia)).
  apply (in_map fst ch (k, v)). eapply Permutation_in; [symmetry; exact Hrest|]. rewrite Hfull. apply filter_In. split; [|exact Ha].
  apply numbered_nth. split; [lia|]. rewrite Nat.sub_0_r. exact Hk.
Qed.
Print Assumptions C89_search_beside_others.

(** ** With nobody else around it is the search of C22 to C24 *)
Section Alone.
Context {T RE : Type}.
Variable zero : T.
Variable Compile : string -> RE + string.
Variable MatchString : RE -> string -> bool.
Variable view : T -> StaticTrace.

Definition same_st (x : res (nat * search_st (RE := RE))) (y : res search_st) : Prop :=
  match x, y with Panic, Panic => True | Ok (_, a), Ok b => a = b | _, _ => False end.
Lemma fn_same limit depth x y t : same_st x y ->
  same_st (fst (conc_fn Compile MatchString (fun _ => view) limit depth x t)) (fst (search_fn Compile MatchString view limit depth y t)).
Proof.
  destruct x as [[n a]|], y as [b|]; cbn [same_st]; try tauto. intros ->. unfold conc_fn, search_fn. cbn [fst bind].
  destruct (Observe (st_stats b) [view t]) as [ss|]; [|exact Logic.I]. cbn [bind st_cat st_filter st_stats st_total st_match].
  destruct (limit <=? zlen (st_cat b)); [reflexivity|]. destruct (Allow Compile MatchString (st_filter b) (view t)) as [f allowed].
  destruct allowed; cbn [negb]; [|reflexivity]. destruct (TrimStacks (NewSearchTrace (view t)) depth); [reflexivity|exact Logic.I].
Qed.
Lemma visit_same limit depth l : forall x y, same_st x y ->
  same_st (fst (visit (conc_fn Compile MatchString (fun _ => view) limit depth) l x)) (fst (visit (search_fn Compile MatchString view limit depth) l y)) /\
  snd (visit (conc_fn Compile MatchString (fun _ => view) limit depth) l x) = None /\ snd (visit (search_fn Compile MatchString view limit depth) l y) = None.
Proof.
  induction l as [|t l IH]; intros x y H; [cbn; auto|]. cbn [visit].
  pose proof (fn_same limit depth x y t H) as H'.
  destruct (conc_fn Compile MatchString (fun _ => view) limit depth x t) as [x' ox] eqn:E1. destruct (search_fn Compile MatchString view limit depth y t) as [y' oy] eqn:E2.
  assert (ox = None) as -> by (unfold conc_fn in E1; injection E1 as _ <-; reflexivity).
  assert (oy = None) as -> by (unfold search_fn in E2; injection E2 as _ <-; reflexivity).
  cbn [fst] in H'. apply IH. exact H'.
Qed.
Lemma cats_same limit depth s g names : WRep s g -> forall k n st traces,
  conc_categories zero Compile MatchString (fun _ => view) (fun _ => []) limit depth names k n s st traces =
  search_categories Compile MatchString view limit depth names s st traces.
Proof.
  intros (_ & _ & HW). induction names as [|c names IH]; intros k n st traces; [reflexivity|]. cbn [conc_categories search_categories srun bind].
  specialize (HW c). destruct (map_get c (rbs_bufs s)) as [r|]; [|reflexivity]. destruct (g c) as [l|]; [|tauto]. destruct HW as [HR _].
  rewrite !(Walk_spec zero _ r l _ HR).
  destruct (visit_same limit depth l (Ok (n, MkSt (st_stats st) (st_total st) (st_match st) [] (st_filter st))) (Ok (MkSt (st_stats st) (st_total st) (st_match st) [] (st_filter st))) eq_refl) as (H1 & H2 & H3).
  destruct (visit (conc_fn _ _ _ _ _) l _) as [x ox], (visit (search_fn _ _ _ _ _) l _) as [y oy]. cbn [fst snd] in *. subst ox oy. cbn [bind].
  destruct x as [[n' a]|], y as [b|]; cbn [same_st] in H1; try contradiction; [|reflexivity]. subst b. cbn [bind]. apply IH.
Qed.
End Alone.

Theorem C89_alone :
  forall (T RE : Type) (zero : T) (Compile : string -> RE + string) (MatchString : RE -> string -> bool) (view : T -> StaticTrace)
         sort order source (past : list (sop T)) (s : rbs T) (req : SearchRequest RE),
    srun zero new_collector_storage past = Ok s -> proper past ->
    conc_search zero Compile MatchString (fun _ => view) (fun _ => []) sort order source s req =
    Search Compile MatchString view sort order source s req.
Proof.
  intros T RE zero Compile MatchString view sort order source past s req Hs Hp.
  destruct (srun_spec zero past [] _ _ inv_init Hp) as (s0 & g & E0 & (HW & _) & _). rewrite Hs in E0. injection E0 as <-.
  unfold conc_search, Search. destruct (Normalize Compile req) as [[req' errs]|]; [|reflexivity]. cbn [bind].
  rewrite (cats_same zero Compile MatchString view _ _ s g _ HW). reflexivity.
Qed.
Print Assumptions C89_alone.

(** ** The result is not what the collector held at any one moment *)
Definition conc_trace (id category : string) (started : Z) : StaticTrace := MkStatic "src" id category started 5 "" true false [].
Definition conc_a : StaticTrace := conc_trace "A" "one" 1.
Definition conc_b : StaticTrace := conc_trace "B" "two" 2.
Definition conc_past : list (sop StaticTrace) := [SCreate "one"; SCreate "two"].
(** Both traces are put after category one has been walked and before category two is. *)
Definition conc_before (k : nat) : list (sop StaticTrace) :=
  match k with 1%nat => [SAdd "one" conc_a; SAdd "two" conc_b] | _ => [] end.
Definition conc_run (past : list (sop StaticTrace)) (before : nat -> list (sop StaticTrace)) : res SearchResponse :=
  s <- srun conc_a new_collector_storage past ;;
  '(_, r) <- conc_search conc_a demo_compile demo_match (fun _ tr => tr) before (isort Less) (fun l => l) "src" s (MkReq [] (set_query no_filter "") 10 0) ;;
  Ok r.

Lemma conc_proper : proper (conc_past ++ meanwhile conc_before 2).
Proof.
  split.
  - intros p o q E. cbn in E. destruct p as [|o1 p]; [injection E as <- _; exact Logic.I|]. cbn [app] in E. injection E as <- E.
    destruct p as [|o2 p]; [injection E as <- _; exact Logic.I|]. cbn [app] in E. injection E as <- E.
    destruct p as [|o3 p]; [injection E as <- _; now left|]. cbn [app] in E. injection E as <- E.
    destruct p as [|o4 p]; [injection E as <- _; right; now left|]. destruct p; discriminate.
  - cbn. constructor; [intros [E|[]]; discriminate|]. constructor; [intros []|constructor].
Qed.

Theorem C89_no_single_moment_refuted :
  exists (past : list (sop StaticTrace)) before s resp,
    srun conc_a new_collector_storage past = Ok s /\
    proper (past ++ meanwhile before (length (GetAll s (fun l => l)))) /\
    conc_run past before = Ok resp /\
    (* whenever the collector holds B, it holds A *)
    (forall s', moment conc_a s (meanwhile before (length (GetAll s (fun l => l)))) s' -> holds s' conc_b -> holds s' conc_a) /\
    (* but the search returns B without A, although both match *)
    resp_Traces resp = [conc_b] /\ resp_TotalCount resp = 1 /\ snd (Allow demo_compile demo_match (set_query no_filter "") conc_a) = true.
Proof.
  exists conc_past, conc_before. eexists _, _. split; [vm_compute; reflexivity|]. split; [exact conc_proper|]. split; [vm_compute; reflexivity|].
  split; [|vm_compute; auto]. intros s' (p & q & E & Hs) (c & l & Hc & Hl).
  cbn in E. destruct p as [|o1 p].
  - exfalso. cbn in Hs. injection Hs as <-.
    destruct (srun_spec conc_a conc_past [] _ _ inv_init (proper_prefix _ _ conc_proper)) as (s2 & g & B1 & (B2 & _ & B3) & _).
    assert (Es : srun conc_a new_collector_storage conc_past = Ok _) by (vm_compute; reflexivity).
    rewrite Es in B1. injection B1 as <-. rewrite (content_W conc_a _ g c B2) in Hc. destruct (g c) as [l'|] eqn:Eg; [|discriminate]. injection Hc as ->.
    apply (subseq_In _ _ _ (B3 c l Eg)) in Hl. apply in_rev in Hl. apply put_in_In in Hl. destruct Hl as [Hl|[Hl|[]]]; discriminate.
  - cbn [app] in E. injection E as <- E. destruct p as [|o2 p].
    + vm_compute in Hs. injection Hs as <-. exists "one", [conc_a]. split; [vm_compute; reflexivity|now left].
    + cbn [app] in E. injection E as <- E. destruct p as [|o3 p]; [|discriminate].
      vm_compute in Hs. injection Hs as <-. exists "one", [conc_a]. split; [vm_compute; reflexivity|now left].
Qed.
Print Assumptions C89_no_single_moment_refuted.

(** The hypotheses of the theorem hold of this run; so C89_search_beside_others applies. *)
Example C89_instance :
  is_sort Less (isort Less) /\ is_order (fun l => l) /\
  (exists s, srun conc_a new_collector_storage conc_past = Ok s /\ length (GetAll s (fun l => l)) = 2%nat) /\
  proper (conc_past ++ meanwhile conc_before 2) /\
  @unused string (set_query no_filter "") /\
  decides demo_compile demo_match (set_query no_filter "") (fun tr => snd (Allow demo_compile demo_match (set_query no_filter "") tr)) /\
  (* a trace that is there throughout is found whatever else happens *)
  (exists r, conc_run (conc_past ++ [SAdd "one" (conc_trace "C" "one" 3)]) conc_before = Ok r /\ map TraceID (resp_Traces r) = ["C"; "B"]).
Proof.
  split; [exact (proj1 C25_instance)|]. split; [intros l; reflexivity|]. split; [eexists; split; vm_compute; reflexivity|].
  split; [exact conc_proper|]. split; [reflexivity|]. split; [|eexists; split; vm_compute; reflexivity].
  intros tr. apply Allow_unused. reflexivity.
Qed.

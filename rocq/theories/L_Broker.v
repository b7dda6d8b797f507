(** Lemmas about the broker: seen from one channel it is a small machine of its own. *)
From Verif Require Import Go M_Types M_Filter S_Filter L_Filter M_Broker S_Broker S_TraceView.
From Coq Require Import ZifyBool.
Open Scope list_scope.
Open Scope Z_scope.

Lemma map_get_delete {V} k k' (m : list (string * V)) : NoDup (map_keys m) ->
  map_get k (map_delete k' m) = if String.eqb k k' then None else map_get k m.
Proof.
  induction m as [|[k0 v] m IH]; cbn [map_delete map_keys map fst]; intros H.
  - destruct (String.eqb k k'); reflexivity.
  - apply NoDup_cons_iff in H as [Hn H]. destruct (String.eqb_spec k' k0) as [->|Hne].
    + cbn [map_get]. destruct (String.eqb_spec k k0) as [->|]; [|reflexivity].
      destruct (map_get k0 m) eqn:E; [|reflexivity]. exfalso. apply Hn. apply map_get_in. congruence.
    + cbn [map_get]. destruct (String.eqb_spec k k0) as [->|].
      * destruct (String.eqb_spec k0 k') as [->|]; [congruence|reflexivity].
      * apply IH. exact H.
Qed.
Lemma map_keys_delete_incl {V} k (m : list (string * V)) x : In x (map_keys (map_delete k m)) -> In x (map_keys m).
Proof.
  induction m as [|[k0 v] m IH]; cbn [map_delete map_keys map fst]; [tauto|].
  destruct (String.eqb k k0); cbn [map fst In]; [auto|]. intros [->|H]; [left; reflexivity|right; apply IH; exact H].
Qed.
Lemma map_keys_delete_NoDup {V} k (m : list (string * V)) : NoDup (map_keys m) -> NoDup (map_keys (map_delete k m)).
Proof.
  induction m as [|[k0 v] m IH]; cbn [map_delete map_keys map fst]; intros H; [exact H|].
  apply NoDup_cons_iff in H as [Hn H]. destruct (String.eqb k k0); [exact H|]. cbn [map fst]. constructor; [|apply IH; exact H].
  intros Hi. apply Hn. eapply map_keys_delete_incl. exact Hi.
Qed.
Lemma remove_one_In ch l x : NoDup l -> (In x (remove_one ch l) <-> In x l /\ x <> ch).
Proof.
  induction l as [|y l IH]; cbn [remove_one]; intros H; [tauto|]. apply NoDup_cons_iff in H as [Hn H].
  destruct (String.eqb_spec ch y) as [->|Hne].
  - split; [intros Hx; split; [right; exact Hx|intros ->; contradiction]|intros [[->|Hx] Hd]; [congruence|exact Hx]].
  - cbn [In]. rewrite (IH H). split; [intros [->|[? ?]]; auto|intros [[->|?] ?]; auto].
Qed.
Lemma remove_one_NoDup ch l : NoDup l -> NoDup (remove_one ch l).
Proof.
  induction l as [|y l IH]; cbn [remove_one]; intros H; [exact H|]. pose proof H as H'. apply NoDup_cons_iff in H as [Hn H].
  destruct (String.eqb ch y); [exact H|]. constructor; [|apply IH; exact H]. rewrite remove_one_In by exact H. tauto.
Qed.
Lemma existsb_eqb_In ch l : existsb (String.eqb ch) l = true <-> In ch l.
Proof.
  rewrite existsb_exists. split; [intros (x & Hx & E); apply String.eqb_eq in E; subst; exact Hx|].
  intros H. exists ch. split; [exact H|apply String.eqb_refl].
Qed.

Section Lemmas.
Context {RE : Type}.
Variable Compile : string -> RE + string.
Variable MatchString : RE -> string -> bool.
Notation bop := (bop RE).
Notation bstate := (bstate RE).
Notation subscriber := (subscriber RE).
Notation b_step := (b_step Compile MatchString).
Notation b_run := (b_run Compile MatchString).
Notation matches := (matches Compile MatchString).
Notation wanted_from := (wanted_from Compile MatchString).
Notation wanted := (wanted Compile MatchString).

(** ** One channel *)
Definition view1 : Type := option subscriber * chan.
Definition view_of (ch : string) (s : bstate) : view1 := (map_get ch (b_subs s), b_chans s ch).
Definition deliver (v : view1) (str : StaticTrace) : view1 :=
  match fst v with
  | None => v
  | Some sub =>
      let '(f, allowed) := Allow Compile MatchString (sub_filter sub) str in
      let st := sub_stats sub in
      if allowed then
        match try_send (snd v) str with
        | Some c => (Some (MkSub f (MkStreamStats (Skips st) (Sends st + 1) (Drops st))), c)
        | None => (Some (MkSub f (MkStreamStats (Skips st) (Sends st) (Drops st + 1))), snd v)
        end
      else (Some (MkSub f (MkStreamStats (Skips st + 1) (Sends st) (Drops st))), snd v)
  end.
Definition step1 (v : view1) (o : own) : view1 :=
  match o with
  | OwnStream f => match fst v with Some _ => v | None => (Some (MkSub f zero_stats), snd v) end
  | OwnDone => (None, snd v)
  | OwnPublish str => deliver v str
  | OwnReceive => (fst v, receive (snd v))
  | OwnGiveUp => (fst v, give_up (snd v))
  end.

Definition inv (s : bstate) : Prop :=
  NoDup (map_keys (b_subs s)) /\ NoDup (b_blocked s) /\ forall ch, In ch (b_blocked s) <-> map_get ch (b_subs s) <> None.

Lemma publish_loop_spec str : forall names s, NoDup names -> (forall n, In n names -> map_get n (b_subs s) <> None) ->
  exists s', publish_loop Compile MatchString names str s = Ok s' /\ map_keys (b_subs s') = map_keys (b_subs s) /\ b_blocked s' = b_blocked s /\
    forall ch, view_of ch s' = if existsb (String.eqb ch) names then deliver (view_of ch s) str else view_of ch s.
Proof.
  induction names as [|n names IH]; intros s Hnd Hin; [exists s; repeat split; reflexivity|].
  apply NoDup_cons_iff in Hnd as [Hn Hnd]. cbn [publish_loop existsb].
  destruct (map_get n (b_subs s)) as [sub|] eqn:E; [|exfalso; apply (Hin n (or_introl eq_refl) E)].
  assert (K : forall sub' chans', (forall ch, ch <> n -> chans' ch = b_chans s ch) ->
    deliver (map_get n (b_subs s), b_chans s n) str = (Some sub', chans' n) ->
    exists s', publish_loop Compile MatchString names str (MkB (map_set n sub' (b_subs s)) chans' (b_blocked s)) = Ok s' /\
      map_keys (b_subs s') = map_keys (b_subs s) /\ b_blocked s' = b_blocked s /\
      forall ch, view_of ch s' = if String.eqb ch n || existsb (String.eqb ch) names then deliver (view_of ch s) str else view_of ch s).
  { intros sub' chans' Hc Hd. destruct (IH (MkB (map_set n sub' (b_subs s)) chans' (b_blocked s)) Hnd) as (s' & E1 & E2 & E3 & E4).
    { intros m Hm. cbn [b_subs]. rewrite map_get_set. destruct (String.eqb m n); [discriminate|]. apply Hin. right. exact Hm. }
    exists s'. split; [exact E1|]. cbn [b_subs b_blocked] in E2, E3. rewrite map_keys_set, E in E2. split; [exact E2|]. split; [exact E3|].
    intros ch. rewrite E4. unfold view_of at 1 2. cbn [b_subs b_chans]. rewrite map_get_set.
    destruct (String.eqb_spec ch n) as [->|Hne]; cbn [orb].
    - assert (existsb (String.eqb n) names = false) as -> by (destruct (existsb (String.eqb n) names) eqn:Ex; [apply existsb_eqb_In in Ex; contradiction|reflexivity]).
      symmetry. exact Hd.
    - rewrite (Hc ch Hne). reflexivity. }
  rewrite E in K. unfold deliver at 1 in K. cbn [fst snd] in K.
  destruct (Allow Compile MatchString (sub_filter sub) str) as [f allowed]. destruct allowed; cbn [negb].
  - destruct (try_send (b_chans s n) str) as [c|] eqn:Es; rewrite ?Es in K.
    + apply K; [|unfold set_chan; rewrite String.eqb_refl; reflexivity].
      intros ch Hne. unfold set_chan. destruct (String.eqb_spec ch n); [contradiction|reflexivity].
    + apply K; reflexivity.
  - apply K; reflexivity.
Qed.

Lemma Publish_spec order str s : is_order order -> inv s ->
  exists s', Publish Compile MatchString order (Ok str) s = Ok s' /\ inv s' /\ forall ch, view_of ch s' = deliver (view_of ch s) str.
Proof.
  intros Ho (H1 & H2 & H3). unfold Publish. destruct (b_subs s) as [|p subs] eqn:Es.
  - cbn. exists s. split; [reflexivity|]. split; [unfold inv; rewrite Es; auto|]. intros ch. unfold deliver, view_of. rewrite Es. reflexivity.
  - replace (zlen (p :: subs) <=? 0) with false by (unfold zlen; cbn [length]; lia). rewrite <- Es in *. cbn [bind].
    destruct (publish_loop_spec str (order (map_keys (b_subs s))) s) as (s' & E1 & E2 & E3 & E4).
    { eapply Permutation_NoDup; [symmetry; apply Ho|exact H1]. }
    { intros n Hn. apply map_get_in. eapply Permutation_in; [apply Ho|exact Hn]. }
    exists s'. split; [exact E1|].
    assert (E5 : forall ch, view_of ch s' = deliver (view_of ch s) str).
    { intros ch. rewrite E4. destruct (existsb (String.eqb ch) (order (map_keys (b_subs s)))) eqn:Ex; [reflexivity|].
      unfold deliver, view_of. cbn [fst]. destruct (map_get ch (b_subs s)) eqn:Em; [|reflexivity].
      exfalso. assert (In ch (order (map_keys (b_subs s)))) as Hi.
      { eapply Permutation_in; [symmetry; apply Ho|]. apply map_get_in. congruence. }
      apply existsb_eqb_In in Hi. congruence. }
    split; [|exact E5]. unfold inv. rewrite E2, E3. split; [exact H1|]. split; [exact H2|]. intros ch. rewrite H3.
    specialize (E5 ch). unfold view_of, deliver in E5. cbn [fst snd] in E5.
    destruct (map_get ch (b_subs s)) as [sub|].
    + destruct (Allow Compile MatchString (sub_filter sub) str) as [f []]; [destruct (try_send (b_chans s ch) str)|]; injection E5 as E5 _; rewrite E5; split; discriminate.
    + injection E5 as E5 _. rewrite E5. tauto.
Qed.

Lemma step_spec s o : valid_bop o -> inv s ->
  inv (fst (b_step s o)) /\ forall ch, view_of ch (fst (b_step s o)) = fold_left step1 (own1 ch o) (view_of ch s).
Proof.
  intros Hv Hi. pose proof Hi as (H1 & H2 & H3). destruct o as [c f|c|order str|c|c|c]; cbn [M_Broker.b_step own1].
  - unfold Stream_begin. destruct (map_get c (b_subs s)) eqn:E; cbn [fst].
    + split; [exact Hi|]. intros ch. destruct (String.eqb_spec c ch) as [->|]; [|reflexivity].
      cbn [fold_left step1]. unfold view_of. cbn [fst]. rewrite E. reflexivity.
    + split.
      * unfold inv. cbn [b_subs b_blocked]. split; [apply map_keys_set_NoDup; exact H1|]. split.
        -- constructor; [|exact H2]. rewrite H3. congruence.
        -- intros ch. rewrite map_get_set. cbn [In]. rewrite H3. destruct (String.eqb_spec ch c) as [->|Hne].
           ++ split; [discriminate|left; reflexivity].
           ++ split; [intros [->|H]; [congruence|exact H]|right; assumption].
      * intros ch. unfold view_of at 1. cbn [b_subs b_chans]. rewrite map_get_set. rewrite String.eqb_sym.
        destruct (String.eqb_spec c ch) as [->|]; [|reflexivity]. cbn [fold_left step1]. unfold view_of. cbn [fst snd]. rewrite E. reflexivity.
  - destruct (existsb (String.eqb c) (b_blocked s)) eqn:Eb.
    + apply existsb_eqb_In in Eb. unfold Stream_end. cbn [b_subs b_chans b_blocked]. destruct (map_get c (b_subs s)) as [sub|] eqn:E; [|apply H3 in Eb; contradiction].
      cbn [fst]. split.
      * unfold inv. cbn [b_subs b_blocked]. split; [apply map_keys_delete_NoDup; exact H1|]. split; [apply remove_one_NoDup; exact H2|].
        intros ch. rewrite remove_one_In by exact H2. rewrite map_get_delete by exact H1. rewrite H3.
        destruct (String.eqb_spec ch c) as [->|]; [split; [intros [_ ?]; congruence|congruence]|tauto].
      * intros ch. unfold view_of at 1. cbn [b_subs b_chans]. rewrite map_get_delete by exact H1. rewrite String.eqb_sym.
        destruct (String.eqb_spec c ch) as [->|]; reflexivity.
    + cbn [fst]. split; [exact Hi|]. intros ch. destruct (String.eqb_spec c ch) as [->|]; [|reflexivity].
      cbn [fold_left step1]. unfold view_of. cbn [snd]. destruct (map_get ch (b_subs s)) eqn:E; [|reflexivity].
      assert (In ch (b_blocked s)) as Hin by (apply H3; congruence). apply existsb_eqb_In in Hin. congruence.
  - destruct str as [str|].
    + destruct (Publish_spec order str s Hv Hi) as (s' & -> & Hi' & E). cbn [fst]. split; [exact Hi'|]. intros ch. rewrite E. reflexivity.
    + unfold Publish. destruct (zlen (b_subs s) <=? 0); cbn [fst bind]; split; try exact Hi; reflexivity.
  - cbn [fst]. split; [exact Hi|]. reflexivity.
  - cbn [fst]. split; [exact Hi|]. intros ch. unfold view_of at 1. cbn [b_subs b_chans]. unfold set_chan. rewrite String.eqb_sym.
    destruct (String.eqb_spec c ch) as [->|]; reflexivity.
  - cbn [fst]. split; [exact Hi|]. intros ch. unfold view_of at 1. cbn [b_subs b_chans]. unfold set_chan. rewrite String.eqb_sym.
    destruct (String.eqb_spec c ch) as [->|]; reflexivity.
Qed.

Lemma inv_init caps : inv (b_init caps).
Proof. unfold inv, b_init. cbn. repeat split; try constructor; [intros []|intros H; contradiction]. Qed.
Lemma run_snoc caps h o : b_run caps (h ++ [o]) = fst (b_step (b_run caps h) o).
Proof. unfold M_Broker.b_run. rewrite fold_left_app. reflexivity. Qed.
Lemma run_inv caps h : Forall valid_bop h -> inv (b_run caps h).
Proof.
  induction h as [|o h IH] using rev_ind; intros H; [apply inv_init|]. apply Forall_app in H as [H Ho]. inversion Ho; subst.
  rewrite run_snoc. apply step_spec; auto.
Qed.
Lemma concerning_app ch (h1 h2 : list bop) : concerning ch (h1 ++ h2) = concerning ch h1 ++ concerning ch h2.
Proof. unfold concerning. rewrite flat_map_app. reflexivity. Qed.
Lemma run_view caps h ch : Forall valid_bop h ->
  view_of ch (b_run caps h) = fold_left step1 (concerning ch h) (None, make_chan (caps ch)).
Proof.
  induction h as [|o h IH] using rev_ind; intros H; [reflexivity|]. pose proof H as H'. apply Forall_app in H as [H Ho]. inversion Ho; subst.
  rewrite run_snoc, concerning_app, fold_left_app, <- (IH H). unfold concerning. cbn [flat_map]. rewrite app_nil_r. apply step_spec; [assumption|apply run_inv; exact H].
Qed.

(** ** The channel machine against the specification *)
(** a filter that has been used decides as it did at first *)
Definition like (f g : Filter RE) : Prop := same_fields f g /\ query_re Compile f = query_re Compile g.
Lemma like_matches f g tr : like f g -> matches f tr = matches g tr.
Proof. intros [H1 H2]. unfold S_Broker.matches. apply Allow_bool; assumption. Qed.
Lemma like_used f g tr : like f g -> like (fst (Allow Compile MatchString f tr)) g.
Proof.
  intros [H1 H2]. destruct (uses_keep Compile MatchString [UAllow tr] f) as [K1 K2]. cbn in K1, K2. split.
  - eapply same_fields_trans; eassumption.
  - rewrite K2. exact H2.
Qed.

Definition sub_ok (cur : option (Filter RE)) (v : view1) : Prop :=
  match cur, fst v with
  | None, None => True
  | Some f, Some sub => like (sub_filter sub) f
  | _, _ => False
  end.
Lemma sub_ok_step ch cur v o : sub_ok cur v -> sub_ok (sub_after ch cur o) (fold_left step1 (own1 ch o) v).
Proof.
  intros H. destruct o as [c f|c|order [str|]|c|c|c]; cbn [sub_after own1].
  - destruct (String.eqb c ch); [|exact H]. cbn [fold_left step1]. destruct v as [[sub|] c']; cbn [fst snd]; destruct cur; try contradiction; try exact H.
    unfold sub_ok. cbn. split; [apply same_fields_refl|reflexivity].
  - destruct (String.eqb c ch); [|exact H]. exact I.
  - cbn [fold_left step1]. unfold deliver. destruct v as [[sub|] c]; cbn [fst snd]; [|exact H]. destruct cur as [f|]; [|contradiction].
    unfold sub_ok in H. cbn [fst] in H. pose proof (like_used _ _ str H) as H'.
    destruct (Allow Compile MatchString (sub_filter sub) str) as [f' []]; [destruct (try_send c str)|]; exact H'.
  - exact H.
  - exact H.
  - destruct (String.eqb c ch); [|exact H]. exact H.
  - destruct (String.eqb c ch); [|exact H]. exact H.
Qed.

Lemma delivered_receive c : delivered (receive c) = delivered c.
Proof. unfold delivered, receive. destruct (ch_buffer c) as [|x l]; cbn; [reflexivity|]. rewrite <- app_assoc. reflexivity. Qed.
Lemma delivered_give_up c : delivered (give_up c) = delivered c.
Proof. unfold delivered, give_up. destruct (0 <? ch_waiting c); reflexivity. Qed.
(** nobody waits while there is something to take *)
Definition chan_ok (c : chan) : Prop := 0 <= ch_waiting c /\ (0 < ch_waiting c -> ch_buffer c = []).
Lemma chan_ok_receive c : chan_ok c -> chan_ok (receive c).
Proof. unfold chan_ok, receive. destruct (ch_buffer c) as [|x l]; cbn; intros [H1 H2]; split; try lia; auto. intros H. specialize (H2 H). discriminate. Qed.
Lemma chan_ok_give_up c : chan_ok c -> chan_ok (give_up c).
Proof. unfold chan_ok, give_up. destruct (Z.ltb_spec 0 (ch_waiting c)); cbn; intros [H1 H2]; split; try lia; auto. Qed.
Lemma try_send_ok c str c' : chan_ok c -> try_send c str = Some c' -> chan_ok c' /\ delivered c' = delivered c ++ [str].
Proof.
  unfold chan_ok, try_send, delivered. intros [H1 H2]. destruct (0 <? ch_waiting c) eqn:E.
  - intros [= <-]. cbn. rewrite H2 by lia. rewrite !app_nil_r. split; [split; [lia|reflexivity]|reflexivity].
  - destruct (zlen (ch_buffer c) <? ch_cap c); [|discriminate]. intros [= <-]. cbn. rewrite <- app_assoc. split; [split; lia|reflexivity].
Qed.
Definition view_ok (v : view1) : Prop := chan_ok (snd v).
Lemma view_ok_step v o : view_ok v -> view_ok (step1 v o).
Proof.
  unfold view_ok. destruct v as [sub c]. intros H. destruct o as [f| |str| |]; cbn [step1 fst snd]; auto.
  - destruct sub; exact H.
  - unfold deliver. cbn [fst snd]. destruct sub as [sub|]; [|exact H].
    destruct (Allow Compile MatchString (sub_filter sub) str) as [f' []]; [|exact H].
    destruct (try_send c str) as [c'|] eqn:E; [|exact H]. apply (try_send_ok _ _ _ H E).
  - apply chan_ok_receive. exact H.
  - apply chan_ok_give_up. exact H.
Qed.
Lemma view_ok_steps os : forall v, view_ok v -> view_ok (fold_left step1 os v).
Proof. induction os as [|o os IH]; intros v H; [exact H|]. apply IH, view_ok_step, H. Qed.

(** deliver, described *)
Lemma deliver_spec f sub c str : like (sub_filter sub) f -> chan_ok c ->
  exists sub' c', deliver (Some sub, c) str = (Some sub', c') /\
  ((matches f str = false /\ c' = c /\ sub_stats sub' = MkStreamStats (Skips (sub_stats sub) + 1) (Sends (sub_stats sub)) (Drops (sub_stats sub))) \/
   (matches f str = true /\ try_send c str = Some c' /\ delivered c' = delivered c ++ [str] /\
      sub_stats sub' = MkStreamStats (Skips (sub_stats sub)) (Sends (sub_stats sub) + 1) (Drops (sub_stats sub))) \/
   (matches f str = true /\ try_send c str = None /\ c' = c /\
      sub_stats sub' = MkStreamStats (Skips (sub_stats sub)) (Sends (sub_stats sub)) (Drops (sub_stats sub) + 1))).
Proof.
  intros Hl Hc. unfold deliver. cbn [fst snd]. pose proof (like_matches _ _ str Hl) as Hm. unfold S_Broker.matches in Hm at 1.
  destruct (Allow Compile MatchString (sub_filter sub) str) as [f' allowed]. cbn [snd] in Hm. subst allowed.
  destruct (matches f str).
  - destruct (try_send c str) as [c'|] eqn:E.
    + do 2 eexists. split; [reflexivity|]. right. left. repeat split. apply (try_send_ok _ _ _ Hc E).
    + do 2 eexists. split; [reflexivity|]. right. right. repeat split.
  - do 2 eexists. split; [reflexivity|]. left. repeat split.
Qed.

Lemma subseq_refl {A} (l : list A) : subseq l l.
Proof. induction l; constructor; assumption. Qed.
Lemma subseq_nil_l {A} (l : list A) : subseq [] l.
Proof. induction l; constructor; assumption. Qed.
Lemma subseq_app {A} (l1 l1' l2 l2' : list A) : subseq l1 l1' -> subseq l2 l2' -> subseq (l1 ++ l2) (l1' ++ l2').
Proof. intros H1 H2. induction H1; cbn; [exact H2|constructor; assumption|constructor; assumption]. Qed.

(** what is put on the channel is wanted, in order *)
Lemma delivered_wanted ch h : forall cur v, sub_ok cur v -> view_ok v ->
  exists sent, delivered (snd (fold_left step1 (concerning ch h) v)) = delivered (snd v) ++ sent /\ subseq sent (wanted_from ch cur h).
Proof.
  induction h as [|o h IH]; intros cur v Hs Hv; [exists []; rewrite app_nil_r; split; [reflexivity|constructor]|].
  change (concerning ch (o :: h)) with (own1 ch o ++ concerning ch h). rewrite fold_left_app. cbn [S_Broker.wanted_from].
  destruct (IH (sub_after ch cur o) (fold_left step1 (own1 ch o) v)) as (sent & E & Hsub).
  { apply sub_ok_step. exact Hs. }
  { apply view_ok_steps. exact Hv. }
  assert (Hone : exists s1, delivered (snd (fold_left step1 (own1 ch o) v)) = delivered (snd v) ++ s1 /\
            subseq s1 (match cur with Some f => filter (matches f) (published1 o) | None => [] end)).
  { destruct v as [sub c]. unfold view_ok in Hv. cbn [snd] in *.
    assert (Hnone : forall c' l, delivered c' = delivered c -> exists s1, delivered c' = delivered c ++ s1 /\ subseq s1 l)
      by (intros c' l Hc'; exists []; rewrite app_nil_r; split; [exact Hc'|apply subseq_nil_l]).
    destruct o as [c0 f|c0|order [str|]|c0|c0|c0]; cbn [own1 published1 filter].
    - apply Hnone. destruct (String.eqb c0 ch); [|reflexivity]. cbn. destruct sub; reflexivity.
    - apply Hnone. destruct (String.eqb c0 ch); reflexivity.
    - cbn [fold_left step1]. destruct sub as [sub|]; unfold sub_ok in Hs; cbn [fst] in Hs.
      + destruct cur as [f|]; [|contradiction]. destruct (deliver_spec f sub c str Hs Hv) as (sub' & c' & -> & Hd). cbn [snd].
        destruct Hd as [(Hm & -> & _)|[(Hm & _ & Hc' & _)|(Hm & _ & -> & _)]]; rewrite Hm; [apply Hnone; reflexivity| |apply Hnone; reflexivity].
        exists [str]. split; [exact Hc'|apply subseq_refl].
      + apply Hnone. reflexivity.
    - apply Hnone. reflexivity.
    - apply Hnone. reflexivity.
    - apply Hnone. destruct (String.eqb c0 ch); [|reflexivity]. cbn. apply delivered_receive.
    - apply Hnone. destruct (String.eqb c0 ch); [|reflexivity]. cbn. apply delivered_give_up. }
  destruct Hone as (s1 & E1 & Hs1). exists (s1 ++ sent). rewrite E, E1, app_assoc. split; [reflexivity|]. apply subseq_app; assumption.
Qed.

(** the capacity never changes *)
Lemma cap_step v o : ch_cap (snd (step1 v o)) = ch_cap (snd v).
Proof.
  destruct v as [sub c], o as [f| |str| |]; cbn [step1 fst snd]; try reflexivity.
  - destruct sub; reflexivity.
  - unfold deliver. cbn [fst snd]. destruct sub as [sub|]; [|reflexivity].
    destruct (Allow Compile MatchString (sub_filter sub) str) as [f' []]; [|reflexivity].
    destruct (try_send c str) as [c'|] eqn:E; [|reflexivity]. unfold try_send in E. destruct (0 <? ch_waiting c); [injection E as <-; reflexivity|].
    destruct (zlen (ch_buffer c) <? ch_cap c); [injection E as <-; reflexivity|discriminate].
  - unfold receive. destruct (ch_buffer c); reflexivity.
  - unfold give_up. destruct (0 <? ch_waiting c); reflexivity.
Qed.

(** enough room: everything wanted is delivered.  [r] receives so far. *)
Definition room_ok (r : Z) (c : chan) : Prop := r <= zlen (ch_received c) + ch_waiting c.
Lemma room_receive r c : room_ok r c -> room_ok (r + 1) (receive c).
Proof. unfold room_ok, receive. destruct (ch_buffer c) as [|x l]; cbn [ch_received ch_waiting]; unfold zlen; rewrite ?app_length; cbn [length]; lia. Qed.
Lemma room_give_up r c : room_ok r c -> room_ok (r + -1) (give_up c).
Proof. unfold room_ok, give_up. destruct (0 <? ch_waiting c); cbn [ch_received ch_waiting]; lia. Qed.
Lemma room_send r c str c' : room_ok r c -> try_send c str = Some c' -> room_ok r c'.
Proof.
  unfold room_ok, try_send. destruct (0 <? ch_waiting c) eqn:E.
  - intros H [= <-]. cbn [ch_received ch_waiting]. unfold zlen in *. rewrite app_length. cbn [length]. lia.
  - destruct (zlen (ch_buffer c) <? ch_cap c); [|discriminate]. intros H [= <-]. exact H.
Qed.
Lemma room_enough r c str : chan_ok c -> room_ok r c -> zlen (delivered c) + 1 <= ch_cap c + r -> try_send c str <> None.
Proof.
  unfold chan_ok, room_ok, try_send, delivered, zlen. rewrite app_length. intros [H1 H2] H3 H4.
  destruct (0 <? ch_waiting c) eqn:E; [discriminate|]. destruct (Z.of_nat (length (ch_buffer c)) <? ch_cap c) eqn:E2; [discriminate|]. lia.
Qed.
Lemma delivered_all ch h : forall cur v r w,
  sub_ok cur v -> view_ok v -> room_ok r (snd v) -> delivered (snd v) = w ->
  (forall h1 h2, h = h1 ++ h2 -> zlen (w ++ wanted_from ch cur h1) <= ch_cap (snd v) + r + receives ch h1) ->
  delivered (snd (fold_left step1 (concerning ch h) v)) = w ++ wanted_from ch cur h.
Proof.
  induction h as [|o h IH]; intros cur v r w Hs Hv Hr Hw Hroom; [cbn; rewrite app_nil_r; exact Hw|].
  change (concerning ch (o :: h)) with (own1 ch o ++ concerning ch h). rewrite fold_left_app. cbn [S_Broker.wanted_from].
  rewrite app_assoc. set (now := match cur with Some f => filter (matches f) (published1 o) | None => [] end).
  assert (Hcap : ch_cap (snd (fold_left step1 (own1 ch o) v)) = ch_cap (snd v)).
  { assert (G : forall os v, ch_cap (snd (fold_left step1 os v)) = ch_cap (snd v)) by (induction os as [|x os IHo]; intros v0; [reflexivity|]; cbn [fold_left]; rewrite IHo; apply cap_step). apply G. }
  assert (H1 := Hroom [o] h eq_refl). cbn [S_Broker.wanted_from] in H1. fold now in H1. rewrite app_nil_r in H1.
  apply (IH (sub_after ch cur o) _ (r + receives ch [o])).
  - apply sub_ok_step. exact Hs.
  - apply view_ok_steps. exact Hv.
  - destruct v as [sub c]. unfold view_ok in Hv. cbn [snd] in *.
    destruct o as [c0 f|c0|order [str|]|c0|c0|c0]; cbn [own1 receives]; rewrite ?Z.add_0_r; try exact Hr.
    + destruct (String.eqb c0 ch); [|exact Hr]. cbn. destruct sub; exact Hr.
    + destruct (String.eqb c0 ch); exact Hr.
    + cbn [fold_left step1]. destruct sub as [sub|]; [|exact Hr]. unfold sub_ok in Hs. cbn [fst] in Hs. destruct cur as [f|]; [|contradiction].
      destruct (deliver_spec f sub c str Hs Hv) as (sub' & c' & -> & Hd). cbn [snd].
      destruct Hd as [(_ & -> & _)|[(_ & Hc & _)|(_ & _ & -> & _)]]; [exact Hr|eapply room_send; eassumption|exact Hr].
    + destruct (String.eqb c0 ch); cbn; [|rewrite Z.add_0_r; exact Hr]. apply room_receive. exact Hr.
    + destruct (String.eqb c0 ch); cbn; [|rewrite Z.add_0_r; exact Hr]. apply room_give_up. exact Hr.
  - destruct v as [sub c]. unfold view_ok in Hv. cbn [snd] in *. unfold now in *. clear now.
    assert (Hskip : forall c', delivered c' = delivered c -> delivered c' = w ++ []) by (intros c' Hc'; rewrite app_nil_r; congruence).
    destruct o as [c0 f|c0|order [str|]|c0|c0|c0]; cbn [own1 published1 filter] in *.
    + destruct cur; apply Hskip; (destruct (String.eqb c0 ch); [|reflexivity]); cbn; destruct sub; reflexivity.
    + destruct cur; apply Hskip; destruct (String.eqb c0 ch); reflexivity.
    + cbn [fold_left step1]. destruct sub as [sub|]; unfold sub_ok in Hs; cbn [fst] in Hs.
      * destruct cur as [f|]; [|contradiction]. destruct (deliver_spec f sub c str Hs Hv) as (sub' & c' & -> & Hd). cbn [snd].
        destruct Hd as [(Hm & -> & _)|[(Hm & _ & Hc' & _)|(Hm & Hno & -> & _)]]; rewrite Hm in *.
        -- apply Hskip. reflexivity.
        -- rewrite Hc', Hw. reflexivity.
        -- exfalso. apply (room_enough r c str Hv Hr); [|exact Hno]. subst w. unfold zlen in *. rewrite app_length in H1. cbn [length receives] in H1. lia.
      * destruct cur; [contradiction|]. apply Hskip. reflexivity.
    + destruct cur; apply Hskip; reflexivity.
    + destruct cur; apply Hskip; reflexivity.
    + destruct cur; apply Hskip; (destruct (String.eqb c0 ch); [|reflexivity]); cbn; apply delivered_receive.
    + destruct cur; apply Hskip; (destruct (String.eqb c0 ch); [|reflexivity]); cbn; apply delivered_give_up.
  - intros h1 h2 ->. rewrite Hcap. specialize (Hroom (o :: h1) h2 eq_refl). cbn [S_Broker.wanted_from] in Hroom. fold now in Hroom.
    rewrite app_assoc in Hroom. assert (receives ch (o :: h1) = receives ch [o] + receives ch h1) as Hrec.
    { destruct o; cbn [receives]; lia. }
    lia.
Qed.

(** the current subscription *)
Lemma sub_ok_run ch h : forall cur v, sub_ok cur v -> sub_ok (fold_left (sub_after ch) h cur) (fold_left step1 (concerning ch h) v).
Proof.
  induction h as [|o h IH]; intros cur v H; [exact H|]. change (concerning ch (o :: h)) with (own1 ch o ++ concerning ch h).
  rewrite fold_left_app. cbn [fold_left]. apply IH, sub_ok_step, H.
Qed.
(** while it lasts *)
Lemma window ch h : forall f v, sub_ok (Some f) v -> view_ok v -> existsb (cancels ch) h = false ->
  forall sub, fst v = Some sub ->
  exists sub' sent, fst (fold_left step1 (concerning ch h) v) = Some sub' /\
    delivered (snd (fold_left step1 (concerning ch h) v)) = delivered (snd v) ++ sent /\
    subseq sent (filter (matches f) (published h)) /\
    Skips (sub_stats sub') = Skips (sub_stats sub) + zlen (filter (fun tr => negb (matches f tr)) (published h)) /\
    Sends (sub_stats sub') = Sends (sub_stats sub) + zlen sent /\
    Sends (sub_stats sub') + Drops (sub_stats sub') = Sends (sub_stats sub) + Drops (sub_stats sub) + zlen (filter (matches f) (published h)).
Proof.
  induction h as [|o h IH]; intros f v Hs Hv Hno sub E.
  - exists sub, []. cbn. rewrite app_nil_r. repeat split; try exact E; try lia. constructor.
  - cbn [existsb] in Hno. apply orb_false_iff in Hno as [Ho Hno].
    change (concerning ch (o :: h)) with (own1 ch o ++ concerning ch h). rewrite fold_left_app.
    change (published (o :: h)) with (published1 o ++ published h). rewrite !filter_app. unfold zlen. rewrite !app_length.
    assert (Hafter : sub_after ch (Some f) o = Some f).
    { destruct o; cbn [sub_after]; try reflexivity; [destruct (String.eqb ch0 ch); reflexivity|]. cbn [cancels] in Ho. rewrite Ho. reflexivity. }
    pose proof (sub_ok_step ch _ v o Hs) as Hs'. rewrite Hafter in Hs'.
    assert (Hv' : view_ok (fold_left step1 (own1 ch o) v)) by (apply view_ok_steps; exact Hv).
    assert (Hone : exists sub1 s1, fst (fold_left step1 (own1 ch o) v) = Some sub1 /\
       delivered (snd (fold_left step1 (own1 ch o) v)) = delivered (snd v) ++ s1 /\
       subseq s1 (filter (matches f) (published1 o)) /\
       Skips (sub_stats sub1) = Skips (sub_stats sub) + zlen (filter (fun tr => negb (matches f tr)) (published1 o)) /\
       Sends (sub_stats sub1) = Sends (sub_stats sub) + zlen s1 /\
       Sends (sub_stats sub1) + Drops (sub_stats sub1) = Sends (sub_stats sub) + Drops (sub_stats sub) + zlen (filter (matches f) (published1 o))).
    { destruct v as [sub0 c]. cbn [fst snd] in *. subst sub0. unfold view_ok in Hv. cbn [snd] in Hv.
      assert (Hnone : forall c', delivered c' = delivered c ->
        exists sub1 s1, Some sub = Some sub1 /\ delivered c' = delivered c ++ s1 /\ subseq s1 (@nil StaticTrace) /\
          Skips (sub_stats sub1) = Skips (sub_stats sub) + zlen (@nil StaticTrace) /\ Sends (sub_stats sub1) = Sends (sub_stats sub) + zlen s1 /\
          Sends (sub_stats sub1) + Drops (sub_stats sub1) = Sends (sub_stats sub) + Drops (sub_stats sub) + zlen (@nil StaticTrace)).
      { intros c' Hc'. exists sub, []. rewrite app_nil_r. unfold zlen. cbn [length]. repeat split; try lia; [exact Hc'|constructor]. }
      destruct o as [c0 g|c0|order [str|]|c0|c0|c0]; cbn [own1 published1 filter].
      - destruct (String.eqb c0 ch); apply Hnone; reflexivity.
      - cbn [cancels] in Ho. rewrite Ho. apply Hnone. reflexivity.
      - cbn [fold_left step1]. unfold sub_ok in Hs. cbn [fst] in Hs. destruct (deliver_spec f sub c str Hs Hv) as (sub' & c' & -> & Hd). cbn [fst snd].
        destruct Hd as [(Hm & -> & Est)|[(Hm & _ & Hc' & Est)|(Hm & _ & -> & Est)]]; rewrite Hm; cbn [negb].
        + exists sub', []. rewrite Est, app_nil_r. unfold zlen. cbn. repeat split; try lia. constructor.
        + exists sub', [str]. rewrite Est. unfold zlen. cbn. repeat split; try lia; [exact Hc'|apply subseq_refl].
        + exists sub', []. rewrite Est, app_nil_r. unfold zlen. cbn. repeat split; try lia. constructor. constructor.
      - apply Hnone. reflexivity.
      - apply Hnone. reflexivity.
      - destruct (String.eqb c0 ch); [|apply Hnone; reflexivity]. cbn. apply Hnone. apply delivered_receive.
      - destruct (String.eqb c0 ch); [|apply Hnone; reflexivity]. cbn. apply Hnone. apply delivered_give_up. }
    destruct Hone as (sub1 & s1 & E1 & D1 & S1 & K1 & N1 & T1).
    destruct (IH f _ Hs' Hv' Hno sub1 E1) as (sub' & s2 & E2 & D2 & S2 & K2 & N2 & T2).
    exists sub', (s1 ++ s2). unfold zlen in *. rewrite app_length. split; [exact E2|]. split; [rewrite D2, D1, app_assoc; reflexivity|].
    split; [apply subseq_app; assumption|]. repeat split; lia.
Qed.

(** after it *)
Lemma no_window ch h : forall v, fst v = None -> existsb (subscribes ch) h = false ->
  fst (fold_left step1 (concerning ch h) v) = None /\ delivered (snd (fold_left step1 (concerning ch h) v)) = delivered (snd v).
Proof.
  induction h as [|o h IH]; intros v E Hno; [split; [exact E|reflexivity]|]. cbn [existsb] in Hno. apply orb_false_iff in Hno as [Ho Hno].
  change (concerning ch (o :: h)) with (own1 ch o ++ concerning ch h). rewrite fold_left_app.
  assert (H1 : fst (fold_left step1 (own1 ch o) v) = None /\ delivered (snd (fold_left step1 (own1 ch o) v)) = delivered (snd v)).
  { destruct v as [sub c]. cbn [fst snd] in *. subst sub. destruct o as [c0 g|c0|order [str|]|c0|c0|c0]; cbn [own1 subscribes] in *; try (split; reflexivity).
    - rewrite Ho. split; reflexivity.
    - destruct (String.eqb c0 ch); split; reflexivity.
    - destruct (String.eqb c0 ch); cbn; [|split; reflexivity]. split; [reflexivity|apply delivered_receive].
    - destruct (String.eqb c0 ch); cbn; [|split; reflexivity]. split; [reflexivity|apply delivered_give_up]. }
  destruct H1 as [H1 H2]. destruct (IH _ H1 Hno) as [H3 H4]. split; [exact H3|]. rewrite H4. exact H2.
Qed.
End Lemmas.

(** Proofs about the ring buffer. *)
From Verif Require Import Go S_RingBuf M_RingBuf.
From Coq Require Import ZifyBool ZifyNat.
Open Scope Z_scope.

Section Lemmas.
Context {T : Type}.
Variable zero : T.
Implicit Types (r : rb T) (l : list T).

(** [Rep r l]: the buffer holds the values [l], newest first.  The part of the
    buffer before the write cursor holds the newest values, oldest first; if the
    buffer is full the rest holds the older values, otherwise it is unused. *)
Definition Rep r l : Prop :=
  exists l1 l2 junk,
    l = l1 ++ l2 /\
    rb_buf r = rev l1 ++ rev l2 ++ junk /\
    (l2 = [] \/ junk = []) /\
    rb_cur r = zlen l1 /\
    rb_len r = zlen l /\
    (length l1 < length (rb_buf r) \/ rb_buf r = [])%nat.

Lemma zlen_app {A} (a b : list A) : zlen (a ++ b) = zlen a + zlen b.
Proof. unfold zlen. rewrite app_length. lia. Qed.
Lemma zlen_rev {A} (a : list A) : zlen (rev a) = zlen a.
Proof. unfold zlen. now rewrite rev_length. Qed.
Lemma zlen_cons {A} (x : A) a : zlen (x :: a) = zlen a + 1.
Proof. unfold zlen. cbn [length]. lia. Qed.
Lemma zlen_nonneg {A} (a : list A) : 0 <= zlen a.
Proof. unfold zlen. lia. Qed.

Lemma slice_get_ok {A} (s : list A) i x :
  0 <= i -> nth_error s (Z.to_nat i) = Some x -> slice_get s i = Ok x.
Proof. intros H E. unfold slice_get. destruct (Z.ltb_spec i 0); [lia|]. now rewrite E. Qed.

Lemma slice_set_app {A} (a : list A) y b i v :
  i = zlen a -> slice_set (a ++ y :: b) i v = Ok (a ++ v :: b).
Proof.
  intros ->. unfold slice_set, zlen.
  rewrite app_length; cbn [length].
  destruct (Z.ltb_spec (Z.of_nat (length a)) 0); [lia|].
  destruct (Z.leb_spec (Z.of_nat (length a + S (length b))) (Z.of_nat (length a))); [lia|].
  cbn [orb]. rewrite Nat2Z.id. f_equal.
  rewrite firstn_app, Nat.sub_diag, firstn_all; cbn [firstn]. rewrite app_nil_r.
  rewrite skipn_app, skipn_all2 by lia.
  replace (S (length a) - length a)%nat with 1%nat by lia. reflexivity.
Qed.

Lemma nth_error_rev {A} (l : list A) (n : nat) :
  (n < length l)%nat -> nth_error (rev l) n = nth_error l (length l - 1 - n)%nat.
Proof.
  intros H. destruct l as [|d l0]; [cbn in H; lia|]. set (l := d :: l0) in *.
  rewrite (nth_error_nth' (rev l) d) by (rewrite rev_length; lia).
  rewrite (nth_error_nth' l d) by lia.
  rewrite rev_nth by lia. f_equal. f_equal. lia.
Qed.

Lemma Rep_len_le r l : Rep r l -> (length l <= length (rb_buf r))%nat.
Proof.
  intros (l1 & l2 & junk & -> & E & _). rewrite E, !app_length, !rev_length. lia.
Qed.

(** The index arithmetic of Walk reads the right value. *)
Lemma Rep_get r l i x :
  Rep r l -> nth_error l i = Some x ->
  slice_get (rb_buf r) (walk_index r (Z.of_nat i)) = Ok x.
Proof.
  intros (l1 & l2 & junk & -> & E & Hj & Hc & Hl & Hw) Hx.
  assert (Hi : (i < length (l1 ++ l2))%nat) by (apply nth_error_Some; congruence).
  rewrite app_length in Hi.
  assert (Hb : length (rb_buf r) = (length l1 + length l2 + length junk)%nat).
  { rewrite E, !app_length, !rev_length. lia. }
  unfold walk_index. rewrite Hc. unfold zlen in *.
  destruct (Nat.lt_ge_cases i (length l1)) as [Hlt|Hge].
  - destruct (Z.ltb_spec (Z.of_nat (length l1) - 1 - Z.of_nat i) 0); [lia|].
    apply slice_get_ok; [lia|].
    rewrite E. rewrite nth_error_app1 by (rewrite rev_length; lia).
    rewrite nth_error_rev by lia.
    rewrite nth_error_app1 in Hx by lia. rewrite <- Hx. f_equal. lia.
  - assert (junk = []) by (destruct Hj as [->|]; [cbn in Hi; lia|assumption]). subst junk.
    destruct (Z.ltb_spec (Z.of_nat (length l1) - 1 - Z.of_nat i) 0); [|lia].
    cbn [length] in Hb.
    apply slice_get_ok; [lia|].
    replace (Z.to_nat _) with (length l1 + (length l1 + length l2 - 1 - i))%nat by lia.
    rewrite E. rewrite nth_error_app2 by (rewrite rev_length; lia).
    rewrite rev_length, app_nil_r.
    rewrite nth_error_rev by lia.
    rewrite nth_error_app2 in Hx by lia. rewrite <- Hx. f_equal. lia.
Qed.

Lemma nth_error_skipn {A} (l : list A) (n k : nat) :
  nth_error (skipn n l) k = nth_error l (n + k)%nat.
Proof.
  revert l; induction n as [|n IH]; intros l; [reflexivity|].
  destruct l as [|x l]; cbn [skipn Nat.add].
  - destruct k; reflexivity.
  - apply IH.
Qed.

Lemma skipn_cons_nth {A} (l : list A) n x :
  nth_error l n = Some x -> skipn n l = x :: skipn (S n) l.
Proof.
  revert l; induction n as [|n IH]; intros l H; destruct l as [|y l]; cbn in *; try discriminate.
  - congruence.
  - now apply IH.
Qed.

(** Walk visits the represented values in order. *)
Lemma walk_loop_visit {St Err} (fn : St -> T -> St * option Err) r l n :
  Rep r l -> forall k s, (k + n = length l)%nat ->
  walk_loop fn r n (Z.of_nat k) s = Ok (visit fn (skipn k l) s).
Proof.
  intros HR. induction n as [|n IH]; intros k s Hk.
  - cbn [walk_loop]. rewrite skipn_all2 by lia. reflexivity.
  - assert (exists x, nth_error l k = Some x) as (x & Hx).
    { destruct (nth_error l k) eqn:E; [eauto|]. apply nth_error_None in E. lia. }
    cbn [walk_loop]. rewrite (Rep_get r l k x HR Hx). cbn [bind].
    rewrite (skipn_cons_nth l k x Hx). cbn [visit].
    destruct (fn s x) as [s' [e|]]; [reflexivity|].
    replace (Z.of_nat k + 1) with (Z.of_nat (S k)) by lia. apply IH. lia.
Qed.

Lemma Walk_spec {St Err} (fn : St -> T -> St * option Err) r l s :
  Rep r l -> Walk fn r s = Ok (visit fn l s).
Proof.
  intros HR. unfold Walk. pose proof HR as (l1 & l2 & junk & _ & _ & _ & _ & Hl & _).
  rewrite Hl. unfold zlen. rewrite Nat2Z.id.
  change 0 with (Z.of_nat 0). rewrite (walk_loop_visit fn r l (length l) HR 0 s eq_refl).
  reflexivity.
Qed.

Lemma New_spec cap :
  0 <= cap -> exists r, NewRingBuffer zero cap = Ok r /\ Rep r [] /\ length (rb_buf r) = Z.to_nat cap.
Proof.
  intros Hc. unfold NewRingBuffer, go_make.
  destruct (Z.ltb_spec cap 0); [lia|]. cbn [bind].
  eexists; split; [reflexivity|]. split.
  - exists [], [], (repeat zero (Z.to_nat cap)). cbn. repeat split; auto.
    destruct (Z.to_nat cap); cbn; [right; reflexivity | left; lia].
  - cbn. apply repeat_length.
Qed.

Lemma last_app_one {A} (l : list A) x d : last (l ++ [x]) d = x.
Proof. induction l as [|y l IH]; [reflexivity|]. cbn. destruct (l ++ [x]) eqn:E; [destruct l; discriminate|assumption]. Qed.

Lemma rev_nonempty_last {A} (l : list A) d : l <> [] -> rev l = last l d :: rev (removelast l).
Proof.
  intros H. rewrite (app_removelast_last d H) at 1. now rewrite rev_app_distr.
Qed.

Lemma removelast_length {A} (l : list A) : length (removelast l) = (length l - 1)%nat.
Proof.
  induction l as [|x l IH]; [reflexivity|]. cbn [removelast]. destruct l; [reflexivity|].
  cbn [length] in *. lia.
Qed.

Lemma Add_spec r l x :
  Rep r l ->
  exists r', Add zero r x = Ok (r', if (length (rb_buf r) =? 0)%nat then (zero, false)
                                   else if (length l =? length (rb_buf r))%nat then (last l zero, true)
                                   else (zero, false))
    /\ Rep r' (if (length (rb_buf r) =? 0)%nat then l
               else if (length l =? length (rb_buf r))%nat then x :: removelast l else x :: l)
    /\ length (rb_buf r') = length (rb_buf r).
Proof.
  intros HR. unfold Add. pose proof (Rep_len_le r l HR) as Hle.
  destruct (Z.leb_spec (zlen (rb_buf r)) 0) as [H0|H0].
  { unfold zlen in H0. destruct (Nat.eqb_spec (length (rb_buf r)) 0); [|lia].
    exists r. auto. }
  unfold zlen in H0. destruct (Nat.eqb_spec (length (rb_buf r)) 0); [lia|].
  destruct HR as (l1 & l2 & junk & El & E & Hj & Hc & Hl & Hw).
  destruct Hw as [Hw|Hw]; [|rewrite Hw in *; cbn in *; lia].
  destruct (Nat.eqb_spec (length l) (length (rb_buf r))) as [Hfull|Hnf].
  - (* full *)
    assert (Hjl : junk = []).
    { destruct junk; [reflexivity|]. apply (f_equal (@length T)) in E.
      rewrite !app_length, !rev_length in E. rewrite El, app_length in Hfull. cbn [length] in E. lia. }
    subst junk. rewrite app_nil_r in E.
    assert (H2 : l2 <> []).
    { intros ->. rewrite E in Hw. rewrite app_nil_r, rev_length in Hw. lia. }
    rewrite (rev_nonempty_last l2 zero H2) in E.
    assert (Hlast : last l zero = last l2 zero).
    { rewrite El. rewrite (app_removelast_last zero H2), app_assoc, !last_app_one. reflexivity. }
    assert (Hrl : removelast l = l1 ++ removelast l2) by (rewrite El; apply removelast_app; assumption).
    destruct (Z.leb_spec (zlen (rb_buf r)) (rb_len r)) as [_|C]; [|rewrite Hl in C; unfold zlen in C; lia].
    assert (Hg : slice_get (rb_buf r) (rb_cur r) = Ok (last l zero)).
    { apply slice_get_ok; [rewrite Hc; apply zlen_nonneg|].
      rewrite Hc, E. unfold zlen. rewrite Nat2Z.id.
      rewrite nth_error_app2 by (rewrite rev_length; lia). rewrite rev_length, Nat.sub_diag.
      cbn. now rewrite Hlast. }
    rewrite Hg. cbn [bind].
    assert (Hs : slice_set (rb_buf r) (rb_cur r) x = Ok (rev l1 ++ x :: rev (removelast l2)))
      by (rewrite E; apply slice_set_app; rewrite zlen_rev; exact Hc).
    rewrite Hs. cbn [bind].
    set (buf' := rev l1 ++ x :: rev (removelast l2)).
    assert (Hlb : length buf' = length (rb_buf r)) by (rewrite E; unfold buf'; rewrite !app_length; reflexivity).
    assert (Ebuf : buf' = rev (x :: l1) ++ rev (removelast l2)).
    { unfold buf'. cbn [rev]. rewrite <- app_assoc. reflexivity. }
    eexists; split; [reflexivity|]. split; [|cbn; assumption].
    destruct (Z.ltb_spec (rb_len r) (zlen buf')) as [C|_]; [rewrite Hl in C; unfold zlen in C; lia|].
    destruct (Z.leb_spec (zlen buf') (rb_cur r + 1)) as [Hwr|Hnw].
    + (* wrap: the cursor returns to 0, everything is in the second part *)
      assert (Hl2 : removelast l2 = []).
      { unfold zlen in *. assert (Hx : length buf' = S (length l1 + length (removelast l2))).
        { rewrite Ebuf, app_length, !rev_length. cbn [length]. lia. }
        destruct (removelast l2); [reflexivity|cbn [length] in *; lia]. }
      rewrite Hl2, app_nil_r in Ebuf.
      exists [], (x :: l1), []. cbn [app rb_buf rb_cur rb_len].
      rewrite Hrl, Hl2, app_nil_r.
      repeat split; auto.
      * rewrite app_nil_r. exact Ebuf.
      * rewrite Ebuf, zlen_rev, zlen_cons, Hc. unfold zlen at 3. cbn. lia.
      * rewrite Hl, El, zlen_app, zlen_cons.
        assert (zlen l2 = 1).
        { rewrite (app_removelast_last zero H2), Hl2. reflexivity. }
        lia.
      * left. cbn. lia.
    + exists (x :: l1), (removelast l2), []. cbn [rb_buf rb_cur rb_len].
      rewrite Hrl. repeat split; auto.
      * rewrite app_nil_r. exact Ebuf.
      * rewrite Hc, zlen_cons. reflexivity.
      * rewrite Hl, El. rewrite zlen_app, zlen_cons, zlen_app.
        unfold zlen. rewrite removelast_length. destruct l2; [congruence|]. cbn [length]. lia.
      * left. unfold zlen in *. cbn [length]. lia.
  - (* not full *)
    assert (Hll : (length l < length (rb_buf r))%nat) by lia.
    assert (H2 : l2 = []).
    { destruct Hj as [|Hj]; [assumption|]. subst junk. exfalso.
      rewrite E, El, !app_length, !rev_length in Hll. cbn [length] in Hll. lia. }
    subst l2. rewrite app_nil_r in El. subst l1. cbn [rev app] in E.
    destruct (Z.leb_spec (zlen (rb_buf r)) (rb_len r)) as [C|_]; [rewrite Hl in C; unfold zlen in C; lia|].
    cbn [bind].
    destruct junk as [|j junk].
    { rewrite E, app_nil_r, rev_length in Hll. lia. }
    assert (Hs : slice_set (rb_buf r) (rb_cur r) x = Ok (rev l ++ x :: junk))
      by (rewrite E; apply slice_set_app; rewrite zlen_rev; exact Hc).
    rewrite Hs. cbn [bind].
    set (buf' := rev l ++ x :: junk).
    assert (Hlb : length buf' = length (rb_buf r)) by (rewrite E; unfold buf'; rewrite !app_length; reflexivity).
    assert (Ebuf : buf' = rev (x :: l) ++ junk).
    { unfold buf'. cbn [rev]. rewrite <- app_assoc. reflexivity. }
    eexists; split; [reflexivity|]. split; [|cbn; assumption].
    destruct (Z.ltb_spec (rb_len r) (zlen buf')) as [_|C]; [|rewrite Hl in C; unfold zlen in C; lia].
    destruct (Z.leb_spec (zlen buf') (rb_cur r + 1)) as [Hwr|Hnw].
    + assert (Hj0 : junk = []).
      { unfold zlen in *. rewrite Ebuf, app_length, rev_length in Hwr. cbn [length] in *. destruct junk; [reflexivity|cbn [length] in *; lia]. }
      subst junk. rewrite app_nil_r in Ebuf.
      exists [], (x :: l), []. cbn [app rb_buf rb_cur rb_len].
      repeat split; auto.
      * rewrite app_nil_r. exact Ebuf.
      * rewrite Ebuf, zlen_rev, zlen_cons, Hc. unfold zlen at 3. cbn. lia.
      * rewrite Hl, zlen_cons. reflexivity.
      * left. cbn. lia.
    + exists (x :: l), [], junk. cbn [rb_buf rb_cur rb_len].
      rewrite app_nil_r. repeat split; auto.
      * rewrite Hc, zlen_cons. reflexivity.
      * rewrite Hl, zlen_cons. reflexivity.
      * left. unfold zlen in *. cbn [length]. lia.
Qed.

(** The read cursor of Resize after [k] reads, as long as there is something
    left to read. *)
Lemma rd_back_step r l k :
  Rep r l -> (S k < length l)%nat ->
  rd_back (rb_buf r) (walk_index r (Z.of_nat k)) = walk_index r (Z.of_nat (S k)).
Proof.
  intros HR Hk. pose proof (Rep_len_le r l HR) as Hle.
  destruct HR as (l1 & l2 & junk & -> & E & Hj & Hc & Hl & Hw).
  destruct Hw as [Hw|Hw]; [|rewrite Hw in Hle; cbn in Hle; lia].
  unfold rd_back, walk_index. rewrite Hc. unfold zlen in *.
  destruct (Z.ltb_spec (Z.of_nat (length l1) - 1 - Z.of_nat k) 0);
  destruct (Z.ltb_spec (Z.of_nat (length l1) - 1 - Z.of_nat (S k)) 0); try lia.
  - destruct (Z.ltb_spec (Z.of_nat (length l1) - 1 - Z.of_nat k + Z.of_nat (length (rb_buf r)) - 1) 0); lia.
  - destruct (Z.ltb_spec (Z.of_nat (length l1) - 1 - Z.of_nat k - 1) 0); lia.
  - destruct (Z.ltb_spec (Z.of_nat (length l1) - 1 - Z.of_nat k - 1) 0); lia.
Qed.

Lemma firstn_S_nth {A} (l : list A) n x :
  nth_error l n = Some x -> firstn (S n) l = firstn n l ++ [x].
Proof.
  revert l; induction n as [|n IH]; intros l H; destruct l as [|y l]; try discriminate; cbn in *.
  - congruence.
  - f_equal. now apply IH.
Qed.

Lemma resize_copy_spec r l n :
  Rep r l -> forall k rd tl,
  (k + n <= length l)%nat ->
  ((k < length l)%nat -> rd = walk_index r (Z.of_nat k)) ->
  exists rd',
    resize_copy n (rb_buf r) (repeat zero n ++ rev (firstn k l) ++ tl) rd
      = Ok (rev (firstn (k + n) l) ++ tl, rd')
    /\ ((k + n < length l)%nat -> rd' = walk_index r (Z.of_nat (k + n))).
Proof.
  intros HR. induction n as [|n IH]; intros k rd tl Hk Hrd.
  - cbn [resize_copy repeat app]. rewrite Nat.add_0_r. eexists; split; [reflexivity|]. assumption.
  - assert (exists x, nth_error l k = Some x) as (x & Hx).
    { destruct (nth_error l k) eqn:E; [eauto|]. apply nth_error_None in E. lia. }
    cbn [resize_copy]. rewrite Hrd by lia. rewrite (Rep_get r l k x HR Hx). cbn [bind].
    replace (repeat zero (S n) ++ rev (firstn k l) ++ tl)
      with (repeat zero n ++ zero :: (rev (firstn k l) ++ tl)).
    2:{ change (zero :: (rev (firstn k l) ++ tl)) with ([zero] ++ (rev (firstn k l) ++ tl)).
        rewrite app_assoc. rewrite <- repeat_cons. reflexivity. }
    rewrite slice_set_app by (unfold zlen; rewrite repeat_length; reflexivity). cbn [bind].
    destruct (IH (S k) (rd_back (rb_buf r) (walk_index r (Z.of_nat k))) tl) as (rd' & Hc & Hrd').
    + lia.
    + intros HS. apply (rd_back_step r l k HR HS).
    + exists rd'. rewrite (firstn_S_nth l k x Hx), rev_app_distr in Hc. cbn [rev app] in Hc.
      replace (k + S n)%nat with (S k + n)%nat by lia. split; assumption.
Qed.

Lemma resize_drop_spec r l n :
  Rep r l -> forall k rd acc,
  (k + n = length l)%nat ->
  ((k < length l)%nat -> rd = walk_index r (Z.of_nat k)) ->
  resize_drop n (rb_buf r) rd acc = Ok (acc ++ skipn k l).
Proof.
  intros HR. induction n as [|n IH]; intros k rd acc Hk Hrd.
  - cbn [resize_drop]. rewrite skipn_all2 by lia. now rewrite app_nil_r.
  - assert (exists x, nth_error l k = Some x) as (x & Hx).
    { destruct (nth_error l k) eqn:E; [eauto|]. apply nth_error_None in E. lia. }
    cbn [resize_drop]. rewrite Hrd by lia. rewrite (Rep_get r l k x HR Hx). cbn [bind].
    rewrite (IH (S k)).
    + rewrite (skipn_cons_nth l k x Hx), <- app_assoc. reflexivity.
    + lia.
    + intros HS. apply (rd_back_step r l k HR HS).
Qed.

Lemma Resize_spec r l cap :
  Rep r l ->
  exists r', Resize zero r cap = Ok (r', if cap <=? 0 then [] else skipn (Z.to_nat cap) l)
    /\ Rep r' (if cap <=? 0 then l else firstn (Z.to_nat cap) l)
    /\ length (rb_buf r') = if cap <=? 0 then length (rb_buf r) else Z.to_nat cap.
Proof.
  intros HR. unfold Resize. destruct (Z.leb_spec cap 0) as [Hc|Hc].
  { exists r. auto. }
  assert (Hfill : (if cap <? rb_len r then cap else rb_len r) = zlen (firstn (Z.to_nat cap) l)).
  { destruct HR as (l1 & l2 & junk & _ & _ & _ & _ & Hl & _). rewrite Hl. unfold zlen.
    rewrite firstn_length. destruct (Z.ltb_spec cap (Z.of_nat (length l))); lia. }
  set (fill := if cap <? rb_len r then cap else rb_len r) in *.
  set (fl := firstn (Z.to_nat cap) l) in *.
  assert (Hfl : length fl = Nat.min (Z.to_nat cap) (length l)) by apply firstn_length.
  set (rd0 := if rb_cur r - 1 <? 0 then rb_cur r - 1 + rb_len r else rb_cur r - 1).
  assert (Hrd0 : (0 < length l)%nat -> rd0 = walk_index r (Z.of_nat 0)).
  { intros Hne. unfold rd0, walk_index.
    destruct HR as (l1 & l2 & junk & El & E & Hj & Hcu & Hl & Hw).
    rewrite Hcu. change (Z.of_nat 0) with 0. rewrite Z.sub_0_r.
    destruct (Z.ltb_spec (zlen l1 - 1) 0) as [Hz|]; [|reflexivity].
    assert (l1 = []) by (unfold zlen in Hz; destruct l1; [reflexivity|cbn [length] in Hz; lia]).
    subst l1. cbn [app] in El. subst l2.
    assert (junk = []) by (destruct Hj as [->|]; [cbn in Hne; lia|assumption]). subst junk.
    rewrite Hl, E, app_nil_r. cbn [rev app]. now rewrite zlen_rev. }
  unfold go_make. destruct (Z.ltb_spec cap 0); [lia|]. cbn [bind].
  assert (Hn : Z.to_nat fill = length fl) by (rewrite Hfill; unfold zlen; lia).
  rewrite Hn.
  destruct (resize_copy_spec r l (length fl) HR 0 rd0 (repeat zero (Z.to_nat cap - length fl)%nat))
    as (rd1 & Hcopy & Hrd1).
  - lia.
  - assumption.
  - cbn [firstn rev app] in Hcopy. rewrite <- repeat_app in Hcopy.
    replace (length fl + (Z.to_nat cap - length fl))%nat with (Z.to_nat cap) in Hcopy by lia.
    rewrite Hcopy. cbn [bind]. clear Hcopy.
    cbn [Nat.add] in *.
    assert (Hfn : firstn (length fl) l = fl).
    { rewrite Hfl. unfold fl. destruct (Nat.le_ge_cases (Z.to_nat cap) (length l)).
      - now rewrite Nat.min_l.
      - rewrite Nat.min_r by assumption. rewrite firstn_all. now rewrite firstn_all2. }
    rewrite Hfn.
    assert (Hdrop : resize_drop (Z.to_nat (rb_len r - cap)) (rb_buf r) rd1 [] = Ok (skipn (Z.to_nat cap) l)).
    { assert (Hrl : rb_len r = zlen l) by (destruct HR as (?&?&?&_&_&_&_&?&_); assumption).
      destruct (Nat.le_ge_cases (length l) (Z.to_nat cap)) as [Hle|Hge].
      - replace (Z.to_nat (rb_len r - cap)) with 0%nat by (rewrite Hrl; unfold zlen; lia).
        cbn [resize_drop]. now rewrite skipn_all2.
      - rewrite (resize_drop_spec r l _ HR (Z.to_nat cap)).
        + reflexivity.
        + rewrite Hrl. unfold zlen. lia.
        + intros Hlt. rewrite Hrd1 by lia. f_equal. lia. }
    rewrite Hdrop. cbn [bind]. eexists; split; [reflexivity|].
    split.
    + unfold Rep. cbn [rb_buf rb_cur rb_len].
      destruct (Z.leb_spec cap fill) as [Hfull|Hnf].
      * assert (Hlf : length fl = Z.to_nat cap).
        { unfold zlen in Hfill. lia. }
        exists [], fl, []. rewrite Hlf, Nat.sub_diag. cbn [repeat app rev]. repeat split; auto.
        -- rewrite Hfill. unfold zlen at 2. cbn [length]. unfold zlen. lia.
        -- left. rewrite app_nil_r, rev_length. cbn [length]. lia.
      * exists fl, [], (repeat zero (Z.to_nat cap - length fl)). cbn [rev app].
        rewrite app_nil_r. repeat split; auto.
        left. rewrite app_length, rev_length, repeat_length. unfold zlen in Hfill. lia.
    + cbn [rb_buf]. rewrite app_length, rev_length, repeat_length. lia.
Qed.

Lemma nth_error_last {A} (l : list A) d : l <> [] -> nth_error l (length l - 1) = Some (last l d).
Proof.
  induction l as [|x l IH]; [congruence|]. intros _. destruct l as [|y l]; [reflexivity|].
  cbn [length]. replace (S (S (length l)) - 1)%nat with (S (S (length l) - 1)) by lia.
  cbn [nth_error]. exact (IH ltac:(discriminate)).
Qed.

Lemma Stats_spec r l :
  Rep r l ->
  Stats zero r = Ok (match l with [] => zero | x :: _ => x end, last l zero, zlen l).
Proof.
  intros HR. unfold Stats.
  assert (Hrl : rb_len r = zlen l) by (destruct HR as (?&?&?&_&_&_&_&?&_); assumption).
  rewrite Hrl. destruct l as [|x l'].
  { reflexivity. }
  set (l := x :: l') in *.
  assert (Hpos : (0 < length l)%nat) by (cbn; lia).
  destruct (Z.eqb_spec (zlen l) 0); [unfold zlen in *; lia|].
  assert (Hh : nth_error l 0 = Some x) by reflexivity.
  assert (Ht : nth_error l (length l - 1) = Some (last l zero)).
  { apply nth_error_last. discriminate. }
  pose proof (Rep_get r l 0 x HR Hh) as G0.
  pose proof (Rep_get r l _ _ HR Ht) as Gt.
  unfold walk_index in G0, Gt. change (Z.of_nat 0) with 0 in G0. rewrite Z.sub_0_r in G0.
  rewrite G0. cbn [bind].
  match goal with |- context [slice_get _ ?e] => replace e with
    (if rb_cur r - 1 - Z.of_nat (length l - 1) <? 0
     then rb_cur r - 1 - Z.of_nat (length l - 1) + zlen (rb_buf r)
     else rb_cur r - 1 - Z.of_nat (length l - 1)) end.
  - rewrite Gt. reflexivity.
  - pose proof (Rep_len_le r l HR) as Hle.
    assert (0 <= rb_cur r < zlen (rb_buf r)).
    { destruct HR as (l1 & ? & ? & _ & _ & _ & Hc & _ & [Hw|Hw]).
      - rewrite Hc. unfold zlen. lia.
      - rewrite Hw in Hle. cbn [length] in Hle. lia. }
    unfold zlen in *.
    destruct (Z.ltb_spec (rb_cur r - 1 - Z.of_nat (length l - 1)) 0);
    destruct (Z.ltb_spec (rb_cur r - 1) 0).
    + destruct (Z.ltb_spec (rb_cur r - 1 + Z.of_nat (length (rb_buf r)) - Z.of_nat (length l) + 1) 0); lia.
    + destruct (Z.ltb_spec (rb_cur r - 1 - Z.of_nat (length l) + 1) 0); lia.
    + lia.
    + destruct (Z.ltb_spec (rb_cur r - 1 - Z.of_nat (length l) + 1) 0); lia.
Qed.

(** Refinement. *)
Definition Sim r (b : blist T) : Prop := Rep r (bl_items b) /\ length (rb_buf r) = bl_cap b.

Lemma visit_collect (l acc : list T) :
  visit (Err := unit) (fun s v => (s ++ [v], None)) l acc = (acc ++ l, None).
Proof.
  revert acc; induction l as [|x l IH]; intros acc; cbn [visit].
  - now rewrite app_nil_r.
  - rewrite IH, <- app_assoc. reflexivity.
Qed.

Lemma step_sim r b o :
  Sim r b -> exists r', rb_step zero r o = Ok (r', snd (bl_step zero b o)) /\ Sim r' (fst (bl_step zero b o)).
Proof.
  intros [HR Hcap]. destruct b as [cap l]; cbn [bl_items bl_cap] in *.
  destruct o as [x|c| |]; cbn [rb_step bl_step].
  - destruct (Add_spec r l x HR) as (r' & E & HR' & Hlen).
    unfold bl_add. cbn [bl_items bl_cap].
    rewrite Hcap in *. destruct cap as [|cap]; cbn [Nat.eqb] in *.
    + rewrite E. cbn [bind]. exists r'. split; [reflexivity|]. split; cbn; assumption.
    + destruct (length l =? S cap)%nat; rewrite E; cbn [bind]; exists r';
        (split; [reflexivity|split; cbn; assumption]).
  - destruct (Resize_spec r l c HR) as (r' & E & HR' & Hlen).
    unfold bl_resize. cbn [bl_items bl_cap].
    destruct (c <=? 0); rewrite E; cbn [bind]; exists r';
      (split; [reflexivity|split; cbn; congruence || assumption]).
  - rewrite (Walk_spec _ r l [] HR), visit_collect. cbn [bind]. exists r. split; [reflexivity|].
    split; assumption.
  - rewrite (Stats_spec r l HR). cbn [bind]. exists r. split.
    + unfold bl_stats. cbn [bl_items]. destruct l; reflexivity.
    + split; assumption.
Qed.

Lemma run_sim ops r b :
  Sim r b -> exists r', rb_run zero r ops = Ok (r', snd (bl_run zero b ops)) /\ Sim r' (fst (bl_run zero b ops)).
Proof.
  revert r b; induction ops as [|o ops IH]; intros r b HS.
  - exists r. split; [reflexivity|assumption].
  - destruct (step_sim r b o HS) as (r1 & E1 & HS1).
    cbn [rb_run bl_run]. rewrite E1. cbn [bind].
    destruct (bl_step zero b o) as [b1 x1]; cbn [fst snd] in *.
    destruct (IH r1 b1 HS1) as (r2 & E2 & HS2). rewrite E2. cbn [bind].
    destruct (bl_run zero b1 ops) as [b2 xs]; cbn [fst snd] in *.
    exists r2. split; [reflexivity|assumption].
Qed.

Lemma ringbuf_refines_list cap ops :
  0 <= cap ->
  exists r0 r',
    NewRingBuffer zero cap = Ok r0 /\
    rb_run zero r0 ops = Ok (r', snd (bl_run zero (MkBL (Z.to_nat cap) []) ops)).
Proof.
  intros Hc. destruct (New_spec cap Hc) as (r0 & E & HR & Hlen).
  destruct (run_sim ops r0 (MkBL (Z.to_nat cap) [])) as (r' & E' & _).
  - split; assumption.
  - eauto.
Qed.

Lemma walk_visits {St Err} cap ops (fn : St -> T -> St * option Err) s r0 r outs :
  NewRingBuffer zero cap = Ok r0 -> rb_run zero r0 ops = Ok (r, outs) ->
  Walk fn r s = Ok (visit fn (bl_items (fst (bl_run zero (MkBL (Z.to_nat cap) []) ops))) s).
Proof.
  intros E0 E. assert (Hc : 0 <= cap).
  { unfold NewRingBuffer, go_make in E0. destruct (Z.ltb_spec cap 0); [discriminate|assumption]. }
  destruct (New_spec cap Hc) as (r0' & E0' & HR & Hlen).
  rewrite E0 in E0'. injection E0' as <-.
  destruct (run_sim ops r0 (MkBL (Z.to_nat cap) [])) as (r' & E' & HS); [split; assumption|].
  rewrite E in E'. injection E' as <- _. apply Walk_spec. apply HS.
Qed.

(** Conservation. *)
Lemma bl_step_conserve b o :
  (0 < bl_cap b)%nat ->
  (0 < bl_cap (fst (bl_step zero b o)))%nat /\
  Permutation (added [o] ++ bl_items b)
    (bl_items (fst (bl_step zero b o)) ++ dropped_out (snd (bl_step zero b o))).
Proof.
  destruct b as [cap l]. cbn [bl_cap]. intros Hc. destruct o as [x|c| |]; cbn [bl_step].
  - unfold bl_add; cbn [bl_cap bl_items]. destruct cap as [|cap]; [lia|].
    destruct (Nat.eqb_spec (length l) (S cap)) as [Hl|Hl]; cbn.
    + split; [lia|]. apply perm_skip.
      assert (l <> []) by (intros ->; discriminate).
      rewrite (app_removelast_last zero H) at 1. reflexivity.
    + split; [lia|]. now rewrite app_nil_r.
  - unfold bl_resize; cbn [bl_cap bl_items]. destruct (Z.leb_spec c 0); cbn.
    + split; [lia|]. now rewrite app_nil_r.
    + split; [lia|]. now rewrite firstn_skipn.
  - cbn. split; [lia|]. now rewrite app_nil_r.
  - cbn. split; [lia|]. unfold bl_stats. cbn. destruct l; cbn; rewrite ?app_nil_r; reflexivity.
Qed.

Lemma bl_run_conserve ops b :
  (0 < bl_cap b)%nat ->
  Permutation (added ops ++ bl_items b)
    (bl_items (fst (bl_run zero b ops)) ++ flat_map dropped_out (snd (bl_run zero b ops))).
Proof.
  revert b; induction ops as [|o ops IH]; intros b Hc.
  - cbn. now rewrite app_nil_r.
  - destruct (bl_step_conserve b o Hc) as [Hc1 HP].
    cbn [bl_run]. destruct (bl_step zero b o) as [b1 x1]; cbn [fst snd] in *.
    specialize (IH b1 Hc1). destruct (bl_run zero b1 ops) as [b2 xs]; cbn [fst snd] in *.
    change (added (o :: ops)) with (match o with OAdd x => [x] | _ => [] end ++ added ops).
    unfold added in HP at 1. cbn [flat_map] in HP. rewrite app_nil_r in HP.
    cbn [flat_map].
    rewrite <- app_assoc, Permutation_app_swap_app, HP, app_assoc, IH, <- app_assoc.
    apply Permutation_app_head, Permutation_app_comm.
Qed.

Lemma conservation cap ops r0 r' outs :
  0 < cap -> NewRingBuffer zero cap = Ok r0 -> rb_run zero r0 ops = Ok (r', outs) ->
  exists held, Walk (Err := unit) (fun s v => (s ++ [v], None)) r' [] = Ok (held, None) /\
    Permutation (added ops) (held ++ flat_map dropped_out outs).
Proof.
  intros Hc E0 E. destruct (New_spec cap ltac:(lia)) as (r0' & E0' & HR & Hlen).
  rewrite E0 in E0'. injection E0' as <-.
  destruct (run_sim ops r0 (MkBL (Z.to_nat cap) [])) as (r1 & E' & HS); [split; assumption|].
  rewrite E in E'. injection E' as <- ->.
  eexists. rewrite (Walk_spec _ _ _ _ (proj1 HS)), visit_collect. split; [reflexivity|].
  cbn [app]. rewrite <- bl_run_conserve by (cbn; lia). cbn. now rewrite app_nil_r.
Qed.

End Lemmas.

From Verif Require Import Go S_RingBuf M_RingBuf L_RingBuf S_Collector M_RingBufs L_RingBufs M_Sizes S_Sizes.
Open Scope Z_scope.

Lemma wrap_id x : - 2 ^ 63 <= x < 2 ^ 63 -> wrap x = x.
Proof. intros H. unfold wrap. rewrite Z.mod_small; [lia|]. change (2 ^ 64) with (2 ^ 63 + 2 ^ 63). lia. Qed.

Lemma slice_get_bounds {A} (s : list A) i v : slice_get s i = Ok v -> 0 <= i < zlen s.
Proof.
  unfold slice_get, zlen. destruct (Z.ltb_spec i 0); [discriminate|].
  destruct (nth_error s (Z.to_nat i)) eqn:E; [|discriminate]. intros _.
  assert (nth_error s (Z.to_nat i) <> None) as Hn by congruence. apply nth_error_Some in Hn. lia.
Qed.

Section Lemmas.
Context {T : Type}.
Variable zero : T.
Variable most : Z.
Hypothesis Hmost : 0 <= most < 2 ^ 62.
Implicit Types (r : rb T) (l : list T).

Ltac big := change (2 ^ 62) with 4611686018427387904 in *; change (2 ^ 63) with 9223372036854775808 in *.
Ltac w := repeat match goal with |- context [wrap ?x] => lazymatch x with context [wrap _] => fail | _ => rewrite (wrap_id x) by (big; lia) end end.

Lemma make64_ok n : 0 <= n <= most -> make64 zero most n = go_make zero n.
Proof.
  intros H. unfold make64, go_make. destruct (Z.ltb_spec n 0); [lia|]. destruct (Z.ltb_spec most n); [lia|]. reflexivity.
Qed.
Lemma make64_panic n : most < n -> make64 zero most n = Panic.
Proof. intros H. unfold make64. destruct (Z.ltb_spec most n); [|lia]. rewrite orb_true_r. reflexivity. Qed.

Lemma rd_back64_ok old i : 0 <= i < zlen old -> zlen old <= most -> rd_back64 old i = rd_back (T:=T) old i.
Proof.
  intros H H'. unfold rd_back64, rd_back. w. destruct (Z.ltb_spec (i - 1) 0); [w|]; reflexivity.
Qed.

Lemma resize_copy64_ok old n : zlen old <= most -> forall buf i, resize_copy64 n old buf i = resize_copy (T:=T) n old buf i.
Proof.
  intros H. induction n as [|n IH]; intros buf i; cbn [resize_copy64 resize_copy]; [reflexivity|].
  destruct (slice_get old i) as [v|] eqn:E; cbn [bind]; [|reflexivity].
  apply slice_get_bounds in E. destruct (slice_set buf (Z.of_nat n) v); cbn [bind]; [|reflexivity].
  rewrite rd_back64_ok by assumption. apply IH.
Qed.
Lemma resize_drop64_ok old n : zlen old <= most -> forall i d, resize_drop64 n old i d = resize_drop (T:=T) n old i d.
Proof.
  intros H. induction n as [|n IH]; intros i d; cbn [resize_drop64 resize_drop]; [reflexivity|].
  destruct (slice_get old i) as [v|] eqn:E; cbn [bind]; [|reflexivity].
  apply slice_get_bounds in E. rewrite rd_back64_ok by assumption. apply IH.
Qed.

Definition fits r : Prop := 0 <= rb_cur r <= zlen (rb_buf r) /\ 0 <= rb_len r <= zlen (rb_buf r) /\ zlen (rb_buf r) <= most.

Lemma Rep_fits r l : Rep r l -> zlen (rb_buf r) <= most -> fits r.
Proof.
  intros HR Hb. pose proof (Rep_len_le r l HR) as Hle. destruct HR as (l1 & l2 & junk & -> & _ & _ & Hc & Hl & _).
  unfold fits. rewrite Hc, Hl. rewrite app_length in Hle. unfold zlen. rewrite app_length. unfold zlen in Hb. lia.
Qed.

Lemma Resize64_ok r cap : fits r -> cap <= most -> Resize64 zero most r cap = Resize zero r cap.
Proof.
  intros (Hc & Hl & Hb) H. unfold Resize64, Resize. destruct (Z.leb_spec cap 0) as [|Hp]; [reflexivity|].
  rewrite make64_ok by lia. cbn zeta.
  replace (if wrap (rb_cur r - 1) <? 0 then wrap (wrap (rb_cur r - 1) + rb_len r) else wrap (rb_cur r - 1))
    with (if rb_cur r - 1 <? 0 then rb_cur r - 1 + rb_len r else rb_cur r - 1)
    by (w; destruct (Z.ltb_spec (rb_cur r - 1) 0); [w|]; reflexivity).
  destruct (go_make zero cap); cbn [bind]; [|reflexivity].
  rewrite resize_copy64_ok by assumption.
  destruct (resize_copy _ _ _ _) as [[b i]|]; cbn [bind]; [|reflexivity].
  rewrite resize_drop64_ok by assumption.
  destruct (resize_drop _ _ _ _); cbn [bind]; [|reflexivity].
  do 3 f_equal. destruct (Z.ltb_spec cap (rb_len r)); match goal with |- context [?x <=? ?y] => destruct (Z.leb_spec x y) end; w; reflexivity.
Qed.
Lemma Resize64_panic r cap : most < cap -> Resize64 zero most r cap = Panic.
Proof. intros H. unfold Resize64. destruct (Z.leb_spec cap 0); [lia|]. rewrite make64_panic by assumption. reflexivity. Qed.

Lemma slice_set_len {A} (s : list A) i v s' : slice_set s i v = Ok s' -> zlen s' = zlen s.
Proof.
  unfold slice_set, zlen. destruct ((i <? 0) || (Z.of_nat (length s) <=? i))%Z eqn:E; [discriminate|].
  apply orb_false_iff in E as [E1 E2]. apply Z.ltb_ge in E1. apply Z.leb_gt in E2.
  intros Es. assert (s' = firstn (Z.to_nat i) s ++ v :: skipn (S (Z.to_nat i)) s) as -> by congruence.
  f_equal. rewrite app_length, firstn_length.
  pose proof (skipn_length (S (Z.to_nat i)) s) as Hs.
  match goal with |- context [length (v :: ?x)] => change (length (v :: x)) with (S (length x)) end. lia.
Qed.

Lemma Add64_ok r x : fits r -> Add64 zero r x = Add zero r x.
Proof.
  intros (Hc & Hl & Hb). unfold Add64, Add. destruct (Z.leb_spec (zlen (rb_buf r)) 0); [reflexivity|].
  destruct (if zlen (rb_buf r) <=? rb_len r then _ else _) as [d|]; cbn [bind]; [|reflexivity].
  destruct (slice_set (rb_buf r) (rb_cur r) x) as [buf|] eqn:E; cbn [bind]; [|reflexivity].
  apply slice_set_len in E. cbn zeta. rewrite E. do 3 f_equal.
  - w. destruct (Z.leb_spec (zlen (rb_buf r)) (rb_cur r + 1)); [w|]; reflexivity.
  - w. reflexivity.
Qed.

Lemma walk_loop64_ok {St Err} (fn : St -> T -> St * option Err) r : fits r ->
  forall n i s, 0 <= i -> i + Z.of_nat n <= rb_len r -> walk_loop64 fn r n i s = walk_loop fn r n i s.
Proof.
  intros (Hc & Hl & Hb). induction n as [|n IH]; intros i s Hi Hn; cbn [walk_loop64 walk_loop]; [reflexivity|].
  replace (walk_index64 r i) with (walk_index r i).
  2:{ unfold walk_index64, walk_index. cbn zeta. w. destruct (Z.ltb_spec (rb_cur r - 1 - i) 0); [w|]; reflexivity. }
  destruct (slice_get _ _); cbn [bind]; [|reflexivity]. destruct (fn s a) as [s' [e|]]; [reflexivity|].
  w. apply IH; lia.
Qed.
Lemma Walk64_ok {St Err} (fn : St -> T -> St * option Err) r s : fits r -> Walk64 fn r s = Walk fn r s.
Proof. intros H. apply walk_loop64_ok; [assumption|lia|]. destruct H as (_ & H & _). lia. Qed.

Lemma Stats64_ok r : fits r -> Stats64 zero r = Stats zero r.
Proof.
  intros (Hc & Hl & Hb). unfold Stats64, Stats. destruct (rb_len r =? 0); [reflexivity|]. cbn zeta. w.
  destruct (Z.ltb_spec (rb_cur r - 1) 0); w;
    match goal with |- context [?a <? 0] => destruct (Z.ltb_spec a 0) end; w; reflexivity.
Qed.

Lemma rb_step64_ok r o : fits r -> (match o with OResize c => c <= most | _ => True end) -> rb_step64 zero most r o = rb_step zero r o.
Proof.
  intros Hf Ho. destruct o; cbn [rb_step64 rb_step].
  - rewrite Add64_ok by assumption. reflexivity.
  - rewrite Resize64_ok by assumption. reflexivity.
  - rewrite Walk64_ok by assumption. reflexivity.
  - rewrite Stats64_ok by assumption. reflexivity.
Qed.

Lemma bl_cap_step b o : Z.of_nat (bl_cap b) <= most -> (match o with OResize c => c <= most | _ => True end) ->
  Z.of_nat (bl_cap (fst (bl_step zero b o))) <= most.
Proof.
  intros Hb Ho. destruct b as [cap l], o as [x|c| |]; cbn [bl_step bl_cap] in *.
  - unfold bl_add. cbn [bl_cap bl_items]. destruct cap as [|cap]; [exact Hb|].
    destruct (length l =? S cap)%nat; cbn [fst bl_cap]; exact Hb.
  - unfold bl_resize. cbn [bl_cap bl_items]. destruct (Z.leb_spec c 0); cbn [fst bl_cap]; [assumption|]. lia.
  - exact Hb.
  - exact Hb.
Qed.

Lemma rb_run64_ok ops : Forall (fun o => match o with OResize c => c <= most | _ => True end) ops ->
  forall r b, Sim r b -> Z.of_nat (bl_cap b) <= most -> rb_run64 zero most r ops = rb_run zero r ops.
Proof.
  induction 1 as [|o ops Ho _ IH]; intros r b HS Hb; cbn [rb_run64 rb_run]; [reflexivity|].
  rewrite rb_step64_ok; [|eapply Rep_fits; [apply HS|destruct HS as [_ HS]; unfold zlen; rewrite HS; assumption]|assumption].
  destruct (step_sim zero r b o HS) as (r' & E & HS'). rewrite E. cbn [bind].
  erewrite IH; [reflexivity|exact HS'|]. apply bl_cap_step; assumption.
Qed.

(** ** The storage of a collector *)
Lemma CRep_fits (s : rbs T) cap f c r : CRep s cap f -> cap <= most -> map_get c (rbs_bufs s) = Some r -> fits r.
Proof.
  intros (_ & Hp & _ & H) Hc E. specialize (H c). rewrite E in H. destruct (f c) as [l|]; [|tauto]. destruct H as [HR Hl].
  eapply Rep_fits; [exact HR|]. unfold zlen. lia.
Qed.

(** Adding to a category that exists *)
Lemma store64_known (s s64 : rbs T) cap f c t s' freed :
  CRep s cap f -> cap <= most -> rbs_bufs s64 = rbs_bufs s -> map_get c (rbs_bufs s) <> None ->
  StoreTrace zero s c t = Ok (s', freed) ->
  StoreTrace64 zero most s64 c t = (MkRBS (rbs_cap s64) (rbs_bufs s'), Some freed).
Proof.
  intros HC Hc Hb Hk. unfold StoreTrace64, StoreTrace, GetOrCreate. rewrite Hb.
  destruct (map_get c (rbs_bufs s)) as [r|] eqn:E; [|congruence]. cbn [bind]. unfold AddTo. rewrite E.
  rewrite Add64_ok by (eapply CRep_fits; eassumption).
  destruct (Add zero r t) as [[r' [d b]]|]; cbn [bind]; [|discriminate]. intros [= <- <-]. reflexivity.
Qed.
Lemma store64_new (s s64 : rbs T) cap f c t s' freed :
  CRep s cap f -> cap <= most -> rbs_bufs s64 = rbs_bufs s -> rbs_cap s64 = rbs_cap s -> map_get c (rbs_bufs s) = None ->
  StoreTrace zero s c t = Ok (s', freed) ->
  StoreTrace64 zero most s64 c t = (MkRBS (rbs_cap s64) (rbs_bufs s'), Some freed).
Proof.
  intros HC Hc Hb Hcap Hk. unfold StoreTrace64, StoreTrace, GetOrCreate. rewrite Hb, Hk, Hcap.
  destruct HC as (Ecap & Hp & _). unfold NewRingBuffer64. rewrite make64_ok by lia.
  destruct (New_spec zero (rbs_cap s) ltac:(lia)) as (r & Er & HR & Hl).
  unfold NewRingBuffer in *. destruct (go_make zero (rbs_cap s)) as [buf|]; cbn [bind] in *; [|discriminate].
  injection Er as <-. unfold AddTo. cbn [rbs_bufs rbs_cap]. rewrite map_get_set, String.eqb_refl.
  rewrite Add64_ok by (eapply Rep_fits; [exact HR|unfold zlen; lia]).
  destruct (Add zero _ t) as [[r' [d b]]|]; cbn [bind]; [|discriminate]. intros [= <- <-]. reflexivity.
Qed.
Lemma store64_panic (s64 : rbs T) c t :
  most < rbs_cap s64 -> map_get c (rbs_bufs s64) = None -> StoreTrace64 zero most s64 c t = (s64, None).
Proof.
  intros Hc Hk. unfold StoreTrace64. rewrite Hk. unfold NewRingBuffer64. rewrite make64_panic by assumption. reflexivity.
Qed.

Lemma resize_each64_ok cap names : 0 < cap <= most ->
  forall (bufs : list (string * rb T)) d res, (forall c r, map_get c bufs = Some r -> exists l, Rep r l /\ zlen (rb_buf r) <= most) ->
  resize_each zero cap names bufs d = Ok res -> resize_each64 zero most cap names bufs d = (fst res, Some (snd res)).
Proof.
  intros Hc. induction names as [|n names IH]; intros bufs d res H; cbn [resize_each resize_each64]; [intros [= <-]; reflexivity|].
  destruct (map_get n bufs) as [r|] eqn:E; [|discriminate].
  destruct (H n r E) as (l & HR & Hl). rewrite Resize64_ok; [|eapply Rep_fits; eassumption|lia].
  destruct (Resize_spec zero r l cap HR) as (r' & ER & HR' & Hlen). rewrite ER. cbn [bind].
  apply IH. intros c0 r0. rewrite map_get_set. destruct (String.eqb_spec c0 n); [|apply H].
  intros [= <-]. eexists. split; [exact HR'|]. destruct (Z.leb_spec cap 0); [lia|]. unfold zlen. lia.
Qed.

Lemma size64_ok (s s64 : rbs T) cap f n order s' freed :
  CRep s cap f -> cap <= most -> rbs_bufs s64 = rbs_bufs s -> 0 < n <= most ->
  SetCategorySize zero s n order = Ok (s', freed) ->
  SetCategorySize64 zero most s64 n order = (MkRBS n (rbs_bufs s'), Some freed).
Proof.
  intros HC Hc Hb Hn. unfold SetCategorySize, ResizeAll, SetCategorySize64.
  destruct (Z.leb_spec n 0); [lia|]. rewrite Hb.
  destruct (resize_each zero n _ (rbs_bufs s) []) as [[bufs d]|] eqn:E; cbn [bind]; [|discriminate].
  intros [= <- <-]. rewrite (resize_each64_ok n _ Hn _ _ (bufs, d)); [reflexivity| |exact E].
  intros c r Er. destruct HC as (_ & Hp & _ & HC). specialize (HC c). rewrite Er in HC.
  destruct (f c) as [l|]; [|tauto]. destruct HC as [HR Hl]. exists l. split; [exact HR|]. unfold zlen. lia.
Qed.
Lemma size64_panic (s64 : rbs T) n order :
  is_order order -> most < n ->
  SetCategorySize64 zero most s64 n order = (MkRBS n (rbs_bufs s64), match rbs_bufs s64 with [] => Some [] | _ => None end).
Proof.
  intros Ho Hn. unfold SetCategorySize64. destruct (Z.leb_spec n 0); [lia|].
  pose proof (Ho (map_keys (rbs_bufs s64))) as HP.
  destruct (rbs_bufs s64) as [|[k r] bufs] eqn:Eb.
  - cbn [map_keys map] in *. apply Permutation_sym, Permutation_nil in HP. rewrite HP. reflexivity.
  - destruct (order _) as [|c cs] eqn:Eo.
    + apply Permutation_nil in HP. discriminate.
    + cbn [resize_each64].
      assert (Hin : In c (map_keys ((k, r) :: bufs))) by (apply (Permutation_in _ HP); left; reflexivity).
      apply map_get_in in Hin. destruct (map_get c ((k, r) :: bufs)); [|congruence].
      rewrite Resize64_panic by assumption. reflexivity.
Qed.

Lemma known_get (bufs : list (string * rb T)) known c : (forall x, In x known <-> In x (map_keys bufs)) ->
  if existsb (String.eqb c) known then map_get c bufs <> None else map_get c bufs = None.
Proof.
  intros H. destruct (existsb (String.eqb c) known) eqn:E.
  - apply existsb_exists in E as (x & Hx & Ex). apply String.eqb_eq in Ex as <-. apply map_get_in, H, Hx.
  - destruct (map_get c bufs) eqn:Eg; [|reflexivity]. exfalso.
    assert (Hin : In c (map_keys bufs)) by (apply map_get_in; congruence).
    apply H in Hin. apply not_true_iff_false in E. apply E. apply existsb_exists. exists c. split; [assumption|apply String.eqb_refl].
Qed.

(** [s] is the collector of unbounded memory after the calls that took effect. *)
Lemma coll_run64_spec ops : Forall valid_op ops ->
  forall (s s64 : rbs T) pre known,
  CRep s (size_after pre) (fspec pre) -> size_after pre <= most -> rbs_bufs s64 = rbs_bufs s ->
  (rbs_cap s64 <= most -> rbs_cap s64 = rbs_cap s) ->
  (forall x, In x known <-> In x (map_keys (rbs_bufs s))) ->
  exists s' freed,
    coll_run zero s (effective most (rbs_cap s64) known ops) = Ok (s', freed) /\
    rbs_bufs (fst (coll_run64 zero most s64 ops)) = rbs_bufs s' /\
    flat_map olist (snd (coll_run64 zero most s64 ops)) = freed /\
    map is_panic (snd (coll_run64 zero most s64 ops)) = panics most (rbs_cap s64) known ops.
Proof.
  induction 1 as [|o ops Hv _ IH]; intros s s64 pre known HC Hle Hb Hcap Hk.
  { exists s, []. cbn. auto. }
  cbn [coll_run64]. destruct o as [c t|n order]; cbn [coll_step64 effective panics].
  - destruct (coll_step_spec zero s pre (CNew c t) HC Hv) as (s' & freed & E & HC' & _ & Hkeys). cbn [coll_step] in E.
    assert (Hle' : size_after (pre ++ [CNew c t]) <= most) by (rewrite size_after_snoc; assumption).
    pose proof (known_get _ _ c Hk) as Hg.
    assert (Hf : (if existsb (String.eqb c) known then fspec pre c <> None else fspec pre c = None)).
    { destruct HC as (_ & _ & _ & HC). specialize (HC c). destruct (existsb _ known), (map_get c (rbs_bufs s)), (fspec pre c); try tauto; congruence. }
    destruct (existsb (String.eqb c) known) eqn:Ek.
    + rewrite (store64_known s s64 _ _ c t s' freed HC Hle Hb Hg E).
      destruct (IH s' (MkRBS (rbs_cap s64) (rbs_bufs s')) (pre ++ [CNew c t]) known HC' Hle' eq_refl) as (s2 & f2 & E2 & B2 & F2 & P2).
      { cbn [rbs_cap]. intros Hx. rewrite (Hcap Hx). destruct HC' as [-> _], HC as [-> _]. rewrite size_after_snoc. reflexivity. }
      { intros x. rewrite Hkeys. destruct (fspec pre c); [apply Hk|congruence]. }
      cbn [rbs_cap] in *. destruct (coll_run64 zero most _ ops) as [s3 xs]. cbn [fst snd flat_map map olist is_panic] in *.
      exists s2, (freed ++ f2). cbn [coll_run coll_step]. rewrite E. cbn [bind]. rewrite E2. cbn [bind].
      repeat split; [assumption|rewrite F2; reflexivity|rewrite P2; reflexivity].
    + unfold too_large. destruct (Z.ltb_spec most (rbs_cap s64)) as [Hl|Hl].
      * rewrite store64_panic by (rewrite ?Hb; assumption).
        destruct (IH s s64 pre known HC Hle Hb Hcap Hk) as (s2 & f2 & E2 & B2 & F2 & P2).
        destruct (coll_run64 zero most s64 ops) as [s3 xs]. cbn [fst snd flat_map map olist is_panic app] in *.
        exists s2, f2. repeat split; [assumption..|rewrite P2; reflexivity].
      * rewrite (store64_new s s64 _ _ c t s' freed HC Hle Hb (Hcap Hl) Hg E).
        destruct (IH s' (MkRBS (rbs_cap s64) (rbs_bufs s')) (pre ++ [CNew c t]) (c :: known) HC' Hle' eq_refl) as (s2 & f2 & E2 & B2 & F2 & P2).
        { cbn [rbs_cap]. intros Hx. rewrite (Hcap Hx). destruct HC' as [-> _], HC as [-> _]. rewrite size_after_snoc. reflexivity. }
        { intros x. rewrite Hkeys, Hf, in_app_iff. cbn [In]. rewrite Hk. tauto. }
        cbn [rbs_cap] in *. destruct (coll_run64 zero most _ ops) as [s3 xs]. cbn [fst snd flat_map map olist is_panic] in *.
        exists s2, (freed ++ f2). cbn [coll_run coll_step]. rewrite E. cbn [bind]. rewrite E2. cbn [bind].
        repeat split; [assumption|rewrite F2; reflexivity|rewrite P2; reflexivity].
  - destruct (Z.leb_spec n 0) as [Hn|Hn].
    + assert (E64 : SetCategorySize64 zero most s64 n order = (s64, Some [])).
      { unfold SetCategorySize64. destruct (Z.leb_spec n 0); [reflexivity|lia]. }
      assert (E : SetCategorySize zero s n order = Ok (s, [])).
      { unfold SetCategorySize, ResizeAll. destruct (Z.leb_spec n 0); [reflexivity|lia]. }
      rewrite E64. destruct (IH s s64 pre known HC Hle Hb Hcap Hk) as (s2 & f2 & E2 & B2 & F2 & P2).
      destruct (coll_run64 zero most s64 ops) as [s3 xs]. cbn [fst snd flat_map map olist is_panic app] in *.
      exists s2, f2. cbn [coll_run coll_step]. rewrite E. cbn [bind]. rewrite E2. cbn [bind app].
      repeat split; [assumption..|rewrite P2; reflexivity].
    + unfold too_large. destruct (Z.ltb_spec most n) as [Hl|Hl]; cbn [andb].
      * rewrite size64_panic by assumption.
        destruct (IH s (MkRBS n (rbs_bufs s64)) pre known HC Hle Hb) as (s2 & f2 & E2 & B2 & F2 & P2); [cbn; lia|exact Hk|].
        cbn [rbs_cap] in *. destruct (coll_run64 zero most _ ops) as [s3 xs]. cbn [fst snd flat_map map] in *.
        assert (Hn0 : is_panic (T := T) (match rbs_bufs s64 with [] => Some [] | _ => None end) = negb (match known with [] => true | _ => false end)).
        { rewrite Hb. destruct (rbs_bufs s) as [|[k r] bufs], known as [|c cs]; try reflexivity; exfalso.
          - destruct (proj1 (Hk c) (or_introl eq_refl)).
          - destruct (proj2 (Hk k) (or_introl eq_refl)). }
        exists s2, f2. repeat split; [assumption..| |].
        -- rewrite F2. destruct (rbs_bufs s64); reflexivity.
        -- rewrite P2, Hn0. reflexivity.
      * destruct (coll_step_spec zero s pre (CSize n order) HC Hv) as (s' & freed & E & HC' & _ & Hkeys). cbn [coll_step] in E.
        rewrite (size64_ok s s64 _ _ n order s' freed HC Hle Hb ltac:(lia) E).
        assert (Hsz : size_after (pre ++ [CSize n order]) = n).
        { rewrite size_after_snoc. destruct (Z.ltb_spec 0 n); [reflexivity|lia]. }
        destruct (IH s' (MkRBS n (rbs_bufs s')) (pre ++ [CSize n order]) known HC' ltac:(lia) eq_refl) as (s2 & f2 & E2 & B2 & F2 & P2).
        { cbn [rbs_cap]. intros _. destruct HC' as [-> _]. symmetry. exact Hsz. }
        { intros x. rewrite Hkeys. apply Hk. }
        cbn [rbs_cap] in *. destruct (coll_run64 zero most _ ops) as [s3 xs]. cbn [fst snd flat_map map olist is_panic] in *.
        exists s2, (freed ++ f2). cbn [coll_run coll_step]. rewrite E. cbn [bind]. rewrite E2. cbn [bind].
        repeat split; [assumption|rewrite F2; reflexivity|rewrite P2; reflexivity].
Qed.

(** Sizes that can be had *)
Definition modest (o : coll_op T) : Prop := match o with CSize n _ => n <= most | CNew _ _ => True end.
Lemma effective_modest ops : Forall modest ops -> forall size known, size <= most ->
  effective most size known ops = ops /\ panics most size known ops = map (fun _ => false) ops.
Proof.
  induction 1 as [|o ops Ho _ IH]; intros size known Hs; [split; reflexivity|].
  destruct o as [c t|n order]; cbn [effective panics map] in *; unfold too_large.
  - destruct (existsb _ known).
    + destruct (IH size known Hs) as [-> ->]. split; reflexivity.
    + destruct (Z.ltb_spec most size); [lia|]. destruct (IH size (c :: known) Hs) as [-> ->]. split; reflexivity.
  - cbn in Ho. destruct (Z.leb_spec n 0).
    + destruct (IH size known Hs) as [-> ->]. split; reflexivity.
    + destruct (Z.ltb_spec most n); [lia|]. destruct (IH n known Ho) as [-> ->]. split; reflexivity.
Qed.
End Lemmas.

From Verif Require Import Go S_RingBuf M_RingBuf L_RingBuf S_Collector M_RingBufs.
Open Scope Z_scope.

Lemma flat_map_ext_in {A B} (f g : A -> list B) l :
  (forall x, In x l -> f x = g x) -> flat_map f l = flat_map g l.
Proof.
  induction l as [|x l IH]; intros H; cbn [flat_map]; [reflexivity|].
  rewrite H by (left; reflexivity). rewrite IH; [reflexivity|]. intros y Hy. apply H. right; assumption.
Qed.

Section Lemmas.
Context {T : Type}.
Variable zero : T.
Implicit Types (s : rbs T) (f : string -> option (list T)).

Definition CRep s (cap : Z) f : Prop :=
  rbs_cap s = cap /\ 0 < cap /\ NoDup (map_keys (rbs_bufs s)) /\
  forall c, match map_get c (rbs_bufs s), f c with
            | Some r, Some l => Rep r l /\ length (rb_buf r) = Z.to_nat cap
            | None, None => True
            | _, _ => False
            end.

Definition olist (o : option (list T)) : list T := match o with Some l => l | None => [] end.

Lemma removelast_firstn_len {A} (l : list A) x :
  l <> [] -> x :: removelast l = firstn (length l) (x :: l).
Proof.
  intros H. rewrite removelast_firstn_len. destruct l as [|y l]; [congruence|]. reflexivity.
Qed.

Lemma skipn_len_last {A} (l : list A) x d :
  l <> [] -> skipn (length l) (x :: l) = [last l d].
Proof.
  revert x; induction l as [|y l IH]; [congruence|]. intros x _. cbn [length].
  change (skipn (S (length l)) (x :: y :: l)) with (skipn (length l) (y :: l)).
  destruct l as [|z l]; [reflexivity|]. rewrite IH by discriminate. reflexivity.
Qed.

Lemma bounded s cap f c l : CRep s cap f -> f c = Some l -> (length l <= Z.to_nat cap)%nat.
Proof.
  intros (_ & _ & _ & H) E. specialize (H c). rewrite E in H.
  destruct (map_get c (rbs_bufs s)); [|tauto]. destruct H as [HR <-].
  eapply Rep_len_le, HR.
Qed.

Lemma store_spec s cap f cat t :
  CRep s cap f ->
  let l := t :: olist (f cat) in
  exists s', StoreTrace zero s cat t = Ok (s', skipn (Z.to_nat cap) l) /\
    CRep s' cap (fun c => if String.eqb c cat then Some (firstn (Z.to_nat cap) l) else f c) /\
    map_keys (rbs_bufs s') =
      (match f cat with Some _ => map_keys (rbs_bufs s) | None => map_keys (rbs_bufs s) ++ [cat] end).
Proof.
  intros HC l. unfold StoreTrace.
  assert (HG : exists s1 r1 l1, GetOrCreate zero s cat = Ok s1 /\
             map_get cat (rbs_bufs s1) = Some r1 /\ Rep r1 l1 /\ length (rb_buf r1) = Z.to_nat cap /\
             l1 = olist (f cat) /\
             CRep s1 cap (fun c => if String.eqb c cat then Some l1 else f c) /\
             map_keys (rbs_bufs s1) =
      (match f cat with Some _ => map_keys (rbs_bufs s) | None => map_keys (rbs_bufs s) ++ [cat] end)).
  { destruct HC as (Hcap & Hpos & Hnd & H). unfold GetOrCreate.
    pose proof (H cat) as Hcat.
    destruct (map_get cat (rbs_bufs s)) as [r|] eqn:Eg.
    - destruct (f cat) as [l0|] eqn:Ef; [|tauto]. destruct Hcat as [HR Hlen].
      exists s, r, l0. repeat (split; [auto; reflexivity || assumption|]). split.
      + split; [assumption|]. split; [assumption|]. split; [assumption|].
        intros c. destruct (String.eqb_spec c cat) as [->|]; [rewrite Eg; auto|apply H].
      + reflexivity.
    - destruct (f cat) as [l0|] eqn:Ef; [tauto|].
      rewrite Hcap. destruct (New_spec zero cap ltac:(lia)) as (r & Er & HR & Hlen). rewrite Er. cbn [bind].
      eexists _, r, []. split; [reflexivity|]. cbn [rbs_bufs rbs_cap].
      split; [rewrite map_get_set, String.eqb_refl; reflexivity|].
      split; [assumption|]. split; [assumption|]. split; [reflexivity|]. split.
      + split; [reflexivity|]. split; [assumption|]. split; [apply map_keys_set_NoDup; assumption|].
        cbn [rbs_bufs].
        intros c. rewrite map_get_set. destruct (String.eqb_spec c cat) as [->|]; [auto|apply H].
      + rewrite map_keys_set, Eg. reflexivity. }
  destruct HG as (s1 & r1 & l1 & E1 & Eg & HR & Hlen & Hl1 & (Hcap & Hpos & Hnd & H) & Hk).
  rewrite E1. cbn [bind]. unfold AddTo. rewrite Eg.
  destruct (Add_spec zero r1 l1 t HR) as (r2 & EA & HR2 & Hlen2). rewrite EA.
  rewrite Hlen in *. destruct (Nat.eqb_spec (Z.to_nat cap) 0) as [|_]; [lia|].
  pose proof (Rep_len_le r1 l1 HR) as Hle. rewrite Hlen in Hle.
  assert (Hres : (if (length l1 =? Z.to_nat cap)%nat then t :: removelast l1 else t :: l1) = firstn (Z.to_nat cap) l).
  {    unfold l. rewrite <- Hl1. destruct (Nat.eqb_spec (length l1) (Z.to_nat cap)) as [He|Hne].
    - rewrite <- He. apply removelast_firstn_len. intros ->. cbn in He. lia.
    - rewrite firstn_all2; [reflexivity|]. cbn [length]. lia. }
  assert (Hdrop : (let '(d, b) := (if (length l1 =? Z.to_nat cap)%nat then (last l1 zero, true) else (zero, false)) in
                   if (b : bool) then [d] else []) = skipn (Z.to_nat cap) l).
  { unfold l. rewrite <- Hl1. destruct (Nat.eqb_spec (length l1) (Z.to_nat cap)) as [He|Hne].
    - rewrite <- He. rewrite (skipn_len_last l1 t zero); [reflexivity|]. intros ->. cbn in He. lia.
    - rewrite skipn_all2; [reflexivity|]. cbn [length]. lia. }
  cbn [bind]. destruct (if (length l1 =? Z.to_nat cap)%nat then (last l1 zero, true) else (zero, false)) as [d b].
  cbn [bind]. rewrite Hdrop. eexists. split; [reflexivity|]. cbn [rbs_bufs rbs_cap].
  rewrite Hres in HR2. split.
  - split; [assumption|]. split; [assumption|]. split; [apply map_keys_set_NoDup; assumption|].
    cbn [rbs_bufs]. intros c. rewrite map_get_set. pose proof (H c) as Hc.
    destruct (String.eqb c cat) eqn:Ec; [split; [assumption|lia]|exact Hc].
  - rewrite map_keys_set, Eg. exact Hk.
Qed.

Lemma resize_each_spec cap names : 0 < cap -> NoDup names ->
  forall bufs f dropped,
  NoDup (map_keys bufs) ->
  (forall c, match map_get c bufs, f c with
             | Some r, Some l => Rep r l | None, None => True | _, _ => False end) ->
  (forall n, In n names -> f n <> None) ->
  exists bufs', resize_each zero cap names bufs dropped
      = Ok (bufs', dropped ++ flat_map (fun n => skipn (Z.to_nat cap) (olist (f n))) names) /\
    map_keys bufs' = map_keys bufs /\
    (forall c, match map_get c bufs', f c with
             | Some r, Some l =>
                 if in_dec string_dec c names
                 then Rep r (firstn (Z.to_nat cap) l) /\ length (rb_buf r) = Z.to_nat cap
                 else map_get c bufs = Some r
             | None, None => True | _, _ => False end).
Proof.
  intros Hpos. induction names as [|n names IH]; intros Hnd bufs f dropped Hndk H Hin.
  - cbn [resize_each flat_map]. rewrite app_nil_r. exists bufs. split; [reflexivity|]. split; [reflexivity|].
    intros c. specialize (H c). destruct (map_get c bufs) eqn:?, (f c); auto; try tauto; destruct (in_dec string_dec c []) as [[]|]; reflexivity.
  - apply NoDup_cons_iff in Hnd as [Hni Hnd].
    cbn [resize_each flat_map]. pose proof (H n) as Hn. pose proof (Hin n (or_introl eq_refl)) as Hfn.
    destruct (f n) as [l|] eqn:Ef; [|congruence].
    destruct (map_get n bufs) as [r|] eqn:Eg; [|tauto].
    destruct (Resize_spec zero r l cap Hn) as (r' & ER & HR' & Hlen'). rewrite ER.
    destruct (Z.leb_spec cap 0); [lia|]. cbn [bind].
    set (f' := fun c => if String.eqb c n then Some (firstn (Z.to_nat cap) l) else f c).
    destruct (IH Hnd (map_set n r' bufs) f' (dropped ++ skipn (Z.to_nat cap) l)) as (bufs' & EI & Hk & HI).
    + apply map_keys_set_NoDup; assumption.
    + intros c. rewrite map_get_set. unfold f'. destruct (String.eqb_spec c n); [assumption|apply H].
    + intros m Hm. unfold f'. destruct (String.eqb_spec m n); [discriminate|]. apply Hin; right; assumption.
    + exists bufs'. split; [|split].
      * rewrite EI. f_equal. f_equal. rewrite <- app_assoc. f_equal. cbn [olist]. f_equal.
        apply flat_map_ext_in. intros m Hm. unfold f'. destruct (String.eqb_spec m n) as [->|]; [contradiction|reflexivity].
      * rewrite Hk, map_keys_set, Eg. reflexivity.
      * intros c. specialize (HI c). unfold f' in HI. rewrite map_get_set in HI.
        destruct (String.eqb_spec c n) as [Ec|Hcn].
        -- subst c. rewrite Ef. destruct (map_get n bufs') as [r0|]; [|tauto].
           destruct (in_dec string_dec n names) as [|_]; [contradiction|].
           destruct (in_dec string_dec n (n :: names)) as [_|C]; [|exfalso; apply C; left; reflexivity].
           injection HI as <-. split; [assumption|]. lia.
        -- destruct (map_get c bufs') as [r0|], (f c); try tauto.
           destruct (in_dec string_dec c names) as [Hc|Hc], (in_dec string_dec c (n :: names)) as [Hc'|Hc']; auto.
           ++ exfalso. apply Hc'. right; assumption.
           ++ exfalso. destruct Hc' as [->|]; [congruence|contradiction].
Qed.

Lemma size_spec s cap f n order :
  CRep s cap f -> is_order order ->
  exists s', SetCategorySize zero s n order
     = Ok (s', if n <=? 0 then [] else flat_map (fun c => skipn (Z.to_nat n) (olist (f c))) (order (map_keys (rbs_bufs s)))) /\
    CRep s' (if n <=? 0 then cap else n)
         (fun c => if n <=? 0 then f c else option_map (firstn (Z.to_nat n)) (f c)) /\
    map_keys (rbs_bufs s') = map_keys (rbs_bufs s).
Proof.
  intros (Hcap & Hpos & Hnd & H) Hord. unfold SetCategorySize, ResizeAll.
  destruct (Z.leb_spec n 0) as [Hn|Hn].
  { exists s. split; [reflexivity|]. split; [|reflexivity]. repeat split; assumption. }
  pose proof (Hord (map_keys (rbs_bufs s))) as HP.
  destruct (resize_each_spec n (order (map_keys (rbs_bufs s))) Hn
              (Permutation_NoDup (Permutation_sym HP) Hnd) (rbs_bufs s) f [] Hnd) as (bufs' & E & Hk & HI).
  - intros c. specialize (H c). destruct (map_get c (rbs_bufs s)), (f c); tauto.
  - intros c Hc Hf. apply (Permutation_in _ HP) in Hc. apply map_get_in in Hc.
    specialize (H c). rewrite Hf in H. destruct (map_get c (rbs_bufs s)); tauto.
  - rewrite E. cbn [bind app]. eexists. split; [reflexivity|]. split; [|exact Hk].
    split; [reflexivity|]. split; [assumption|]. cbn [rbs_bufs]. split; [rewrite Hk; assumption|].
    intros c. specialize (HI c). destruct (map_get c bufs') as [r|] eqn:Eg, (f c) eqn:Ef; cbn [option_map]; try tauto.
    destruct (in_dec string_dec c (order (map_keys (rbs_bufs s)))) as [|C]; [assumption|].
    exfalso. apply C. apply (Permutation_in _ (Permutation_sym HP)). rewrite <- Hk. apply map_get_in. congruence.
Qed.

(** What the collector should contain after a history, as a partial function. *)
Definition fspec (ops : list (coll_op T)) (c : string) : option (list T) :=
  if existsb (fun o => match o with CNew c' _ => String.eqb c' c | _ => false end) ops
  then Some (held c ops) else None.

Lemma held_unmentioned (ops : list (coll_op T)) c :
  existsb (fun o => match o with CNew c' _ => String.eqb c' c | _ => false end) ops = false ->
  held c ops = [].
Proof.
  unfold held. intros H.
  assert (H' : existsb (fun o : coll_op T => match o with CNew c' _ => String.eqb c' c | _ => false end) (rev ops) = false).
  { apply not_true_is_false. intros C. apply existsb_exists in C as (o & Ho & Hc).
    apply in_rev in Ho. apply not_true_iff_false in H. apply H. apply existsb_exists. eauto. }
  clear H. induction (rev ops) as [|o l IH]; [reflexivity|].
  cbn [existsb] in H'. apply orb_false_iff in H' as [H1 H2]. specialize (IH H2).
  cbn [held_rev]. destruct o as [c' t|n order].
  - rewrite H1. assumption.
  - rewrite IH. rewrite firstn_nil. destruct (0 <? n); reflexivity.
Qed.

Lemma olist_fspec (ops : list (coll_op T)) c : olist (fspec ops c) = held c ops.
Proof.
  unfold fspec. destruct (existsb _ ops) eqn:E; [reflexivity|]. cbn [olist].
  symmetry. apply held_unmentioned. exact E.
Qed.

Lemma size_after_snoc (ops : list (coll_op T)) o :
  size_after (ops ++ [o]) = match o with CSize n _ => if 0 <? n then n else size_after ops | CNew _ _ => size_after ops end.
Proof. unfold size_after. rewrite fold_left_app. destruct o; reflexivity. Qed.

Lemma held_snoc ops (o : coll_op T) c :
  held c (ops ++ [o]) =
  match o with
  | CNew c' t => if String.eqb c' c then firstn (Z.to_nat (size_after ops)) (t :: held c ops) else held c ops
  | CSize n _ => if 0 <? n then firstn (Z.to_nat n) (held c ops) else held c ops
  end.
Proof.
  unfold held. rewrite rev_app_distr. cbn [rev app held_rev]. rewrite rev_involutive. reflexivity.
Qed.

Lemma fspec_snoc ops (o : coll_op T) c :
  fspec (ops ++ [o]) c =
  match o with
  | CNew c' t => if String.eqb c c' then Some (firstn (Z.to_nat (size_after ops)) (t :: held c ops)) else fspec ops c
  | CSize n _ => if 0 <? n then option_map (firstn (Z.to_nat n)) (fspec ops c) else fspec ops c
  end.
Proof.
  unfold fspec. rewrite existsb_app. cbn [existsb]. rewrite held_snoc. rewrite orb_false_r.
  destruct o as [c' t|n order].
  - rewrite (String.eqb_sym c c'). destruct (String.eqb c' c); rewrite ?orb_true_r, ?orb_false_r; reflexivity.
  - rewrite orb_false_r. destruct (0 <? n), (existsb _ ops); reflexivity.
Qed.

Lemma CRep_ext s cap cap' f g : cap = cap' -> (forall c, f c = g c) -> CRep s cap f -> CRep s cap' g.
Proof.
  intros -> H (A & B & C & D). repeat (split; [assumption|]). intros c. rewrite <- H. apply D.
Qed.

Lemma CRep_init : CRep (new_collector_storage (T:=T)) (size_after (T:=T) []) (fspec []).
Proof.
  split; [reflexivity|]. split; [reflexivity|]. split; [constructor|]. intros c. cbn. exact I.
Qed.

Lemma coll_step_spec s pre o :
  CRep s (size_after pre) (fspec pre) -> valid_op o ->
  exists s' freed, coll_step zero s o = Ok (s', freed) /\
    CRep s' (size_after (pre ++ [o])) (fspec (pre ++ [o])) /\
    freed = match o with
            | CNew c t => skipn (Z.to_nat (size_after pre)) (t :: held c pre)
            | CSize n order => if n <=? 0 then [] else
                flat_map (fun c => skipn (Z.to_nat n) (held c pre)) (order (map_keys (rbs_bufs s)))
            end /\
    map_keys (rbs_bufs s') = match o with
            | CNew c t => match fspec pre c with Some _ => map_keys (rbs_bufs s) | None => map_keys (rbs_bufs s) ++ [c] end
            | CSize n order => map_keys (rbs_bufs s) end.
Proof.
  intros HC Hv. destruct o as [c t|n order]; cbn [coll_step].
  - destruct (store_spec s _ _ c t HC) as (s' & E & HC' & Hk). rewrite olist_fspec in E, HC'.
    eexists _, _. split; [exact E|]. split; [|split; [reflexivity|exact Hk]].
    eapply CRep_ext; [| |exact HC'].
    + symmetry. apply size_after_snoc.
    + intros c'. rewrite fspec_snoc. destruct (String.eqb_spec c' c) as [->|]; reflexivity.
  - destruct (size_spec s _ _ n order HC Hv) as (s' & E & HC' & Hk).
    eexists _, _. split; [exact E|]. split; [|split; [|exact Hk]].
    + eapply CRep_ext; [| |exact HC'].
      * rewrite size_after_snoc. destruct (Z.leb_spec n 0), (Z.ltb_spec 0 n); lia || reflexivity.
      * intros c'. cbn beta. rewrite fspec_snoc. destruct (Z.leb_spec n 0), (Z.ltb_spec 0 n); try lia; reflexivity.
    + destruct (n <=? 0); [reflexivity|]. apply flat_map_ext. intros c. now rewrite olist_fspec.
Qed.

Lemma coll_run_spec ops : forall s pre,
  CRep s (size_after pre) (fspec pre) -> Forall valid_op ops ->
  exists s' freed, coll_run zero s ops = Ok (s', freed) /\
    CRep s' (size_after (pre ++ ops)) (fspec (pre ++ ops)).
Proof.
  induction ops as [|o ops IH]; intros s pre HC Hv.
  - exists s, []. rewrite app_nil_r. split; [reflexivity|assumption].
  - inversion Hv as [|? ? Hvo Hvs]; subst.
    destruct (coll_step_spec s pre o HC Hvo) as (s1 & f1 & E1 & HC1 & _).
    destruct (IH s1 _ HC1 Hvs) as (s2 & f2 & E2 & HC2).
    cbn [coll_run]. rewrite E1. cbn [bind]. rewrite E2. cbn [bind].
    eexists _, _. split; [reflexivity|]. rewrite <- app_assoc in HC2. exact HC2.
Qed.

Lemma fspec_mentioned ops c : fspec ops c <> None <-> mentioned c ops.
Proof.
  unfold fspec, mentioned. destruct (existsb _ ops) eqn:E.
  - split; [|discriminate]. intros _. apply existsb_exists in E as (o & Ho & He).
    destruct o as [c' t|]; [|discriminate]. apply String.eqb_eq in He. subst. eauto.
  - split; [congruence|]. intros (t & Hin). exfalso. apply not_true_iff_false in E. apply E.
    apply existsb_exists. exists (CNew c t). split; [assumption|]. apply String.eqb_refl.
Qed.

Lemma content_spec s cap f c :
  CRep s cap f -> category_content s c = option_map (fun l => Ok l) (f c).
Proof.
  intros (_ & _ & _ & H). specialize (H c). unfold category_content.
  destruct (map_get c (rbs_bufs s)) as [r|], (f c) as [l|]; try tauto; try reflexivity.
  destruct H as [HR _]. rewrite (Walk_spec zero _ r l [] HR), visit_collect. reflexivity.
Qed.

Lemma collector_holds_most_recent ops :
  Forall valid_op ops ->
  exists s freed,
    coll_run zero new_collector_storage ops = Ok (s, freed) /\
    rbs_cap s = size_after ops /\
    NoDup (map_keys (rbs_bufs s)) /\
    (forall c r, map_get c (rbs_bufs s) = Some r -> zlen (rb_buf r) = size_after ops) /\
    (forall c, In c (map_keys (rbs_bufs s)) <-> mentioned c ops) /\
    (forall c, mentioned c ops -> category_content s c = Some (Ok (held c ops))).
Proof.
  intros Hv. destruct (coll_run_spec ops _ [] CRep_init Hv) as (s & freed & E & HC).
  exists s, freed. cbn [app] in *. split; [exact E|].
  pose proof HC as (Hcap & Hpos & Hnd & H).
  split; [assumption|]. split; [assumption|]. split; [|split].
  - intros c r Eg. specialize (H c). rewrite Eg in H. destruct (fspec ops c); [|tauto].
    destruct H as [_ Hlen]. unfold zlen. rewrite Hlen. lia.
  - intros c. rewrite <- map_get_in, <- fspec_mentioned. specialize (H c).
    destruct (map_get c (rbs_bufs s)), (fspec ops c); split; try tauto; congruence.
  - intros c Hm. rewrite (content_spec _ _ _ c HC).
    unfold fspec. apply fspec_mentioned in Hm. unfold fspec in Hm.
    destruct (existsb _ ops); [reflexivity|congruence].
Qed.

(** C05 *)
Lemma contents_of_spec s cap f names :
  CRep s cap f -> (forall n, In n names -> f n <> None) ->
  contents_of names s = Ok (flat_map (fun n => olist (f n)) names).
Proof.
  intros HC. induction names as [|n names IH]; intros Hin; [reflexivity|].
  cbn [contents_of flat_map]. rewrite (content_spec _ _ _ n HC).
  pose proof (Hin n (or_introl eq_refl)) as Hn. destruct (f n) as [l|]; [|congruence].
  cbn [option_map bind olist]. rewrite IH by (intros m Hm; apply Hin; right; assumption). reflexivity.
Qed.

Lemma all_contents_spec s cap f :
  CRep s cap f -> all_contents s = Ok (flat_map (fun n => olist (f n)) (map_keys (rbs_bufs s))).
Proof.
  intros HC. apply (contents_of_spec s cap f); [assumption|]. intros n Hn.
  apply map_get_in in Hn. destruct HC as (_ & _ & _ & H). specialize (H n).
  destruct (map_get n (rbs_bufs s)), (f n); try tauto; congruence.
Qed.

Lemma flat_map_perm {A B} (g : A -> list B) l l' :
  Permutation l l' -> Permutation (flat_map g l) (flat_map g l').
Proof.
  induction 1; cbn [flat_map].
  - constructor.
  - now apply Permutation_app_head.
  - apply Permutation_app_swap_app.
  - etransitivity; eassumption.
Qed.

Lemma flat_map_split {A B} (g h1 h2 : A -> list B) l :
  (forall x, In x l -> g x = h1 x ++ h2 x) ->
  Permutation (flat_map g l) (flat_map h1 l ++ flat_map h2 l).
Proof.
  induction l as [|x l IH]; intros H; cbn [flat_map]; [constructor|].
  rewrite H by (left; reflexivity). rewrite IH by (intros y Hy; apply H; right; assumption).
  rewrite <- !app_assoc. apply Permutation_app_head. apply Permutation_app_swap_app.
Qed.

Lemma flat_map_one {B} (g h : string -> list B) c l :
  NoDup l -> In c l -> (forall x, x <> c -> g x = h x) ->
  exists rest, Permutation (flat_map g l) (g c ++ rest) /\ Permutation (flat_map h l) (h c ++ rest).
Proof.
  induction l as [|x l IH]; intros Hnd Hin Heq; [destruct Hin|].
  apply NoDup_cons_iff in Hnd as [Hni Hnd]. destruct Hin as [->|Hin].
  - exists (flat_map h l). cbn [flat_map]. split; [|reflexivity].
    replace (flat_map g l) with (flat_map h l); [reflexivity|].
    apply flat_map_ext_in. intros y Hy. symmetry. apply Heq. intros ->. contradiction.
  - destruct (IH Hnd Hin Heq) as (rest & H1 & H2). exists (h x ++ rest). cbn [flat_map]. split.
    + rewrite H1. rewrite Heq by (intros ->; contradiction). apply Permutation_app_swap_app.
    + rewrite H2. apply Permutation_app_swap_app.
Qed.

Lemma step_conserve s pre o s' freed contents :
  CRep s (size_after pre) (fspec pre) -> valid_op o ->
  coll_step zero s o = Ok (s', freed) ->
  all_contents s = Ok contents ->
  CRep s' (size_after (pre ++ [o])) (fspec (pre ++ [o])) /\
  exists contents', all_contents s' = Ok contents' /\
    Permutation (created [o] ++ contents) (contents' ++ freed).
Proof.
  intros HC Hv E HA. destruct (coll_step_spec s pre o HC Hv) as (s1 & f1 & E1 & HC1 & Hf & Hk).
  rewrite E in E1. injection E1 as <- <-. split; [assumption|].
  rewrite (all_contents_spec _ _ _ HC) in HA. injection HA as <-.
  eexists. split; [apply (all_contents_spec _ _ _ HC1)|].
  rewrite Hk, Hf. clear Hf Hk.
  destruct o as [c t|n order].
  - cbn [created flat_map app].
    assert (Hc1 : fspec (pre ++ [CNew c t]) c = Some (firstn (Z.to_nat (size_after pre)) (t :: held c pre))).
    { rewrite fspec_snoc, String.eqb_refl. reflexivity. }
    assert (Hne : forall x, x <> c -> olist (fspec pre x) = olist (fspec (pre ++ [CNew c t]) x)).
    { intros x Hx. rewrite fspec_snoc. destruct (String.eqb_spec x c); [contradiction|reflexivity]. }
    destruct (fspec pre c) as [l|] eqn:Ef.
    + destruct (flat_map_one (fun n => olist (fspec pre n)) (fun n => olist (fspec (pre ++ [CNew c t]) n)) c
                  (map_keys (rbs_bufs s))) as (rest & H1 & H2).
      * apply HC.
      * apply map_get_in. destruct HC as (_ & _ & _ & H). specialize (H c). rewrite Ef in H.
        destruct (map_get c (rbs_bufs s)); [discriminate|tauto].
      * exact Hne.
      * rewrite H1, H2, Hc1. rewrite olist_fspec. cbn [olist].
        rewrite <- app_assoc. rewrite (Permutation_app_comm rest), app_assoc, firstn_skipn. reflexivity.
    + rewrite flat_map_app. cbn [flat_map]. rewrite Hc1. cbn [olist].
      assert (Hl : held c pre = []) by (rewrite <- olist_fspec, Ef; reflexivity). rewrite Hl.
      rewrite app_nil_r, <- app_assoc, firstn_skipn.
      rewrite <- Permutation_cons_append. apply perm_skip.
      replace (flat_map (fun n => olist (fspec (pre ++ [CNew c t]) n)) (map_keys (rbs_bufs s)))
        with (flat_map (fun n => olist (fspec pre n)) (map_keys (rbs_bufs s))); [reflexivity|].
      apply flat_map_ext_in. intros x Hx. apply Hne. intros ->.
      apply map_get_in in Hx. destruct HC as (_ & _ & _ & H). specialize (H c). rewrite Ef in H.
      destruct (map_get c (rbs_bufs s)); [tauto|congruence].
  - cbn [created flat_map app].
    destruct (Z.leb_spec n 0) as [Hn|Hn].
    + rewrite app_nil_r. replace (flat_map (fun c => olist (fspec (pre ++ [CSize n order]) c)) (map_keys (rbs_bufs s)))
        with (flat_map (fun c => olist (fspec pre c)) (map_keys (rbs_bufs s))); [reflexivity|].
      apply flat_map_ext. intros c. rewrite fspec_snoc. destruct (Z.ltb_spec 0 n); [lia|reflexivity].
    + rewrite (flat_map_perm _ _ _ (Hv (map_keys (rbs_bufs s)))).
      apply flat_map_split. intros c _. rewrite !olist_fspec, held_snoc.
      destruct (Z.ltb_spec 0 n); [|lia]. symmetry. apply firstn_skipn.
Qed.

Lemma created_cons (o : coll_op T) ops : created (o :: ops) = created [o] ++ created ops.
Proof. unfold created. cbn [flat_map]. rewrite app_nil_r. reflexivity. Qed.

Lemma run_conserve ops : forall s pre s' freed contents,
  CRep s (size_after pre) (fspec pre) -> Forall valid_op ops ->
  coll_run zero s ops = Ok (s', freed) -> all_contents s = Ok contents ->
  exists contents', all_contents s' = Ok contents' /\
    Permutation (created ops ++ contents) (contents' ++ freed).
Proof.
  induction ops as [|o ops IH]; intros s pre s' freed contents HC Hv E HA.
  - cbn in E. injection E as <- <-. exists contents. rewrite app_nil_r. split; [assumption|reflexivity].
  - inversion Hv as [|? ? Hvo Hvs]; subst. cbn [coll_run] in E.
    destruct (coll_step zero s o) as [[s1 f1]|] eqn:E1; [|discriminate]. cbn [bind] in E.
    destruct (coll_run zero s1 ops) as [[s2 f2]|] eqn:E2; [|discriminate]. cbn [bind] in E.
    injection E as <- <-.
    destruct (step_conserve s pre o s1 f1 contents HC Hvo E1 HA) as (HC1 & cs1 & HA1 & HP1).
    destruct (IH s1 _ s2 f2 cs1 HC1 Hvs E2 HA1) as (cs2 & HA2 & HP2).
    exists cs2. split; [assumption|]. rewrite created_cons.
    rewrite <- app_assoc, Permutation_app_swap_app, HP1, app_assoc, HP2, <- app_assoc.
    apply Permutation_app_head, Permutation_app_comm.
Qed.

Lemma evicted_freed_once ops s freed :
  Forall valid_op ops ->
  coll_run zero new_collector_storage ops = Ok (s, freed) ->
  exists contents, all_contents s = Ok contents /\ Permutation (created ops) (contents ++ freed).
Proof.
  intros Hv E. destruct (run_conserve ops _ [] _ _ [] CRep_init Hv E eq_refl) as (cs & HA & HP).
  exists cs. rewrite app_nil_r in HP. auto.
Qed.

Lemma evicted_step ops o s freed s' freed' contents :
  Forall valid_op ops -> valid_op o ->
  coll_run zero new_collector_storage ops = Ok (s, freed) ->
  all_contents s = Ok contents ->
  coll_step zero s o = Ok (s', freed') ->
  exists contents', all_contents s' = Ok contents' /\
    Permutation (created [o] ++ contents) (contents' ++ freed').
Proof.
  intros Hv Hvo E HA E'. destruct (coll_run_spec ops _ [] CRep_init Hv) as (s1 & f1 & E1 & HC).
  rewrite E in E1. injection E1 as <- <-. cbn [app] in HC.
  apply (step_conserve s ops o s' freed' contents HC Hvo E' HA).
Qed.

Lemma held_not_freed ops s freed contents :
  Forall valid_op ops -> NoDup (created ops) ->
  coll_run zero new_collector_storage ops = Ok (s, freed) ->
  all_contents s = Ok contents ->
  NoDup freed /\ NoDup contents /\ (forall t, In t contents -> ~ In t freed).
Proof.
  intros Hv Hnd E HA. destruct (evicted_freed_once ops s freed Hv E) as (cs & HA' & HP).
  rewrite HA in HA'. injection HA' as <-. apply (Permutation_NoDup HP) in Hnd. clear -Hnd.
  induction contents as [|x l IH]; cbn [app] in Hnd.
  - split; [assumption|]. split; [constructor|]. intros t [].
  - apply NoDup_cons_iff in Hnd as [Hni Hnd]. destruct (IH Hnd) as (H1 & H2 & H3).
    split; [assumption|]. split.
    + constructor; [|assumption]. intros C. apply Hni. apply in_or_app. auto.
    + intros t [->|Ht]; [|apply H3; assumption]. intros C. apply Hni. apply in_or_app. auto.
Qed.

End Lemmas.

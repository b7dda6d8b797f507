(** C111: 64-bit integers and category sizes that cannot be had. *)
From Verif Require Import Go S_RingBuf M_RingBuf L_RingBuf P_RingBuf S_Collector M_RingBufs L_RingBufs P_Storage M_Sizes S_Sizes L_Sizes.
Open Scope Z_scope.

(** No arithmetic of the ring buffer overflows: with 64-bit integers that wrap around it is the bounded
    list of C01, in every sequence of calls with sizes that can be had. *)
Theorem C111_ring_buffer :
  forall (T : Type) (zero : T) (most cap : Z) (ops : list (rb_op T)),
    0 <= cap <= most -> most < 2 ^ 62 -> (forall n, In (OResize n) ops -> n <= most) ->
    exists r0 r',
      NewRingBuffer64 zero most cap = Ok r0 /\
      rb_run64 zero most r0 ops = Ok (r', snd (bl_run zero (MkBL (Z.to_nat cap) []) ops)).
Proof.
  intros T zero most cap ops Hc Hm Ho.
  destruct (C01_ringbuf_is_bounded_list T zero cap ops ltac:(lia)) as (r0 & r' & E & ER).
  exists r0, r'. unfold NewRingBuffer64. rewrite make64_ok by lia. split; [exact E|].
  destruct (New_spec zero cap ltac:(lia)) as (r1 & E1 & HR & Hl). rewrite E in E1. injection E1 as <-.
  rewrite (rb_run64_ok zero most ltac:(lia) ops) with (b := MkBL (Z.to_nat cap) []); [exact ER| |split; assumption|cbn; lia].
  apply Forall_forall. intros [x|n| |] Hin; auto.
Qed.
Print Assumptions C111_ring_buffer.

(** What Walk visits in a category *)
Definition content64 {T} (s : rbs T) (c : string) : option (res (list T)) :=
  match map_get c (rbs_bufs s) with
  | None => None
  | Some r => Some ('(vs, _) <- Walk64 (Err := unit) (fun s v => (s ++ [v], None)) r [] ;; Ok vs)
  end.

Lemma effective_size {T} most (ops : list (coll_op T)) : forall size known g, g <= most ->
  fold_left (fun size o => match o with CSize n _ => if 0 <? n then n else size | CNew _ _ => size end) (effective most size known ops) g <= most.
Proof.
  induction ops as [|[c t|n order] ops IH]; intros size known g Hg; cbn [effective]; [exact Hg| |].
  - destruct (existsb _ known); [cbn [fold_left]; auto|]. destruct (too_large most size); [auto|]. cbn [fold_left]. auto.
  - unfold too_large. destruct (Z.leb_spec n 0).
    + cbn [fold_left]. destruct (Z.ltb_spec 0 n); [lia|]. auto.
    + destruct (Z.ltb_spec most n); [auto|]. cbn [fold_left]. destruct (0 <? n); auto.
Qed.
Lemma effective_valid {T} most (ops : list (coll_op T)) : Forall valid_op ops -> forall size known, Forall valid_op (effective most size known ops).
Proof.
  induction 1 as [|[c t|n order] ops Hv _ IH]; intros size known; cbn [effective]; [constructor| |].
  - destruct (existsb _ known); [constructor; auto|]. destruct (too_large most size); [auto|]. constructor; auto.
  - destruct (n <=? 0); [constructor; auto|]. destruct (too_large most n); [auto|constructor; auto].
Qed.

(** Whatever sizes are asked for: the calls that panic are exactly those the specification lists, and the
    others have the effect they would have if the calls that cannot be granted had not been made. *)
Theorem C111_any_sizes :
  forall (T : Type) (zero : T) (most : Z) (ops : list (coll_op T)),
    1000 <= most < 2 ^ 62 -> Forall valid_op ops ->
    let granted := effective most 1000 [] ops in
    let '(s, answers) := coll_run64 zero most new_collector_storage ops in
    map is_panic answers = panics most 1000 [] ops /\
    (forall c, content64 s c <> None <-> mentioned c granted) /\
    (forall c, mentioned c granted -> content64 s c = Some (Ok (held c granted))) /\
    exists contents, all_contents s = Ok contents /\
      Permutation (created granted) (contents ++ flat_map (fun a => match a with Some freed => freed | None => [] end) answers).
Proof.
  intros T zero most ops Hm Hv granted.
  pose proof (coll_run64_spec zero most ltac:(lia) ops Hv new_collector_storage new_collector_storage [] []) as H.
  destruct H as (s & freed & E & B & F & P).
  - apply CRep_init.
  - change (size_after []) with 1000. lia.
  - reflexivity.
  - reflexivity.
  - intros x. reflexivity.
  - destruct (coll_run64 zero most new_collector_storage ops) as [s64 answers]. cbn [fst snd] in *.
    change (rbs_cap new_collector_storage) with 1000 in *. fold granted in E.
    destruct (C04_categories_hold_most_recent T zero granted) as (s' & freed' & E' & _ & _ & Hcap & Hk & Hh).
    { apply effective_valid, Hv. }
    rewrite E in E'. injection E' as <- <-.
    assert (Hsz : size_after granted <= most) by (apply effective_size; lia).
    assert (Hcc : forall c, content64 s64 c = category_content s c).
    { intros c. unfold content64, category_content. rewrite B. destruct (map_get c (rbs_bufs s)) as [r|] eqn:Er; [|reflexivity].
      rewrite (Walk64_ok zero most ltac:(lia)); [reflexivity|].
      destruct (coll_run_spec zero granted _ [] CRep_init (effective_valid most ops Hv _ _)) as (s1 & f1 & E1 & HC).
      rewrite E in E1. injection E1 as <- <-. eapply CRep_fits; [lia|exact HC|exact Hsz|exact Er]. }
    split; [exact P|]. split; [|split].
    + intros c. rewrite <- Hk, Hcc. unfold category_content. rewrite <- map_get_in.
      destruct (map_get c (rbs_bufs s)); split; congruence.
    + intros c Hmn. rewrite Hcc. apply Hh, Hmn.
    + destruct (C05_created_is_held_plus_freed T zero granted s freed) as (contents & EC & HP).
      { apply effective_valid, Hv. }
      { exact E. }
      exists contents. split; [|rewrite <- F in HP; exact HP].
      unfold all_contents in *. rewrite B. rewrite <- EC.
      assert (HX : forall names, contents_of names s64 = contents_of names s); [|apply HX].
      induction names as [|n names IH]; cbn [contents_of]; [reflexivity|]. rewrite IH. unfold category_content. rewrite B. reflexivity.
Qed.
Print Assumptions C111_any_sizes.

(** In particular: if only sizes are asked for that can be had, no call panics, and every call has its
    effect. *)
Theorem C111_sizes_that_can_be_had :
  forall (T : Type) (zero : T) (most : Z) (ops : list (coll_op T)),
    1000 <= most < 2 ^ 62 -> Forall valid_op ops -> (forall n order, In (CSize n order) ops -> n <= most) ->
    let '(s, answers) := coll_run64 zero most new_collector_storage ops in
    (forall a, In a answers -> a <> None) /\
    (forall c, mentioned c ops -> content64 s c = Some (Ok (held c ops))).
Proof.
  intros T zero most ops Hm Hv Ho. pose proof (C111_any_sizes T zero most ops Hm Hv) as H. cbn zeta in H.
  destruct (effective_modest most ops) with (size := 1000) (known := @nil string) as [E1 E2].
  { apply Forall_forall. intros [c t|n order] Hin; cbn; [exact Logic.I|]. eapply Ho, Hin. }
  { lia. }
  rewrite E1, E2 in H. destruct (coll_run64 zero most new_collector_storage ops) as [s answers].
  destruct H as (P & _ & Hh & _). split; [|exact Hh].
  intros a Ha ->. apply (List.in_map is_panic) in Ha. rewrite P in Ha. apply in_map_iff in Ha as (x & Hx & _). discriminate.
Qed.
Print Assumptions C111_sizes_that_can_be_had.

Lemma coll_run64_app {T} (zero : T) most a : forall s b,
  coll_run64 zero most s (a ++ b) =
  let '(s1, xs) := coll_run64 zero most s a in let '(s2, ys) := coll_run64 zero most s1 b in (s2, xs ++ ys).
Proof.
  induction a as [|o a IH]; intros s b; cbn [app coll_run64]; [destruct (coll_run64 zero most s b); reflexivity|].
  destruct (coll_step64 zero most s o) as [s1 x]. rewrite IH. destruct (coll_run64 zero most s1 a) as [s2 xs].
  destruct (coll_run64 zero most s2 b). reflexivity.
Qed.

(** Finding: a SetCategorySize that panics is remembered.  In any collector, of any history, let it ask for
    a size that is too large.  Then every first NewTrace of a category panics and the trace is not
    stored, for ever -- whatever is created in between -- until another size is asked for. *)
Theorem C111_size_sticks_refuted :
  forall (T : Type) (zero : T) (most : Z) (ops news : list (coll_op T)) (n : Z) (order : list string -> list string) (d : string) (t : T),
    1000 <= most < 2 ^ 62 -> Forall valid_op (CSize n order :: ops) -> most < n ->
    (forall o, In o news -> exists c t', o = CNew c t') ->
    let '(s, answers) := coll_run64 zero most new_collector_storage ops in
    content64 s d = None ->
    let '(s', answers') := coll_run64 zero most s (CSize n order :: news ++ [CNew d t]) in
    content64 s' d = None /\ last answers' (Some []) = None /\
    (* the call panics if there is a category *)
    ((exists c, content64 s c <> None) -> hd (Some []) answers' = None).
Proof.
  intros T zero most ops news n order d t Hm Hv Hn Hnews.
  destruct (coll_run64 zero most new_collector_storage ops) as [s answers] eqn:E0. intros Hd.
  cbn [coll_run64 coll_step64]. apply Forall_cons_iff in Hv as [Ho Hv]. change (is_order order) in Ho. rewrite size64_panic by (assumption || lia).
  assert (Hd' : map_get d (rbs_bufs s) = None) by (unfold content64 in Hd; destruct (map_get d (rbs_bufs s)); [discriminate|reflexivity]).
  assert (HX : forall news (s1 : rbs T), (forall o, In o news -> exists c t', o = CNew c t') -> most < rbs_cap s1 -> map_get d (rbs_bufs s1) = None ->
    let '(s', ans) := coll_run64 zero most s1 (news ++ [CNew d t]) in
    map_get d (rbs_bufs s') = None /\ last ans (Some []) = None /\ ans <> []).
  { clear. induction news as [|o news IH]; intros s1 Hnews Hc Hg; cbn [app coll_run64 coll_step64].
    - rewrite store64_panic by assumption. cbn. repeat split; [assumption|discriminate].
    - destruct (Hnews o (or_introl eq_refl)) as (c & t' & ->). cbn [coll_step64].
      destruct (StoreTrace64 zero most s1 c t') as [s2 x] eqn:E2.
      assert (H2 : most < rbs_cap s2 /\ map_get d (rbs_bufs s2) = None).
      { unfold StoreTrace64 in E2. destruct (map_get c (rbs_bufs s1)) as [r|] eqn:Er.
        - destruct (Add64 zero r t') as [[r' [dd b]]|]; injection E2 as <- _; cbn [rbs_cap rbs_bufs]; [|auto].
          rewrite map_get_set. destruct (String.eqb_spec d c) as [->|]; [congruence|auto].
        - unfold NewRingBuffer64 in E2. rewrite make64_panic in E2 by assumption. cbn [bind] in E2. injection E2 as <- _. auto. }
      specialize (IH s2 (fun o Hin => Hnews o (or_intror Hin)) (proj1 H2) (proj2 H2)).
      destruct (coll_run64 zero most s2 (news ++ [CNew d t])) as [s3 xs]. destruct IH as (A & B & C).
      repeat split; [assumption| |discriminate]. destruct xs; [congruence|exact B]. }
  specialize (HX news (MkRBS n (rbs_bufs s)) Hnews Hn Hd').
  destruct (coll_run64 zero most (MkRBS n (rbs_bufs s)) (news ++ [CNew d t])) as [s3 xs]. destruct HX as (A & B & C).
  split; [unfold content64; rewrite A; reflexivity|]. split; [destruct xs; [congruence|exact B]|].
  intros (c & Hc). unfold content64 in Hc. cbn [hd]. destruct (rbs_bufs s) as [|p bufs]; [cbn in Hc; congruence|reflexivity].
Qed.
Print Assumptions C111_size_sticks_refuted.

(** A small machine, whose slices have at most 1000 elements. *)
Example C111_instance :
  let id := fun ks : list string => ks in
  let ops := [CNew "a" 1; CNew "a" 2; CSize 1001 id; CNew "a" 3; CNew "b" 4; CSize 0 id; CNew "b" 5; CSize 2 id; CNew "b" 6]%string in
  Forall valid_op ops /\
  let '(s, answers) := coll_run64 0 1000 new_collector_storage ops in
  answers = [Some []; Some []; None; Some []; None; Some []; None; Some [1]; Some []] /\
  content64 s "a" = Some (Ok [3; 2]) /\ content64 s "b" = Some (Ok [6]) /\
  wrap (2 ^ 63) = - 2 ^ 63 /\ wrap (- 2 ^ 63 - 1) = 2 ^ 63 - 1.
Proof.
  intros id ops. split.
  - repeat constructor; intros ks; reflexivity.
  - vm_compute. repeat split.
Qed.

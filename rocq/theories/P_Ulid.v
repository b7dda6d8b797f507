(** C63: the IDs of traces increase. *)
From Verif Require Import Go M_Types M_Search S_Search L_Search M_Ulid.
From Coq Require Import Sorted.
Open Scope string_scope.
Open Scope list_scope.
Open Scope Z_scope.

Lemma digits_ascend : forall d e, 0 <= d < 32 -> 0 <= e < 32 -> d < e -> Ascii.compare (digit d) (digit e) = Lt.
Proof.
  assert (H : forallb (fun d => forallb (fun e => negb (Nat.ltb d e) || match Ascii.compare (digit (Z.of_nat d)) (digit (Z.of_nat e)) with Lt => true | _ => false end) (seq 0 32)) (seq 0 32) = true)
    by (vm_compute; reflexivity).
  intros d e Hd He L. rewrite forallb_forall in H. specialize (H (Z.to_nat d)). rewrite forallb_forall in H. specialize (H ltac:(apply in_seq; lia) (Z.to_nat e) ltac:(apply in_seq; lia)).
  rewrite !Z2Nat.id in H by lia. replace (Nat.ltb (Z.to_nat d) (Z.to_nat e)) with true in H by (symmetry; apply Nat.ltb_lt; lia). cbn [negb orb] in H.
  destruct (Ascii.compare (digit d) (digit e)); congruence.
Qed.
Lemma ascii_compare_refl a : Ascii.compare a a = Eq.
Proof. unfold Ascii.compare. apply N.compare_refl. Qed.
Lemma pow_S n : 32 ^ Z.of_nat (S n) = 32 * 32 ^ Z.of_nat n.
Proof. rewrite Nat2Z.inj_succ, Z.pow_succ_r by lia. reflexivity. Qed.
Lemma text_lt : forall n x y, x mod 32 ^ Z.of_nat n < y mod 32 ^ Z.of_nat n -> String.compare (text n x) (text n y) = Lt.
Proof.
  induction n as [|n IH]; intros x y H; [cbn in H; rewrite !Z.mod_1_r in H; lia|].
  assert (P : 0 < 32 ^ Z.of_nat n) by (apply Z.pow_pos_nonneg; lia). rewrite pow_S in H.
  assert (R : forall z, z mod (32 * 32 ^ Z.of_nat n) = z mod 32 ^ Z.of_nat n + 32 ^ Z.of_nat n * ((z / 32 ^ Z.of_nat n) mod 32)) by (intros z; rewrite Z.mul_comm; apply Z.rem_mul_r; lia).
  rewrite !R in H.
  pose proof (Z.mod_pos_bound x (32 ^ Z.of_nat n) P). pose proof (Z.mod_pos_bound y (32 ^ Z.of_nat n) P).
  pose proof (Z.mod_pos_bound (x / 32 ^ Z.of_nat n) 32 ltac:(lia)). pose proof (Z.mod_pos_bound (y / 32 ^ Z.of_nat n) 32 ltac:(lia)).
  cbn [text String.compare].
  set (dx := (x / 32 ^ Z.of_nat n) mod 32) in *. set (dy := (y / 32 ^ Z.of_nat n) mod 32) in *.
  destruct (Z.lt_trichotomy dx dy) as [L|[E|G]].
  - rewrite (digits_ascend dx dy) by lia. reflexivity.
  - rewrite E, ascii_compare_refl. apply IH. rewrite E in H. lia.
  - exfalso. assert (32 ^ Z.of_nat n * (dy + 1) <= 32 ^ Z.of_nat n * dx) by (apply Z.mul_le_mono_nonneg_l; lia). lia.
Qed.
Lemma text_lt_128 x y : 0 <= x -> x < y -> y < 2 ^ 128 -> String.ltb (ulid_String x) (ulid_String y) = true.
Proof.
  intros H1 H2 H3. unfold String.ltb, ulid_String. rewrite text_lt; [reflexivity|].
  assert (2 ^ 128 < 32 ^ Z.of_nat 26) by (vm_compute; reflexivity). rewrite !Z.mod_small by lia. exact H2.
Qed.

(** What a random source gives: nothing is assumed about it, except that 80 drawn bits are
    not all zero. *)
Definition proper (r : randomness) : Prop := 0 < draw r < 2 ^ 80 /\ 1 <= inc r < 2 ^ 32.

(** The clock does not go back. *)
Fixpoint never_back (l : list Z) : Prop := match l with [] => True | x :: l => (forall y, In y l -> x <= y) /\ never_back l end.
(** From 1970 to a time 2^48 milliseconds later, in the year 10889. *)
Definition in_range (now : Z) : Prop := unix_epoch <= now < unix_epoch + 2 ^ 48 * 1000000.
(** Anywhere in the list, a before b. *)
Definition before {A} (l : list A) (a b : A) : Prop := exists l1 l2 l3, l = l1 ++ a :: l2 ++ b :: l3.

Lemma timestamp_range a : in_range a -> Timestamp a = (a - unix_epoch) / 1000000 /\ 0 <= Timestamp a < 2 ^ 48.
Proof.
  unfold in_range, Timestamp. intros H. assert (L : 0 <= (a - unix_epoch) / 1000000) by (apply Z.div_pos; lia).
  assert (U : (a - unix_epoch) / 1000000 < 2 ^ 48) by (apply Z.div_lt_upper_bound; lia). rewrite Z.mod_small by lia. lia.
Qed.
Lemma timestamp_mono a b : in_range a -> in_range b -> a <= b -> Timestamp a <= Timestamp b.
Proof. intros Ha Hb L. rewrite (proj1 (timestamp_range a Ha)), (proj1 (timestamp_range b Hb)). apply Z.div_le_mono; lia. Qed.

Definition number (s : entropy) : Z := last_ms s * 2 ^ 80 + last_entropy s.
Lemma MustNew_ok s ms r s' id : proper r -> 0 <= ms -> MustNew s ms r = (s', Ok id) -> 0 <= last_entropy s < 2 ^ 80 -> last_ms s <= ms ->
  id = number s' /\ last_ms s' = ms /\ 0 < last_entropy s' < 2 ^ 80 /\ (last_entropy s <> 0 -> number s < number s').
Proof.
  unfold MustNew, MonotonicRead, number. intros [Pd Pi] Hms. destruct (Z.leb_spec (2 ^ 48) ms); [discriminate|].
  destruct (Z.eqb_spec (last_entropy s) 0) as [E|E]; cbn [negb andb].
  - intros F. injection F as <- <-. cbn [last_ms last_entropy]. intros. split; [reflexivity|]. split; [reflexivity|]. split; [exact Pd|]. congruence.
  - destruct (Z.eqb_spec (last_ms s) ms) as [Em|Em].
    + destruct (Z.ltb_spec (last_entropy s + inc r) (2 ^ 80)) as [Hs|]; [|discriminate]. intros F He Hl. rewrite Z.mod_small in F by lia.
      injection F as <- <-. cbn [last_ms last_entropy]. lia.
    + intros F He Hl. injection F as <- <-. cbn [last_ms last_entropy].
      assert (last_ms s * 2 ^ 80 + 2 ^ 80 <= ms * 2 ^ 80) by nia. lia.
Qed.
Lemma create_numbers : forall l s out, Forall (fun p => proper (snd p) /\ in_range (fst p)) l -> never_back (map fst l) ->
  (forall now, In now (map fst l) -> last_ms s <= Timestamp now) -> 0 <= last_entropy s < 2 ^ 80 -> create s l = Ok out ->
  exists ids, out = combine (map fst l) (map ulid_String ids) /\ length ids = length l /\ StronglySorted Z.lt ids /\ Forall (fun id => 0 <= id < 2 ^ 128) ids /\
    (last_entropy s <> 0 -> Forall (fun id => number s < id) ids).
Proof.
  induction l as [|[now r] l IH]; intros s out F N L E C.
  - injection C as <-. exists []. split; [reflexivity|]. split; [reflexivity|]. split; [constructor|]. split; [constructor|]. constructor.
  - inversion F as [|? ? [Fp Fr] F']; subst. cbn [fst snd map never_back create] in *. destruct N as [N1 N2].
    destruct (MustNew s (Timestamp now) r) as [s' [id|]] eqn:M; [|discriminate C]. cbn [bind] in C.
    destruct (timestamp_range now Fr) as [_ Tr].
    destruct (MustNew_ok s (Timestamp now) r s' id Fp ltac:(lia) M E (L now (or_introl eq_refl))) as (I1 & I2 & I3 & I4).
    destruct (create s' l) as [rest|] eqn:R; [|discriminate C]. cbn [bind] in C. injection C as <-.
    destruct (IH s' rest F' N2) as (ids & -> & Hlen & Hs & Hr & Hn); [|lia|exact R|].
    { intros now' I. rewrite I2. apply timestamp_mono; [exact Fr| |apply N1; exact I]. apply in_map_iff in I. destruct I as ([n' r'] & <- & I). eapply Forall_forall in F'; [|exact I]. apply F'. }
    specialize (Hn ltac:(lia)). exists (id :: ids). split; [reflexivity|]. split; [cbn; rewrite Hlen; reflexivity|]. split; [|split].
    + constructor; [exact Hs|]. rewrite I1. exact Hn.
    + constructor; [|exact Hr]. rewrite I1. unfold number. rewrite I2. assert (2 ^ 128 = 2 ^ 48 * 2 ^ 80) by reflexivity. nia.
    + intros Hz. specialize (I4 Hz). constructor; [lia|]. eapply Forall_impl; [|exact Hn]. intros x Hx. cbn beta in *. lia.
Qed.

Lemma sorted_before {A} (R : A -> A -> Prop) l a b : StronglySorted R l -> before l a b -> R a b.
Proof.
  intros S (l1 & l2 & l3 & ->). induction l1 as [|x l1 IH]; cbn [app] in S; inversion S as [|? ? S' F]; subst.
  - eapply Forall_forall; [exact F|]. apply in_or_app. right. left. reflexivity.
  - exact (IH S').
Qed.
Lemma combine_before {A B} (f : A -> B) : forall (l : list Z) (ids : list A) a b, length ids = length l -> before (combine l (map f ids)) a b ->
  exists i j, before l (fst a) (fst b) /\ before ids i j /\ snd a = f i /\ snd b = f j.
Proof.
  intros l ids a b Hl (l1 & l2 & l3 & E). revert l ids Hl E. induction l1 as [|x l1 IH]; intros [|n l] [|i ids] Hl E; try discriminate.
  - cbn [map combine app] in E. injection E as Ea E. injection Hl as Hl.
    assert (H : exists l4 l5 i4 i5 j, l = l4 ++ fst b :: l5 /\ ids = i4 ++ j :: i5 /\ snd b = f j).
    { clear - Hl E. revert l ids Hl E. induction l2 as [|y l2 IH]; intros [|n l] [|i ids] Hl E; try discriminate.
      - cbn [map combine app] in E. injection E as Eb _. subst b. exists [], l, [], ids, i. repeat split.
      - cbn [map combine app] in E. injection E as _ E. injection Hl as Hl. destruct (IH _ _ Hl E) as (l4 & l5 & i4 & i5 & j & -> & -> & Ej).
        exists (n :: l4), l5, (i :: i4), i5, j. repeat split. exact Ej. }
    destruct H as (l4 & l5 & i4 & i5 & j & -> & -> & Ej). exists i, j. subst a. split; [exists [], l4, l5; reflexivity|]. split; [exists [], i4, i5; reflexivity|]. split; [reflexivity|exact Ej].
  - cbn [map combine app] in E. injection E as _ E. injection Hl as Hl. destruct (IH _ _ Hl E) as (i' & j' & (a1 & a2 & a3 & ->) & (b1 & b2 & b3 & ->) & E1 & E2).
    exists i', j'. split; [exists (n :: a1), a2, a3; reflexivity|]. split; [exists (i :: b1), b2, b3; reflexivity|]. split; assumption.
Qed.

Lemma map_fst_combine {A B} : forall (l : list A) (m : list B), length m = length l -> map fst (combine l m) = l.
Proof. induction l as [|x l IH]; intros [|y m] H; try discriminate; [reflexivity|]. cbn. f_equal. apply IH. injection H as H. exact H. Qed.

(** C63.  Of two traces created one after the other the later has the greater ID and comes
    first in newest-first order; the starts recorded are the clock's. *)
Theorem C63_ids_increase :
  forall l out, Forall (fun p => proper (snd p) /\ in_range (fst p)) l -> never_back (map fst l) -> create new_entropy l = Ok out ->
    map fst out = map fst l /\ NoDup (map snd out) /\
    (forall a b, before out a b -> String.ltb (snd a) (snd b) = true) /\
    forall tra trb, before out (TraceStarted tra, TraceID tra) (TraceStarted trb, TraceID trb) -> newer trb tra = true.
Proof.
  intros l out F N C. destruct (create_numbers l new_entropy out F N) as (ids & E & Hl & Hs & Hr & _); [|cbn; lia|exact C|].
  { intros now I. apply in_map_iff in I. destruct I as ([n r] & <- & I). eapply Forall_forall in F; [|exact I]. apply timestamp_range, F. }
  assert (Hinc : forall a b, before out a b -> String.ltb (snd a) (snd b) = true /\ fst a <= fst b).
  { intros a b B. rewrite E in B. apply combine_before in B; [|rewrite map_length; exact Hl]. destruct B as (i & j & B1 & B2 & -> & ->). split.
    - apply text_lt_128; [|exact (sorted_before _ _ _ _ Hs B2)|]; (eapply Forall_forall in Hr; [apply Hr|]); destruct B2 as (l1 & l2 & l3 & ->); apply in_or_app; right; [left; reflexivity|right; apply in_or_app; right; left; reflexivity].
    - clear - N B1. destruct B1 as (l1 & l2 & l3 & E). rewrite E in N. clear E. induction l1 as [|x l1 IH]; cbn [app never_back] in N; [|apply IH; apply N].
      apply N. apply in_or_app. right. left. reflexivity. }
  split; [|split; [|split]].
  - rewrite E. apply map_fst_combine. rewrite !map_length. lia.
  - assert (H : forall m, (forall a b, before m a b -> String.ltb (snd a) (snd b) = true) -> NoDup (map (@snd Z string) m)).
    { induction m as [|x m IH]; intros H; [constructor|]. cbn [map]. constructor.
      - intros I. apply in_map_iff in I. destruct I as (y & Ey & I). apply in_split in I. destruct I as (m1 & m2 & ->).
        assert (L := H x y (ex_intro _ [] (ex_intro _ m1 (ex_intro _ m2 eq_refl)))). rewrite Ey, str_lt_irrefl in L. discriminate L.
      - apply IH. intros a b (l1 & l2 & l3 & ->). apply H. exists (x :: l1), l2, l3. reflexivity. }
    apply H. intros a b B. apply Hinc. exact B.
  - intros a b B. apply Hinc. exact B.
  - intros tra trb B. apply Hinc in B. cbn [fst snd] in B. apply newer_iff. lia || tauto.
Qed.
Print Assumptions C63_ids_increase.

(** The clock outside its range, or too many traces in one millisecond: New panics. *)
Theorem C63_panics :
  (forall s now r, unix_epoch - 2 ^ 63 * 1000000 <= now < unix_epoch \/ unix_epoch + 2 ^ 48 * 1000000 <= now < unix_epoch + 2 ^ 63 * 1000000 ->
     snd (MustNew s (Timestamp now) r) = Panic) /\
  (forall s ms r, proper r -> 0 <= ms < 2 ^ 48 -> 0 <= last_entropy s < 2 ^ 80 ->
     (snd (MustNew s ms r) = Panic <-> last_entropy s <> 0 /\ last_ms s = ms /\ 2 ^ 80 <= last_entropy s + inc r)).
Proof.
  split.
  - intros s now r H. unfold MustNew. replace (2 ^ 48 <=? Timestamp now) with true; [reflexivity|]. symmetry. apply Z.leb_le. unfold Timestamp.
    set (q := (now - unix_epoch) / 1000000).
    assert (D : 1000000 * q <= now - unix_epoch < 1000000 * q + 1000000) by (pose proof (Z.div_mod (now - unix_epoch) 1000000 ltac:(lia)); pose proof (Z.mod_pos_bound (now - unix_epoch) 1000000 ltac:(lia)); unfold q; lia).
    clearbody q. destruct H as [H|H].
    + assert (Q : - 2 ^ 63 <= q < 0) by lia. replace (q mod 2 ^ 64) with (q + 2 ^ 64); [lia|]. symmetry. rewrite <- (Z.mod_add q 1 (2 ^ 64)) by lia. rewrite Z.mod_small by lia. lia.
    + assert (Q : 2 ^ 48 <= q < 2 ^ 63) by lia. rewrite Z.mod_small by lia. lia.
  - intros s ms r [Pd Pi] Hm He. unfold MustNew, MonotonicRead. destruct (Z.leb_spec (2 ^ 48) ms); [lia|].
    destruct (Z.eqb_spec (last_entropy s) 0) as [E|E]; cbn [negb andb]; [split; [discriminate|tauto]|].
    destruct (Z.eqb_spec (last_ms s) ms) as [Em|Em]; [|split; [discriminate|tauto]].
    destruct (Z.ltb_spec (last_entropy s + inc r) (2 ^ 80)); cbn [snd]; split; try discriminate; try lia; auto.
Qed.
Print Assumptions C63_panics.

(** Finding: zero bits drawn twice in a millisecond give the same ID twice. *)
Definition start_of (ms : Z) : Z := unix_epoch + ms * 1000000.
Theorem C63_zero_entropy_refuted :
  exists id, create new_entropy [(start_of 5, MkRandom 0 1); (start_of 5 + 1, MkRandom 0 1)] = Ok [(start_of 5, id); (start_of 5 + 1, id)].
Proof. eexists. vm_compute. reflexivity. Qed.
(** Finding: if the clock goes back, and forward again, an ID can be given twice. *)
Theorem C63_clock_back_refuted :
  exists id id', create new_entropy [(start_of 5, MkRandom 9 1); (start_of 4, MkRandom 8 1); (start_of 5, MkRandom 9 1)] =
    Ok [(start_of 5, id); (start_of 4, id'); (start_of 5, id)] /\ String.ltb id' id = true.
Proof. eexists _, _. split; vm_compute; reflexivity. Qed.
(** Finding: after an overflow, which panics, the next ID in that millisecond is smaller. *)
Theorem C63_after_overflow_refuted :
  exists s1 s2 s3 id1 id3, MustNew new_entropy 5 (MkRandom (2 ^ 80 - 1) 1) = (s1, Ok id1) /\ MustNew s1 5 (MkRandom 1 3) = (s2, Panic) /\
    MustNew s2 5 (MkRandom 1 3) = (s3, Ok id3) /\ id3 < id1.
Proof. eexists _, _, _, _, _. split; [vm_compute; reflexivity|]. split; [vm_compute; reflexivity|]. split; [vm_compute; reflexivity|]. vm_compute. reflexivity. Qed.
Print Assumptions C63_zero_entropy_refuted.
Print Assumptions C63_clock_back_refuted.
Print Assumptions C63_after_overflow_refuted.

Example C63_instance :
  let l := [(start_of 1700000000000, MkRandom 77 5); (start_of 1700000000000, MkRandom 1 9); (start_of 1700000000001, MkRandom 3 1)] in
  Forall (fun p => proper (snd p) /\ in_range (fst p)) l /\ never_back (map fst l) /\
  create new_entropy l = Ok [(start_of 1700000000000, "01HF7YAT00000000000000002D"); (start_of 1700000000000, "01HF7YAT00000000000000002P"); (start_of 1700000000001, "01HF7YAT010000000000000003")].
Proof.
  cbn zeta. split; [|split].
  - repeat constructor; vm_compute; congruence.
  - cbn [map fst never_back In]. unfold start_of. repeat split; intros; try tauto; lia.
  - vm_compute. reflexivity.
Qed.

(** C28: merging through pointers. *)
From Verif Require Import Go L_List M_Types M_Stats M_StatsHeap S_StatsHeap L_StatsHeap L_StatsRepeat.
Open Scope string_scope.
Open Scope Z_scope.

(** Merging any number of separate sources into fresh statistics gives what merging their
    values gives (panics included), and afterwards
    - no source has lost or gained a category, or changed in anything but bucket counts;
    - bucket counts changed only in categories that at least two sources have;
    - there, only in the first source that has the category, whose counts are now those of
      the aggregate, because they are the aggregate's. *)
Theorem C28_merging_separate_sources :
  forall (h : heap) (agg : nat) (srcs : list nat) (orders : nat -> list string -> list string) (n : nat),
    (forall n, is_order (orders n)) -> separate h srcs -> fresh h agg srcs ->
    match merge_all orders n (view h agg) (map (view h) srcs) with
    | Panic => hmerge_all orders n h agg srcs = Panic
    | Ok v =>
        exists h', hmerge_all orders n h agg srcs = Ok h' /\ view h' agg = v /\
          (forall i src, nth_error srcs i = Some src ->
             Bucketing (view h' src) = Bucketing (view h src) /\
             (forall c, category_at h' src c = category_at h src c) /\
             forall c o, category_at h src c = Some o ->
               scalars (view_cat h' o) = scalars (view_cat h o) /\
               (~ shared_category h srcs c -> view_cat h' o = view_cat h o) /\
               ((exists j b, (j < i)%nat /\ nth_error srcs j = Some b /\ category_at h b c <> None) -> view_cat h' o = view_cat h o) /\
               ((forall j b, (j < i)%nat -> nth_error srcs j = Some b -> category_at h b c = None) ->
                  exists oa, category_at h' agg c = Some oa /\ BucketCounts (view_cat h' o) = BucketCounts (view_cat h' oa)))
    end.
Proof.
  intros h agg srcs orders n Ho Hs Hf. pose proof (merge_all_separate h agg srcs orders n Ho Hs Hf) as HM.
  destruct (merge_all orders n (view h agg) (map (view h) srcs)) as [v|]; [|exact HM].
  destruct HM as (h' & E & V & [I1 I2 I3 I4 I5 I6 I7]). exists h'. split; [exact E|]. split; [exact V|].
  intros i src Hi. pose proof (nth_error_In _ _ Hi) as Hin. destruct Hf as (_ & _ & F3). specialize (F3 _ Hin).
  destruct Hs as [Hw Hsh]. rewrite Forall_forall in Hw. destruct (Hw _ Hin) as (W1 & W2 & W3 & W4).
  split; [unfold view; cbn; rewrite I1; reflexivity|].
  split; [intros c; unfold category_at; rewrite I1, I2 by congruence; reflexivity|].
  intros c o Hc. destruct (W3 c o Hc) as [Q _].
  (* whose array is it? *)
  assert (Harr : forall c' o', first_with h srcs c' = Some o' -> arr_of h o' = arr_of h o -> o' = o /\ c' = c).
  { intros c' o' Hf Ea. apply first_with_in in Hf as (j & b & Hj & Hb). destruct (Nat.eq_dec j i) as [->|Hne].
    - rewrite Hi in Hj. injection Hj as <-. destruct (string_dec c' c) as [->|Hcc]; [rewrite Hc in Hb; injection Hb as <-; auto|].
      exfalso. apply (proj2 (W4 _ _ _ _ Hb Hc Hcc)). exact Ea.
    - exfalso. destruct (Hsh j i b src Hne Hj Hi) as [_ Hd]. apply (proj2 (Hd _ _ _ _ Hb Hc)). exact Ea. }
  split; [unfold scalars, view_cat; rewrite I5 by exact Q; reflexivity|].
  split; [|split].
  - intros Hns. apply view_cat_ext; [apply I5; exact Q|]. apply I7. intros c' o' Hf Hs' Ea. destruct (Harr c' o' Hf (eq_sym Ea)) as [-> ->]. contradiction.
  - intros (j & b & Hj & Hb & Hbc). apply view_cat_ext; [apply I5; exact Q|]. apply I7. intros c' o' Hf _ Ea. destruct (Harr c' o' Hf (eq_sym Ea)) as [-> ->].
    (* the first one with c is not src *)
    assert (Hfirst : forall l i j o, (j < i)%nat -> nth_error l j = Some b -> first_with h l c = Some o -> exists k d, (k < i)%nat /\ nth_error l k = Some d /\ category_at h d c = Some o).
    { clear -Hbc. induction l as [|d l IH]; intros i j o Hj Hb Hf; [destruct j; discriminate|]. cbn in Hf. destruct (category_at h d c) as [o'|] eqn:Ed.
      - injection Hf as <-. exists 0%nat, d. split; [lia|auto].
      - destruct j as [|j]; [cbn in Hb; congruence|]. cbn in Hb. destruct i as [|i]; [lia|]. destruct (IH i j o) as (k & d' & K1 & K2 & K3); [lia|auto|auto|].
        exists (S k), d'. split; [lia|auto]. }
    destruct (Hfirst srcs i j o Hj Hb Hf) as (k & d & Hk & Hd & Hdc). destruct (Hsh k i d src) as [_ Hsep]; [lia|auto|auto|]. apply (proj1 (Hsep _ _ _ _ Hdc Hc)). reflexivity.
  - intros Hnone. specialize (I6 c).
    assert (Hfw : first_with h srcs c = Some o).
    { clear -Hnone Hi Hc. revert i Hi Hnone. induction srcs as [|d l IH]; intros i Hi Hnone; [destruct i; discriminate|]. cbn. destruct i as [|i].
      - cbn in Hi. injection Hi as ->. rewrite Hc. reflexivity.
      - rewrite (Hnone 0%nat d) by (auto; lia). apply (IH i Hi). intros j b Hj Hb. apply (Hnone (S j) b); [lia|exact Hb]. }
    rewrite Hfw in I6. destruct I6 as (oa & E1 & _ & E3). exists oa. split; [exact E1|]. unfold view_cat. cbn. unfold arr_of in E3. rewrite E3, I5 by exact Q. reflexivity.
Qed.
Print Assumptions C28_merging_separate_sources.

(** A small memory: aggregate 0 (map 0), sources 1 and 2 (maps 1 and 2).  Both sources have
    category "a"; only the second has "b". *)
Definition demo_cat (name : string) (arr : nat) : hcat := MkHCat name 5 1 arr 0 10 20.
Definition demo_heap : heap :=
  MkHeap (fun a => match a with 1%nat => [3; 1] | 2%nat => [7; 4] | 3%nat => [1; 0] | _ => [] end)
         (fun o => match o with 1%nat => demo_cat "a" 1 | 2%nat => demo_cat "a" 2 | _ => demo_cat "b" 3 end)
         (fun m => match m with 1%nat => [("a", 1%nat)] | 2%nat => [("a", 2%nat); ("b", 3%nat)] | _ => [] end)
         (fun s => MkHStats [0; 100] s) 4.

Example C28_instance : separate demo_heap [1%nat; 2%nat] /\ fresh demo_heap 0 [1%nat; 2%nat].
Proof.
  assert (G1 : forall c o, category_at demo_heap 1 c = Some o -> c = "a" /\ o = 1%nat).
  { intros c o. unfold category_at. cbn. destruct (String.eqb_spec c "a") as [->|]; intros E; [injection E as <-; auto|discriminate]. }
  assert (G2 : forall c o, category_at demo_heap 2 c = Some o -> (c = "a" /\ o = 2%nat) \/ (c = "b" /\ o = 3%nat)).
  { intros c o. unfold category_at. cbn. destruct (String.eqb_spec c "a") as [->|]; [intros E; injection E as <-; auto|].
    destruct (String.eqb_spec c "b") as [->|]; intros E; [injection E as <-; auto|discriminate]. }
  split; [split|].
  - apply Forall_cons; [|apply Forall_cons; [|constructor]].
    + split; [cbn; discriminate|]. split; [cbn; repeat constructor; cbn; intuition discriminate|]. split.
      * intros c o H. apply G1 in H as [-> ->]. cbn. split; [lia|left; discriminate].
      * intros c c' o o' H H' Hc. apply G1 in H as [-> ->]. apply G1 in H' as [-> ->]. congruence.
    + split; [cbn; discriminate|]. split; [cbn; repeat constructor; cbn; intuition discriminate|]. split.
      * intros c o H. apply G2 in H as [[-> ->]|[-> ->]]; cbn; (split; [lia|left; discriminate]).
      * intros c c' o o' H H' Hc. apply G2 in H as [[-> ->]|[-> ->]]; apply G2 in H' as [[-> ->]|[-> ->]]; cbn; try congruence; split; discriminate.
  - assert (H12 : share_nothing demo_heap 1 2).
    { split; [cbn; discriminate|]. intros c c' o o' H H'. apply G1 in H as [? ?]. apply G2 in H' as [[? ?]|[? ?]]; subst; cbn; split; discriminate. }
    assert (H21 : share_nothing demo_heap 2 1).
    { split; [cbn; discriminate|]. intros c c' o o' H H'. apply G1 in H' as [? ?]. apply G2 in H as [[? ?]|[? ?]]; subst; cbn; split; discriminate. }
    intros [|[|i]] [|[|j]] a b Hne Ha Hb; cbn in Ha, Hb; try lia; try (destruct i; discriminate); try (destruct j; discriminate);
      injection Ha as <-; injection Hb as <-; assumption.
  - split; [cbn; discriminate|]. split; [reflexivity|]. intros b [<-|[<-|[]]]; cbn; discriminate.
Qed.

(** Finding: merging a second answer changes the first answer's statistics. *)
Theorem C28_source_changed_refuted :
  exists h', hmerge_all (fun _ l => l) 0 demo_heap 0 [1%nat; 2%nat] = Ok h' /\
    map_get "a" (Categories (view demo_heap 1)) = Some (MkCS "a" 5 1 [3; 1] 0 10 20) /\
    map_get "a" (Categories (view h' 1)) = Some (MkCS "a" 5 1 [10; 5] 0 10 20) /\
    Categories (view h' 2) = Categories (view demo_heap 2) /\
    map_get "a" (Categories (view h' 0)) = Some (MkCS "a" 5 2 [10; 5] 0 10 20).
Proof. eexists. split; [vm_compute; reflexivity|]. vm_compute. repeat split. Qed.
Print Assumptions C28_source_changed_refuted.

(** Finding: merging the same answer three times counts its active traces three times and
    its finished traces four times. *)
Theorem C28_repeated_merge_refuted :
  exists h', hmerge_all (fun _ l => l) 0 demo_heap 0 [1%nat; 1%nat; 1%nat] = Ok h' /\
    map_get "a" (Categories (view h' 0)) = Some (MkCS "a" 5 3 [12; 4] 0 10 20).
Proof. eexists. split; vm_compute; reflexivity. Qed.
Print Assumptions C28_repeated_merge_refuted.

(** The general law: merging the same answer k + 1 times into fresh statistics multiplies its
    active and errored counts by k + 1, leaves its event count, and doubles the finished traces
    of every bucket k times, in the aggregate and in the answer itself. *)
Theorem C28_same_source_again :
  forall (h : heap) (agg src : nat) (orders : nat -> list string -> list string) (n k : nat),
    (forall n, is_order (orders n)) -> well_formed h src -> fresh h agg [src] ->
    zlen (Bucketing (view h agg)) = zlen (Bucketing (view h src)) ->
    exists h', hmerge_all orders n h agg (repeat src (S k)) = Ok h' /\
      forall c, match category_at h src c with
                | None => category_at h' agg c = None
                | Some o =>
                    let v := view_cat h o in
                    let doubled := map (Z.mul (2 ^ Z.of_nat k)) (BucketCounts v) in
                    let times := Z.of_nat (S k) in
                    (exists oa, category_at h' agg c = Some oa /\
                       view_cat h' oa = MkCS (cs_Category v) (EventCount v) (times * ActiveCount v) doubled
                                             (times * ErroredCount v) (Oldest v) (Newest v)) /\
                    view_cat h' o = MkCS (cs_Category v) (EventCount v) (ActiveCount v) doubled (ErroredCount v) (Oldest v) (Newest v)
                end.
Proof.
  intros h agg src orders n k Ho Hw (F1 & F2 & F3) Hl.
  specialize (F3 src (or_introl eq_refl)).
  destruct (hmerge_all_again h agg src F3 Hw F1 Hl orders Ho (S k) n (fun _ => 0%nat) h (merged_start h agg src F2)) as (h' & E & [G1 G2 G3 G4 G5 G6]).
  exists h'. split; [exact E|]. intros c. specialize (G5 c). destruct (category_at h src c) as [o|] eqn:Ec; [|exact G5].
  cbn beta in G5. rewrite Nat.add_0_r in G5. destruct G5 as (oa & K1 & K2 & K3 & K4).
  destruct Hw as (_ & _ & W3 & _). destruct (W3 c o Ec) as [Hlt _]. unfold arr_of in K4. split.
  - exists oa. split; [exact K1|]. unfold view_cat. rewrite K3. cbn [times_cat o_BucketCounts]. rewrite K4. reflexivity.
  - unfold view_cat. rewrite (G4 o Hlt), K4. reflexivity.
Qed.
Print Assumptions C28_same_source_again.

Example C28_same_source_instance :
  well_formed demo_heap 1 /\ fresh demo_heap 0 [1%nat] /\ zlen (Bucketing (view demo_heap 0)) = zlen (Bucketing (view demo_heap 1)).
Proof.
  destruct C28_instance as [[Hw _] (F1 & F2 & F3)]. split; [inversion Hw; assumption|]. split; [|reflexivity].
  split; [exact F1|]. split; [exact F2|]. intros b [<-|[]]. apply F3. left. reflexivity.
Qed.

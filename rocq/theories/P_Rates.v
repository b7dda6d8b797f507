(** C65: trace and event rates. *)
From Verif Require Import Go L_List M_Strings M_Types M_Stats M_Rates S_Stats S_StatsView L_Stats P_Stats.
From Coq Require Import QArith Lqa.
Open Scope string_scope.
Open Scope Z_scope.

(** [r] is n per second over the time from [since] to [now] (in nanoseconds): the rate
    times the elapsed time is n seconds' worth. *)
Definition is_rate (r : Q) (n since now : Z) : Prop := (r * inject_Z (now - since) == inject_Z (n * 1000000000))%Q.

(** [cs] are the statistics of the traces [mine], all started, and all counted by the
    first bucket when they succeeded. *)
Definition stats_of (b : list Z) (cs : CategoryStats) (mine : list StaticTrace) : Prop :=
  counts_exactly b cs mine /\ mine <> [] /\ (forall tr, In tr mine -> TraceStarted tr <> 0) /\
  exists b0 rest, b = b0 :: rest /\ forall tr, In tr mine -> succeeded tr = true -> b0 <= TraceDuration tr.
Definition first_start (mine : list StaticTrace) : Z := earliest (map TraceStarted mine).

Lemma inject_nz z : z <> 0 -> ~ (inject_Z z == 0)%Q.
Proof. intros H E. apply H. unfold inject_Z, Qeq in E. cbn in E. lia. Qed.
Lemma inject_pos z : 0 < z -> (0 < inject_Z z)%Q.
Proof. intros H. unfold inject_Z, Qlt. cbn. lia. Qed.
Lemma rate_pos r n since now : is_rate r n since now -> 0 < n -> since < now -> (0 < r)%Q.
Proof.
  unfold is_rate. intros E Hn Ht. assert (H1 := inject_pos (now - since) ltac:(lia)). assert (H2 := inject_pos (n * 1000000000) ltac:(lia)).
  destruct (Qlt_le_dec 0 r) as [H|H]; [exact H|]. exfalso.
  assert (r * inject_Z (now - since) <= 0)%Q by (setoid_replace 0%Q with (0 * inject_Z (now - since))%Q by ring; apply Qmult_le_compat_r; [exact H|apply Qlt_le_weak; exact H1]).
  rewrite E in H0. apply (Qlt_not_le _ _ H2 H0).
Qed.
Lemma fresh_rate_spec n o w now : 0 <= n -> o <> 0 -> w <> 0 -> o < now -> is_rate (fresh_rate n o w now) n o now.
Proof.
  intros Hn Ho Hw Ht. unfold fresh_rate, is_rate.
  destruct (Z.leb_spec (now - o) 0); [lia|]. destruct (Z.eqb_spec w 0); [contradiction|]. destruct (Z.eqb_spec o 0); [contradiction|].
  rewrite !orb_false_r. destruct (Z.leb_spec n 0) as [H0|H0].
  - assert (n = 0) by lia. subst n. change (inject_Z (0 * 1000000000)) with 0%Q. ring.
  - unfold per_second. rewrite inject_Z_mult. field. repeat split; apply inject_nz; lia.
Qed.

Lemma stats_of_facts b cs mine : stats_of b cs mine ->
  TotalCount cs = zlen mine /\ 0 < zlen mine /\ Oldest cs = first_start mine /\ Oldest cs <> 0 /\ Newest cs <> 0 /\ cs_IsZero cs = false.
Proof.
  intros (Hc & Hne & Hs & b0 & rest & -> & Hd). split; [exact (C26_total_is_number_of_traces _ _ _ _ Hc Hd)|].
  destruct mine as [|tr mine]; [contradiction|]. split; [unfold zlen; cbn [length]; lia|].
  assert (HO : Oldest cs = first_start (tr :: mine)) by apply Hc. split; [exact HO|].
  destruct (C26_oldest_and_newest _ _ _ Hc) as [_ H]. destruct H as (_ & _ & H1 & H2).
  { exists tr. split; [left; reflexivity|]. apply Hs. left. reflexivity. }
  split; [exact H1|]. split; [exact H2|]. unfold cs_IsZero. destruct (Z.eqb_spec (Oldest cs) 0); [contradiction|]. rewrite andb_false_r. reflexivity.
Qed.

(** The rate of a category that was only observed is its number of traces per second
    since the oldest of them started; likewise for events. *)
Theorem C65_rate_is_traces_per_second :
  forall b cs mine now, stats_of b cs mine -> first_start mine < now -> 0 <= EventCount cs ->
    is_rate (fst (TraceRate now (unrated cs))) (zlen mine) (first_start mine) now /\
    is_rate (fst (EventRate now (unrated cs))) (EventCount cs) (first_start mine) now.
Proof.
  intros b cs mine now H Ht He. destruct (stats_of_facts b cs mine H) as (E & Hn & HO & H1 & H2 & _).
  unfold TraceRate, EventRate, unrated. cbn [tracerate eventrate Qeq_bool negb fst r_cs]. cbn. rewrite E, <- HO in *.
  split; apply fresh_rate_spec; auto; lia.
Qed.
Print Assumptions C65_rate_is_traces_per_second.

(** Once read, a rate is remembered: whatever is observed later and however much time
    passes, the same number is reported. *)
Theorem C65_rate_is_remembered :
  forall cs now r cs', TraceRate now cs = (r, cs') -> ~ (r == 0)%Q ->
    forall later observed, fst (TraceRate later (r_observed cs' observed)) = r.
Proof.
  intros cs now r cs' E Hr later observed. unfold TraceRate in E |- *.
  assert (Hc : tracerate cs' = r).
  { destruct (negb (Qeq_bool (tracerate cs) 0)); injection E as <- <-; reflexivity. }
  cbn [r_observed tracerate]. rewrite Hc. destruct (Qeq_bool r 0) eqn:Eq; [apply Qeq_bool_iff in Eq; contradiction|]. reflexivity.
Qed.
Print Assumptions C65_rate_is_remembered.

Theorem C65_event_rate_is_remembered :
  forall cs now r cs', EventRate now cs = (r, cs') -> ~ (r == 0)%Q ->
    forall later traces later' observed,
      fst (EventRate later (r_observed (snd (TraceRate later' (r_observed cs' traces))) observed)) = r.
Proof.
  intros cs now r cs' E Hr later traces later' observed.
  assert (Hc : eventrate cs' = r).
  { unfold EventRate in E. destruct (negb (Qeq_bool (eventrate cs) 0)); injection E as <- <-; reflexivity. }
  assert (Ht : eventrate (snd (TraceRate later' (r_observed cs' traces))) = r).
  { unfold TraceRate. destruct (negb _); cbn [snd eventrate r_observed]; exact Hc. }
  unfold EventRate. cbn [r_observed eventrate]. rewrite Ht.
  destruct (Qeq_bool r 0) eqn:Eq; [apply Qeq_bool_iff in Eq; contradiction|]. reflexivity.
Qed.
Print Assumptions C65_event_rate_is_remembered.

(** Merging many: one after the other, as MultiSearcher does with the responses it
    gets; [t] are the clock readings of each merge. *)
Definition times : Type := Z * Z * Z * Z.
Fixpoint merge_all (cs : rated) (others : list (rated * times)) : res rated :=
  match others with
  | [] => Ok cs
  | (other, t) :: others => '(cs, _) <- r_Merge t cs other ;; merge_all cs others
  end.
Definition second_reading (t : times) : Z := let '(_, t2, _, _) := t in t2.
Definition first_reading (t : times) : Z := let '(t1, _, _, _) := t in t1.
Fixpoint Qsum (l : list Q) : Q := match l with [] => 0 | x :: l => x + Qsum l end.

Lemma counts_app b cs other mine mine' :
  counts_exactly b cs mine -> counts_exactly b other mine' ->
  exists c, cs_Merge cs other = Ok c /\ counts_exactly b c (mine ++ mine').
Proof.
  intros H H'. apply counts_exactly_spec in H, H'. destruct (cs_Merge_spec b cs other mine mine' H H') as (c & E & Hc & _).
  exists c. split; [exact E|]. apply counts_exactly_spec. exact Hc.
Qed.
Lemma stats_app b cs other mine mine' : stats_of b cs mine -> stats_of b other mine' ->
  exists c, cs_Merge cs other = Ok c /\ stats_of b c (mine ++ mine').
Proof.
  intros (H1 & H2 & H3 & b0 & rest & E & H4) (H1' & H2' & H3' & b0' & rest' & E' & H4'). rewrite E in E'. injection E' as <- <-.
  destruct (counts_app b cs other mine mine' H1 H1') as (c & Ec & Hc). exists c. split; [exact Ec|]. split; [exact Hc|].
  split; [intros Hx; apply app_eq_nil in Hx; destruct Hx; contradiction|].
  split; [intros tr Hin; apply in_app_or in Hin; destruct Hin; auto|].
  exists b0, rest. split; [exact E|]. intros tr Hin. apply in_app_or in Hin. destruct Hin; auto.
Qed.
Lemma merge_rate b cs other mine mine' t r0 e0 :
  stats_of b cs mine -> stats_of b other mine' -> first_start mine' < second_reading t ->
  exists c r r' e o', r_Merge t (MkR cs r0 e0) (unrated other) = Ok (MkR c (r + r') e, o') /\ stats_of b c (mine ++ mine') /\
    (if Qeq_bool r0 0 then first_start (mine ++ mine') < first_reading t -> is_rate r (zlen (mine ++ mine')) (first_start (mine ++ mine')) (first_reading t)
     else r = r0) /\
    is_rate r' (zlen mine') (first_start mine') (second_reading t) /\ tracerate o' = r'.
Proof.
  destruct t as [[[t1 t2] t3] t4]. cbn [second_reading first_reading]. intros H H' Ht.
  destruct (stats_of_facts _ _ _ H) as (_ & _ & _ & _ & _ & Ez). destruct (stats_of_facts _ _ _ H') as (En & Hn & HO & HO' & HN & Ez').
  destruct (stats_app b cs other mine mine' H H') as (c & Ec & Hc). destruct (stats_of_facts _ _ _ Hc) as (En2 & Hn2 & HO2 & HO2' & HN2 & _).
  unfold r_Merge. cbn [r_cs unrated tracerate eventrate]. rewrite Ez, Ez', Ec. cbn [bind].
  unfold TraceRate at 1. cbn [tracerate r_cs eventrate]. unfold TraceRate at 1. cbn [unrated tracerate r_cs eventrate].
  change (Qeq_bool 0 0) with true. cbn [negb].
  assert (Hr' : is_rate (fresh_rate (TotalCount other) (Oldest other) (Newest other) t2) (zlen mine') (first_start mine') t2).
  { rewrite En, <- HO. apply fresh_rate_spec; auto; lia. }
  destruct (Qeq_bool r0 0); cbn [negb]; unfold EventRate; cbn [eventrate r_cs tracerate];
    change (Qeq_bool 0 0) with true; cbn [negb]; destruct (negb (Qeq_bool e0 0));
    do 5 eexists; (split; [reflexivity|]); (split; [exact Hc|]);
    (split; [try reflexivity; intros Ht2; rewrite En2, <- HO2; apply fresh_rate_spec; auto; lia|]);
    (split; [exact Hr'|reflexivity]).
Qed.

(** The traces of each merged statistics, with the clock reading used for them. *)
Definition source : Type := CategoryStats * list StaticTrace * times.
Definition src_rated (s : source) : rated * times := let '(cs, _, t) := s in (unrated cs, t).
Definition src_traces (s : source) : list StaticTrace := let '(_, mine, _) := s in mine.
Definition src_now (s : source) : Z := let '(_, _, t) := s in second_reading t.
Definition src_ok (b : list Z) (s : source) : Prop :=
  let '(cs, mine, t) := s in stats_of b cs mine /\ first_start mine < second_reading t.
Definition own_rate (r : Q) (s : source) : Prop := is_rate r (zlen (src_traces s)) (first_start (src_traces s)) (src_now s).

Lemma merge_all_cached b sources : forall cs mine r0 e0, stats_of b cs mine -> (0 < r0)%Q -> Forall (src_ok b) sources ->
  exists m rs, merge_all (MkR cs r0 e0) (map src_rated sources) = Ok m /\ (tracerate m == r0 + Qsum rs)%Q /\
    Forall2 own_rate rs sources /\ stats_of b (r_cs m) (mine ++ concat (map src_traces sources)).
Proof.
  induction sources as [|[[cs' mine'] t] sources IH]; intros cs mine r0 e0 H Hr Hs.
  - exists (MkR cs r0 e0), []. split; [reflexivity|]. split; [cbn; ring|]. split; [constructor|]. cbn. rewrite app_nil_r. exact H.
  - inversion Hs as [|? ? Hs0 Hs']; subst. unfold src_ok in Hs0; cbn [fst] in Hs0. destruct Hs0 as [Hs1 Hs2]. cbn [map src_rated merge_all].
    destruct (merge_rate b cs cs' mine mine' t r0 e0 H Hs1 Hs2) as (c & r & r' & e & o' & E & Hc & Hrr & Hr' & _). rewrite E. cbn [bind].
    assert (Hq : Qeq_bool r0 0 = false). { destruct (Qeq_bool r0 0) eqn:Eq; [|reflexivity]. apply Qeq_bool_iff in Eq. rewrite Eq in Hr. discriminate Hr. }
    rewrite Hq in Hrr. subst r. pose proof (rate_pos _ _ _ _ Hr' (proj1 (proj2 (stats_of_facts _ _ _ Hs1))) Hs2) as Hp.
    destruct (IH c (mine ++ mine')%list (r0 + r')%Q e Hc ltac:(lra) Hs') as (m & rs & Em & Hm & Hf & Hst).
    exists m, (r' :: rs). split; [exact Em|]. split; [rewrite Hm; cbn [Qsum]; ring|]. split; [constructor; [exact Hr'|exact Hf]|].
    cbn [map concat src_traces]. rewrite app_assoc. exact Hst.
Qed.

(** What is reported after merging the statistics of any number of sources into those of
    the first: the rate of the first two together plus the own rate of every source but
    the first. *)
Theorem C65_merged_rate :
  forall b cs mine s sources,
    stats_of b cs mine -> src_ok b s -> Forall (src_ok b) sources ->
    let both := (mine ++ src_traces s)%list in
    let t1 := first_reading (snd (src_rated s)) in
    first_start both < t1 ->
    exists m r12 r2 rs,
      merge_all (unrated cs) (map src_rated (s :: sources)) = Ok m /\
      (tracerate m == r12 + r2 + Qsum rs)%Q /\
      is_rate r12 (zlen both) (first_start both) t1 /\ own_rate r2 s /\ Forall2 own_rate rs sources /\
      stats_of b (r_cs m) (both ++ concat (map src_traces sources)).
Proof.
  intros b cs mine [[cs' mine'] t] sources H [Hs1 Hs2] Hs. cbn [src_traces src_rated snd]. intros Ht1.
  cbn [map src_rated merge_all]. destruct (merge_rate b cs cs' mine mine' t 0 0 H Hs1 Hs2) as (c & r & r' & e & o' & E & Hc & Hrr & Hr' & _).
  cbn [Qeq_bool] in Hrr. change (Qeq_bool 0 0) with true in Hrr. specialize (Hrr Ht1).
  unfold unrated at 1. rewrite E. cbn [bind].
  pose proof (rate_pos _ _ _ _ Hr' (proj1 (proj2 (stats_of_facts _ _ _ Hs1))) Hs2) as Hp.
  pose proof (rate_pos _ _ _ _ Hrr (proj1 (proj2 (stats_of_facts _ _ _ Hc))) Ht1) as Hp2.
  destruct (merge_all_cached b sources c (mine ++ mine')%list (r + r')%Q e Hc ltac:(lra) Hs) as (m & rs & Em & Hm & Hf & Hst).
  exists m, r, r', rs. repeat (split; [assumption|]). exact Hst.
Qed.
Print Assumptions C65_merged_rate.

(** Finding: so merging two sources always reports more traces per second than there
    were, because the traces of the second are counted twice. *)
Theorem C65_merged_rate_refuted :
  forall b cs mine s m r,
    stats_of b cs mine -> src_ok b s ->
    let both := (mine ++ src_traces s)%list in
    let t1 := first_reading (snd (src_rated s)) in
    first_start both < t1 ->
    merge_all (unrated cs) [src_rated s] = Ok m -> is_rate r (zlen both) (first_start both) t1 -> (r < tracerate m)%Q.
Proof.
  intros b cs mine s m r H Hs both t1 Ht E Hr.
  destruct (C65_merged_rate b cs mine s [] H Hs ltac:(constructor) Ht) as (m' & r12 & r2 & rs & E' & Hm & H12 & H2 & Hrs & _).
  cbn [map] in E'. rewrite E in E'. injection E' as <-. inversion Hrs; subst rs. cbn [Qsum] in Hm.
  assert (Heq : (r == r12)%Q).
  { unfold is_rate in Hr, H12. fold both t1 in H12. rewrite <- H12 in Hr. apply Qmult_inj_r in Hr; [exact Hr|]. apply inject_nz. lia. }
  destruct s as [[cs' mine'] t]. destruct Hs as [Hs1 Hs2]. pose proof (rate_pos _ _ _ _ H2 (proj1 (proj2 (stats_of_facts _ _ _ Hs1))) Hs2). lra.
Qed.
Print Assumptions C65_merged_rate_refuted.

(** The overall rate is the sum of the rates of the categories. *)
Definition src_cat (s : source) (t5 t6 : Z) : rated * times * Z * Z := let '(cs, _, t) := s in (unrated cs, t, t5, t6).
Lemma overall_rates b cats : forall o mine r0 e0 tr er,
  counts_exactly b o mine -> cs_Category o = "overall" ->
  Forall (fun c : source * Z * Z => src_ok b (fst (fst c))) cats ->
  exists o' tr' er' rs, r_overall_loop (map (fun c : source * Z * Z => let '(s, t5, t6) := c in src_cat s t5 t6) cats) (MkR o r0 e0) tr er = Ok (o', tr', er') /\
    (tr' == tr + Qsum rs)%Q /\ Forall2 own_rate rs (map (fun c => fst (fst c)) cats) /\
    counts_exactly b (r_cs o') (mine ++ concat (map (fun c => src_traces (fst (fst c))) cats)) /\ cs_Category (r_cs o') = "overall".
Proof.
  induction cats as [|[[[[cs mine'] t] t5] t6] cats IH]; intros o mine r0 e0 tr er Ho Hname Hs.
  - exists (MkR o r0 e0), tr, er, []. split; [reflexivity|]. split; [cbn; ring|]. split; [constructor|]. cbn. rewrite app_nil_r. auto.
  - inversion Hs as [|? ? Hs0 Hs']; subst. unfold src_ok in Hs0; cbn [fst] in Hs0. destruct Hs0 as [Hs1 Hs2]. cbn [map src_cat r_overall_loop fst].
    destruct t as [[[t1 t2] t3] t4]. cbn [second_reading] in Hs2.
    destruct (stats_of_facts _ _ _ Hs1) as (En & Hn & HO & HO' & HN & Ez').
    destruct (counts_app b o cs mine mine' Ho (proj1 Hs1)) as (c & Ec & Hc).
    assert (Ez : cs_IsZero o = false) by (unfold cs_IsZero; rewrite Hname; reflexivity).
    assert (Hcn : cs_Category c = "overall").
    { unfold cs_Merge in Ec. rewrite Ez, Ez' in Ec. destruct (negb (zlen (BucketCounts o) =? zlen (BucketCounts cs))); [discriminate|].
      destruct (add_buckets (BucketCounts o) (BucketCounts cs)); [|discriminate]. cbn [bind] in Ec. injection Ec as <-. exact Hname. }
    assert (Hr : is_rate (fresh_rate (TotalCount cs) (Oldest cs) (Newest cs) t2) (zlen mine') (first_start mine') t2).
    { rewrite En, <- HO. apply fresh_rate_spec; auto; lia. }
    remember (fresh_rate (TotalCount cs) (Oldest cs) (Newest cs) t2) as r2 eqn:Er2.
    assert (Hp := rate_pos _ _ _ _ Hr Hn Hs2).
    assert (Hq : Qeq_bool r2 0 = false). { destruct (Qeq_bool r2 0) eqn:Eq; [|reflexivity]. apply Qeq_bool_iff in Eq. rewrite Eq in Hp. discriminate Hp. }
    assert (exists om er1, r_Merge (t1, t2, t3, t4) (MkR o r0 e0) (unrated cs) = Ok (om, MkR cs r2 er1) /\ r_cs om = c) as (om & er1 & Em & Hom).
    { unfold r_Merge. cbn [r_cs unrated tracerate eventrate]. rewrite Ez, Ez', Ec. cbn [bind]. unfold TraceRate at 1. cbn [tracerate r_cs eventrate].
      unfold TraceRate at 1. cbn [unrated tracerate r_cs eventrate]. change (Qeq_bool 0 0) with true. cbn [negb]. rewrite <- Er2.
      destruct (negb (Qeq_bool r0 0)); unfold EventRate; cbn [eventrate r_cs tracerate]; change (Qeq_bool 0 0) with true; cbn [negb];
        destruct (negb (Qeq_bool e0 0)); do 2 eexists; (split; [reflexivity|reflexivity]). }
    rewrite Em. cbn [bind]. unfold TraceRate. cbn [tracerate]. rewrite Hq. cbn [negb].
    destruct (EventRate t6 (MkR cs r2 er1)) as [b6 sc6] eqn:E6. destruct om as [omc omr ome]. cbn [r_cs] in Hom. subst omc.
    destruct (IH c (mine ++ mine')%list omr ome (tr + r2)%Q (er + b6)%Q Hc Hcn Hs') as (o' & tr' & er' & rs & Eo & Hq' & Hf & Hcnt & Hcat).
    exists o', tr', er', (r2 :: rs). split; [exact Eo|]. split; [rewrite Hq'; cbn [Qsum]; ring|]. split; [constructor; [exact Hr|exact Hf]|].
    cbn [map concat src_traces]. rewrite app_assoc. split; assumption.
Qed.
Theorem C65_overall_rate :
  forall b (cats : list (source * Z * Z)),
    Forall (fun c => src_ok b (fst (fst c))) cats ->
    exists o rs,
      r_Overall b (map (fun c : source * Z * Z => let '(s, t5, t6) := c in src_cat s t5 t6) cats) = Ok o /\
      (tracerate o == Qsum rs)%Q /\ Forall2 own_rate rs (map (fun c => fst (fst c)) cats) /\
      counts_exactly b (r_cs o) (concat (map (fun c => src_traces (fst (fst c))) cats)).
Proof.
  intros b cats Hs. unfold r_Overall.
  destruct (overall_rates b cats (NewCategoryStats "overall" b) [] 0 0 0 0) as (o & tr & er & rs & E & Hq & Hf & Hc & _).
  - apply counts_exactly_spec. apply counts_nil.
  - reflexivity.
  - exact Hs.
  - unfold unrated. rewrite E. cbn [bind]. exists (MkR (r_cs o) tr er), rs. split; [reflexivity|]. split; [cbn [tracerate]; rewrite Hq; ring|]. split; assumption.
Qed.
Print Assumptions C65_overall_rate.

(** Merging statistics of nothing changes nothing, and merging into statistics of nothing
    takes everything over: the counts and the rates. *)
Theorem C65_merge_with_nothing :
  forall t cs other,
    (cs_IsZero (r_cs other) = true -> r_Merge t cs other = Ok (cs, other)) /\
    (cs_IsZero (r_cs cs) = true -> cs_IsZero (r_cs other) = false -> r_Merge t cs other = Ok (other, other)).
Proof.
  intros [[[t1 t2] t3] t4] cs other. unfold r_Merge. split; [intros ->; reflexivity|]. intros -> ->. reflexivity.
Qed.
Print Assumptions C65_merge_with_nothing.

(** The rates of events. *)
Definition third_reading (t : times) : Z := let '(_, _, t3, _) := t in t3.
Definition fourth_reading (t : times) : Z := let '(_, _, _, t4) := t in t4.
Definition src_events (s : source) : Z := let '(cs, _, _) := s in EventCount cs.
Definition src_now4 (s : source) : Z := let '(_, _, t) := s in fourth_reading t.
Definition src_ok4 (b : list Z) (s : source) : Prop :=
  let '(cs, mine, t) := s in stats_of b cs mine /\ first_start mine < fourth_reading t /\ 0 <= EventCount cs.
Definition own_event_rate (r : Q) (s : source) : Prop := is_rate r (src_events s) (first_start (src_traces s)) (src_now4 s).

Lemma cs_Merge_events cs other c : cs_IsZero cs = false -> cs_IsZero other = false -> cs_Merge cs other = Ok c -> EventCount c = EventCount cs.
Proof.
  intros H H' E. unfold cs_Merge in E. rewrite H, H' in E. destruct (negb (zlen (BucketCounts cs) =? zlen (BucketCounts other))); [discriminate|].
  destruct (add_buckets (BucketCounts cs) (BucketCounts other)); [|discriminate]. cbn [bind] in E. injection E as <-. reflexivity.
Qed.
Lemma merge_event_rate b cs other mine mine' t r0 e0 :
  stats_of b cs mine -> stats_of b other mine' -> first_start mine' < fourth_reading t -> 0 <= EventCount other ->
  exists c r e', r_Merge t (MkR cs r0 e0) (unrated other) =
      Ok (MkR c (fst r) ((if Qeq_bool e0 0 then fresh_rate (EventCount cs) (Oldest c) (Newest c) (third_reading t) else e0) + e'), MkR other (snd r) e') /\
    stats_of b c (mine ++ mine') /\ EventCount c = EventCount cs /\
    is_rate e' (EventCount other) (first_start mine') (fourth_reading t).
Proof.
  destruct t as [[[t1 t2] t3] t4]. cbn [third_reading fourth_reading]. intros H H' Ht Hev.
  destruct (stats_of_facts _ _ _ H) as (_ & _ & _ & _ & _ & Ez). destruct (stats_of_facts _ _ _ H') as (En & Hn & HO & HO' & HN & Ez').
  destruct (stats_app b cs other mine mine' H H') as (c & Ec & Hc).
  pose proof (cs_Merge_events _ _ _ Ez Ez' Ec) as He.
  assert (Hr' : is_rate (fresh_rate (EventCount other) (Oldest other) (Newest other) t4) (EventCount other) (first_start mine') t4).
  { rewrite <- HO. apply fresh_rate_spec; auto; lia. }
  unfold r_Merge. cbn [r_cs unrated tracerate eventrate]. rewrite Ez, Ez', Ec. cbn [bind].
  unfold TraceRate. cbn [unrated tracerate r_cs eventrate]. change (Qeq_bool 0 0) with true. cbn [negb].
  exists c, ((if Qeq_bool r0 0 then fresh_rate (TotalCount c) (Oldest c) (Newest c) t1 else r0) + fresh_rate (TotalCount other) (Oldest other) (Newest other) t2,
             fresh_rate (TotalCount other) (Oldest other) (Newest other) t2)%Q, (fresh_rate (EventCount other) (Oldest other) (Newest other) t4).
  cbn [fst snd]. split; [|split; [exact Hc|split; [exact He|exact Hr']]]. rewrite <- He.
  destruct (Qeq_bool r0 0), (Qeq_bool e0 0) eqn:E0; cbn [negb]; unfold EventRate; cbn [eventrate r_cs tracerate unrated]; change (Qeq_bool 0 0) with true;
    rewrite ?E0; cbn [negb]; reflexivity.
Qed.
Lemma fresh_rate_none o w now : fresh_rate 0 o w now = 0%Q.
Proof. reflexivity. Qed.
Lemma rate_nonneg r n since now : is_rate r n since now -> 0 <= n -> since < now -> (0 <= r)%Q.
Proof.
  intros E Hn Ht. destruct (Z.eq_dec n 0) as [->|Hne]; [|apply Qlt_le_weak; apply (rate_pos r n since now E); lia].
  unfold is_rate in E. change (inject_Z (0 * 1000000000)) with 0%Q in E. apply Qmult_integral in E as [E|E]; [rewrite E; apply Qle_refl|].
  exfalso. revert E. apply inject_nz. lia.
Qed.
(** [e0] is remembered, or there is nothing to remember. *)
Definition event_cache (cs : CategoryStats) (e0 : Q) : Prop := (0 < e0)%Q \/ (EventCount cs = 0 /\ (0 <= e0)%Q).
Lemma merge_all_events b sources : forall cs mine r0 e0, stats_of b cs mine -> event_cache cs e0 -> Forall (src_ok4 b) sources ->
  exists m es, merge_all (MkR cs r0 e0) (map src_rated sources) = Ok m /\ (eventrate m == e0 + Qsum es)%Q /\
    Forall2 own_event_rate es sources.
Proof.
  induction sources as [|[[cs' mine'] t] sources IH]; intros cs mine r0 e0 H Hc Hs.
  - exists (MkR cs r0 e0), []. split; [reflexivity|]. split; [cbn; ring|]. constructor.
  - inversion Hs as [|? ? Hs0 Hs']; subst. unfold src_ok4 in Hs0. destruct Hs0 as (Hs1 & Hs2 & Hs3). cbn [map src_rated merge_all].
    destruct (merge_event_rate b cs cs' mine mine' t r0 e0 H Hs1 Hs2 Hs3) as (c & r & e' & E & Hst & He & Hr). rewrite E. cbn [bind].
    pose proof (rate_nonneg _ _ _ _ Hr Hs3 Hs2) as Hp.
    set (e1 := if Qeq_bool e0 0 then _ else e0). assert (He1 : (e1 == e0)%Q).
    { unfold e1. destruct (Qeq_bool e0 0) eqn:Eq; [|reflexivity]. apply Qeq_bool_iff in Eq. destruct Hc as [Hc|[Hc _]]; [rewrite Eq in Hc; discriminate Hc|].
      rewrite Hc, fresh_rate_none, Eq. reflexivity. }
    destruct (IH c (mine ++ mine')%list (fst r) (e1 + e')%Q Hst) as (m & es & Em & Hm & Hf); [|exact Hs'|].
    { destruct Hc as [Hc|[Hc Hc']]; [left; rewrite He1; lra|right]. split; [congruence|]. rewrite He1. lra. }
    exists m, (e' :: es). split; [exact Em|]. split; [rewrite Hm, He1; cbn [Qsum]; ring|]. constructor; [exact Hr|exact Hf].
Qed.

(** After merging several sources the reported event rate is the events of the first since
    the oldest start of the first two, plus the own rate of every source but the first.
    (The events of the others are not added to EventCount: C27.) *)
Theorem C65_merged_event_rate :
  forall b cs mine s sources,
    stats_of b cs mine -> 0 <= EventCount cs -> src_ok4 b s -> Forall (src_ok4 b) sources ->
    let both := (mine ++ src_traces s)%list in
    let t3 := third_reading (snd (src_rated s)) in
    first_start both < t3 ->
    exists m e1 es,
      merge_all (unrated cs) (map src_rated (s :: sources)) = Ok m /\
      (eventrate m == e1 + Qsum es)%Q /\
      is_rate e1 (EventCount cs) (first_start both) t3 /\ Forall2 own_event_rate es (s :: sources).
Proof.
  intros b cs mine [[cs' mine'] t] sources H Hev (Hs1 & Hs2 & Hs3) Hs. cbn [src_traces src_rated snd]. intros Ht.
  cbn [map src_rated merge_all].
  destruct (merge_event_rate b cs cs' mine mine' t 0 0 H Hs1 Hs2 Hs3) as (c & r & e' & E & Hst & He & Hr).
  unfold unrated at 1. rewrite E. cbn [bind]. change (Qeq_bool 0 0) with true. cbv iota.
  destruct (stats_of_facts _ _ _ Hst) as (_ & _ & HO & HO' & HN & _).
  set (e1 := fresh_rate (EventCount cs) (Oldest c) (Newest c) (third_reading t)).
  assert (H1 : is_rate e1 (EventCount cs) (first_start (mine ++ mine')) (third_reading t)) by (unfold e1; rewrite <- HO; apply fresh_rate_spec; auto; lia).
  pose proof (rate_nonneg _ _ _ _ H1 Hev Ht) as Hp1. pose proof (rate_nonneg _ _ _ _ Hr Hs3 Hs2) as Hp.
  destruct (merge_all_events b sources c (mine ++ mine')%list (fst r) (e1 + e')%Q Hst) as (m & es & Em & Hm & Hf); [|exact Hs|].
  { destruct (Z.eq_dec (EventCount cs) 0) as [E0|E0]; [right; split; [congruence|lra]|left].
    pose proof (rate_pos _ _ _ _ H1 ltac:(lia) Ht). lra. }
  exists m, e1, (e' :: es). split; [exact Em|]. split; [rewrite Hm; cbn [Qsum]; ring|]. split; [exact H1|]. constructor; [exact Hr|exact Hf].
Qed.
Print Assumptions C65_merged_event_rate.

(** The overall event rate is the sum of the event rates of the categories. *)
Lemma overall_event_rates b cats : forall o mine r0 e0 tr er,
  counts_exactly b o mine -> cs_Category o = "overall" ->
  Forall (fun c : source * Z * Z => src_ok4 b (fst (fst c))) cats ->
  exists o' tr' er' es, r_overall_loop (map (fun c : source * Z * Z => let '(s, t5, t6) := c in src_cat s t5 t6) cats) (MkR o r0 e0) tr er = Ok (o', tr', er') /\
    (er' == er + Qsum es)%Q /\ Forall2 own_event_rate es (map (fun c => fst (fst c)) cats).
Proof.
  induction cats as [|[[[[cs mine'] t] t5] t6] cats IH]; intros o mine r0 e0 tr er Ho Hname Hs.
  - exists (MkR o r0 e0), tr, er, []. split; [reflexivity|]. split; [cbn; ring|constructor].
  - inversion Hs as [|? ? Hs0 Hs']; subst. unfold src_ok4 in Hs0; cbn [fst] in Hs0. destruct Hs0 as (Hs1 & Hs2 & Hs3). cbn [map src_cat r_overall_loop fst].
    destruct t as [[[t1 t2] t3] t4]. cbn [fourth_reading] in Hs2.
    destruct (stats_of_facts _ _ _ Hs1) as (En & Hn & HO & HO' & HN & Ez').
    destruct (counts_app b o cs mine mine' Ho (proj1 Hs1)) as (c & Ec & Hc).
    assert (Ez : cs_IsZero o = false) by (unfold cs_IsZero; rewrite Hname; reflexivity).
    assert (Hcn : cs_Category c = "overall").
    { unfold cs_Merge in Ec. rewrite Ez, Ez' in Ec. destruct (negb (zlen (BucketCounts o) =? zlen (BucketCounts cs))); [discriminate|].
      destruct (add_buckets (BucketCounts o) (BucketCounts cs)); [|discriminate]. cbn [bind] in Ec. injection Ec as <-. exact Hname. }
    set (e4 := fresh_rate (EventCount cs) (Oldest cs) (Newest cs) t4).
    assert (Hr : is_rate e4 (EventCount cs) (first_start mine') t4) by (unfold e4; rewrite <- HO; apply fresh_rate_spec; auto; lia).
    assert (exists om r2, r_Merge (t1, t2, t3, t4) (MkR o r0 e0) (unrated cs) = Ok (om, MkR cs r2 e4) /\ r_cs om = c) as (om & r2 & Em & Hom).
    { unfold r_Merge. cbn [r_cs unrated tracerate eventrate]. rewrite Ez, Ez', Ec. cbn [bind]. unfold TraceRate at 1. cbn [tracerate r_cs eventrate].
      unfold TraceRate at 1. cbn [unrated tracerate r_cs eventrate]. change (Qeq_bool 0 0) with true. cbn [negb].
      destruct (negb (Qeq_bool r0 0)); unfold EventRate; cbn [eventrate r_cs tracerate]; change (Qeq_bool 0 0) with true; cbn [negb];
        destruct (negb (Qeq_bool e0 0)); do 2 eexists; (split; [reflexivity|reflexivity]). }
    rewrite Em. cbn [bind]. destruct (TraceRate t5 (MkR cs r2 e4)) as [a5 sc5] eqn:E5.
    assert (H5 : r_cs sc5 = cs /\ eventrate sc5 = e4).
    { unfold TraceRate in E5. cbn [tracerate r_cs eventrate] in E5. destruct (negb (Qeq_bool r2 0)); injection E5 as _ <-; split; reflexivity. }
    destruct H5 as [H5 H5']. destruct (EventRate t6 sc5) as [b6 sc6] eqn:E6.
    assert (H6 : (b6 == e4)%Q).
    { unfold EventRate in E6. rewrite H5, H5' in E6. destruct (Qeq_bool e4 0) eqn:Eq; cbn [negb] in E6; injection E6 as <- _; [|reflexivity].
      apply Qeq_bool_iff in Eq. destruct (Z.eq_dec (EventCount cs) 0) as [E0|E0]; [rewrite E0, fresh_rate_none, Eq; reflexivity|].
      exfalso. pose proof (rate_pos _ _ _ _ Hr ltac:(lia) Hs2) as Hp. rewrite Eq in Hp. discriminate Hp. }
    destruct om as [omc omr ome]. cbn [r_cs] in Hom. subst omc.
    destruct (IH c (mine ++ mine')%list omr ome (tr + a5)%Q (er + b6)%Q Hc Hcn Hs') as (o' & tr' & er' & es & Eo & Hq' & Hf).
    exists o', tr', er', (e4 :: es). split; [exact Eo|]. split; [rewrite Hq', H6; cbn [Qsum]; ring|]. constructor; [exact Hr|exact Hf].
Qed.
Theorem C65_overall_event_rate :
  forall b (cats : list (source * Z * Z)),
    Forall (fun c => src_ok4 b (fst (fst c))) cats ->
    exists o es,
      r_Overall b (map (fun c : source * Z * Z => let '(s, t5, t6) := c in src_cat s t5 t6) cats) = Ok o /\
      (eventrate o == Qsum es)%Q /\ Forall2 own_event_rate es (map (fun c => fst (fst c)) cats).
Proof.
  intros b cats Hs. unfold r_Overall.
  destruct (overall_event_rates b cats (NewCategoryStats "overall" b) [] 0 0 0 0) as (o & tr & er & es & E & Hq & Hf).
  - apply counts_exactly_spec. apply counts_nil.
  - reflexivity.
  - exact Hs.
  - unfold unrated. rewrite E. cbn [bind]. exists (MkR (r_cs o) tr er), es. split; [reflexivity|]. split; [cbn [eventrate]; rewrite Hq; ring|exact Hf].
Qed.
Print Assumptions C65_overall_event_rate.

(** Two sources with one trace each, started 10 and 4 seconds ago: 0.2 per second in all,
    0.45 reported. *)
Definition sec (n : Z) : Z := n * 1000000000.
Definition demo_cs (start : Z) : CategoryStats := MkCS "a" 1 0 [1] 0 start start.
Definition demo_mine (start : Z) : list StaticTrace := [demo_st "a" start 5 true false 1].
Lemma demo_stats start : start <> 0 -> stats_of [0] (demo_cs start) (demo_mine start).
Proof.
  intros H. split; [|split; [discriminate|]].
  - apply counts_exactly_spec. unfold cs_counts, counts_spec. cbn. rewrite earliest_one, latest_one. reflexivity.
  - split; [intros tr [<-|[]]; exact H|]. exists 0, []. split; [reflexivity|]. intros tr [<-|[]] _. cbn. lia.
Qed.
Example C65_instance :
  let now := (sec 100, sec 100, sec 100, sec 100) in
  let s := (demo_cs (sec 96), demo_mine (sec 96), now) in
  stats_of [0] (demo_cs (sec 90)) (demo_mine (sec 90)) /\ src_ok [0] s /\
  is_rate (1 # 5) 2 (sec 90) (sec 100) /\
  src_ok4 [0] s /\
  exists m, merge_all (unrated (demo_cs (sec 90))) [src_rated s] = Ok m /\ (tracerate m == 45 # 100)%Q /\ (eventrate m == 35 # 100)%Q.
Proof.
  split; [apply demo_stats; discriminate|]. split; [split; [apply demo_stats; discriminate|vm_compute; reflexivity]|].
  split; [vm_compute; reflexivity|]. split; [split; [apply demo_stats; discriminate|vm_compute; split; [reflexivity|discriminate]]|].
  eexists. split; [vm_compute; reflexivity|split; vm_compute; reflexivity].
Qed.

(** C26, C27: search statistics. *)
From Verif Require Import Go L_List M_Strings M_Types M_Stats S_Stats S_StatsView L_Stats.
From Coq Require Import ZifyBool.
Open Scope string_scope.
Open Scope Z_scope.

Lemma counts_exactly_spec b cs l : cs_counts cs = counts_spec b l <-> counts_exactly b cs l.
Proof.
  unfold cs_counts, counts_spec, counts_exactly. split.
  - intros H. injection H as HA HB HE HO HN. rewrite HA, HB, HE, HO, HN.
    split; [reflexivity|]. split; [reflexivity|]. split; [apply bucket_spec_length|]. split; [|split; reflexivity].
    intros i n Hi. assert (Hl : (i < length b)%nat) by (rewrite <- (bucket_spec_length b l); apply nth_error_Some; congruence).
    rewrite <- (bucket_spec_nth b l i Hl). symmetry. apply nth_error_nth. exact Hi.
  - intros (HA & HE & HL & HB & HO & HN). rewrite HA, HE, HO, HN.
    assert (H : BucketCounts cs = bucket_spec b l); [|rewrite H; reflexivity].
    apply list_eq_nth; [rewrite bucket_spec_length; exact HL|]. intros i Hi. rewrite bucket_spec_nth by congruence.
    apply HB. apply nth_error_nth'. exact Hi.
Qed.

(** C26.  Observing any traces puts each of them in the statistics of its category
    exactly once... *)
Theorem C26_observe_counts_every_trace_once :
  forall (b : list Z) (trs : list StaticTrace),
    exists ss, Observe (NewSearchStats b) trs = Ok ss /\ Bucketing ss = b /\
      forall c, match map_get c (Categories ss) with
                | None => of_category c trs = []
                | Some cs => of_category c trs <> [] /\ cs_Category cs = c /\
                    counts_exactly b cs (of_category c trs) /\
                    EventCount cs = sum (map (fun tr => zlen (TraceEvents tr)) (of_category c trs))
                end.
Proof.
  intros b trs. destruct (observe_new b trs) as (ss & E & (HB & _ & HC) & He). exists ss. split; [exact E|]. split; [exact HB|].
  intros c. specialize (HC c). specialize (He c). destruct (map_get c (Categories ss)) as [cs|]; [|exact HC].
  destruct HC as (H1 & H2 & H3). split; [exact H1|]. split; [exact H2|]. split; [apply counts_exactly_spec; exact H3|]. apply He. reflexivity.
Qed.
Print Assumptions C26_observe_counts_every_trace_once.

(** ... where, for an ascending bucketing, bucket i counts the successful traces that
    took at least that long... *)
Theorem C26_bucket_is_minimum_duration :
  forall b i x cs mine, ascending b -> counts_exactly b cs mine -> nth_error b i = Some x ->
    nth_error (BucketCounts cs) i = Some (count (fun tr => succeeded tr && (x <=? TraceDuration tr)) mine).
Proof.
  intros b i x cs mine Ha (_ & _ & HL & HB & _) Hx.
  assert (Hi : (i < length (BucketCounts cs))%nat) by (rewrite HL; apply nth_error_Some; congruence).
  destruct (nth_error (BucketCounts cs) i) as [n|] eqn:E; [|apply nth_error_Some in Hi; congruence].
  rewrite (HB i n E). f_equal. unfold count. f_equal. apply filter_ext. intros tr. apply in_bucket_ascending; assumption.
Qed.
Print Assumptions C26_bucket_is_minimum_duration.

(** ... bucket counts never increase... *)
Theorem C26_buckets_non_increasing :
  forall b cs mine i j n m, counts_exactly b cs mine -> (i <= j)%nat ->
    nth_error (BucketCounts cs) i = Some n -> nth_error (BucketCounts cs) j = Some m -> m <= n.
Proof.
  intros b cs mine i j n m (_ & _ & _ & HB & _) Hij Hn Hm. rewrite (HB i n Hn), (HB j m Hm).
  apply count_mono. intros tr. apply in_bucket_mono. exact Hij.
Qed.
Print Assumptions C26_buckets_non_increasing.

(** ... and the total is the number of traces if every successful trace reaches the
    first bucket. *)
Theorem C26_total_is_number_of_traces :
  forall b0 rest cs mine, counts_exactly (b0 :: rest) cs mine ->
    (forall tr, In tr mine -> succeeded tr = true -> b0 <= TraceDuration tr) ->
    TotalCount cs = zlen mine.
Proof.
  intros b0 rest cs mine H Hd. apply (total_spec (b0 :: rest) b0 rest mine cs eq_refl); [apply counts_exactly_spec; exact H|exact Hd].
Qed.
Print Assumptions C26_total_is_number_of_traces.

(** earliest and latest are the extremes of the starts that are set. *)
Theorem C26_oldest_and_newest :
  forall b cs mine, counts_exactly b cs mine ->
    (forall tr, In tr mine -> TraceStarted tr <> 0 -> Oldest cs <= TraceStarted tr <= Newest cs) /\
    ((exists tr, In tr mine /\ TraceStarted tr <> 0) ->
       In (Oldest cs) (map TraceStarted mine) /\ In (Newest cs) (map TraceStarted mine) /\ Oldest cs <> 0 /\ Newest cs <> 0).
Proof.
  intros b cs mine (_ & _ & _ & _ & HO & HN). rewrite HO, HN. split.
  - intros tr Hin Hz. split; [apply earliest_le|apply latest_ge]; auto; apply in_map; exact Hin.
  - intros (tr & Hin & Hz).
    destruct (earliest_in (map TraceStarted mine) (TraceStarted tr)) as [H1 H2]; [apply in_map; exact Hin|exact Hz|].
    destruct (latest_in (map TraceStarted mine) (TraceStarted tr)) as [H3 H4]; [apply in_map; exact Hin|exact Hz|]. auto.
Qed.
Print Assumptions C26_oldest_and_newest.

Definition demo_st (cat : string) (start dur : Z) (fin err : bool) (n : nat) : StaticTrace :=
  MkStatic "s" "i" cat start dur "" fin err (repeat (MkEvent 1 "e" [] false) n).
Example C26_instance :
  ascending [0; 5; 10] /\
  exists ss, Observe (NewSearchStats [0; 5; 10])
    [demo_st "a" 7 5 true false 2; demo_st "b" 3 1 false true 1; demo_st "a" 9 12 true false 1; demo_st "a" 4 9 true true 1] = Ok ss /\
  map_get "a" (Categories ss) = Some (MkCS "a" 4 0 [2; 2; 1] 1 4 9) /\
  map_get "b" (Categories ss) = Some (MkCS "b" 1 1 [0; 0; 0] 0 3 3) /\ map_get "c" (Categories ss) = None /\
  TotalCount (MkCS "a" 4 0 [2; 2; 1] 1 4 9) = 3.
Proof. split; [cbn; lia|]. eexists. split; [vm_compute; reflexivity|]. repeat split. Qed.

(** C27.  Any tree of merges over observed traces, in any map order, yields the
    counts of one statistics value that observed them all (in any order): merging is
    commutative, associative and loses nothing - event counts excepted. *)
Lemma tree_represents b t : b <> [] -> tree_ok t -> exists ss, tree_stats b t = Ok ss /\ represents b ss (tree_traces t).
Proof.
  intros Hb. induction t as [trs|order x IHx y IHy]; intros Hok; cbn [tree_stats tree_traces].
  - destruct (observe_new b trs) as (ss & E & H & _). eauto.
  - destruct Hok as (Ho & Hx & Hy). destruct (IHx Hx) as (sx & Ex & Hsx), (IHy Hy) as (sy & Ey & Hsy).
    rewrite Ex. cbn [bind]. rewrite Ey. cbn [bind]. apply ss_Merge_spec; assumption.
Qed.
Theorem C27_merging_equals_observing_everything :
  forall (b : list Z) (t : merge_tree) (trs : list StaticTrace),
    b <> [] -> tree_ok t -> Permutation trs (tree_traces t) ->
    exists merged observed, tree_stats b t = Ok merged /\ Observe (NewSearchStats b) trs = Ok observed /\
      same_counts merged observed.
Proof.
  intros b t trs Hb Hok Hp. destruct (tree_represents b t Hb Hok) as (m & Em & Hm).
  destruct (observe_new b trs) as (o & Eo & Ho & _). exists m, o. split; [exact Em|]. split; [exact Eo|].
  eapply represents_same; [symmetry; exact Hp|exact Hm|exact Ho].
Qed.
Print Assumptions C27_merging_equals_observing_everything.

(** Statistics that are nil or have no buckets are neutral. *)
Theorem C27_empty_stats_are_neutral :
  forall (order : list string -> list string) (ss : SearchStats) (cats : list (string * CategoryStats)),
    ss_Merge order ss None = Ok ss /\ ss_Merge order ss (Some (MkSS [] cats)) = Ok ss /\
    (Bucketing ss <> [] -> ss_Merge order (MkSS [] cats) (Some ss) = Ok ss).
Proof.
  intros. split; [reflexivity|]. split; [reflexivity|]. intros H. unfold ss_Merge, ss_IsZero. cbn [Bucketing].
  destruct (Bucketing ss) as [|x l]; [contradiction|]. unfold zlen. cbn [length]. destruct (Z.leb_spec (Z.of_nat (S (length l))) 0); [lia|]. reflexivity.
Qed.
Print Assumptions C27_empty_stats_are_neutral.

(** The overall statistics count all traces - and no events. *)
Theorem C27_overall_counts_all_traces_but_no_events :
  forall (b : list Z) (t : merge_tree) (order : list string -> list string),
    b <> [] -> tree_ok t -> is_order order ->
    exists ss o, tree_stats b t = Ok ss /\ Overall order ss = Ok o /\ cs_Category o = "overall" /\
      counts_exactly b o (tree_traces t) /\ EventCount o = 0.
Proof.
  intros b t order Hb Hok Ho. destruct (tree_represents b t Hb Hok) as (ss & E & H).
  destruct (Overall_spec b order ss _ Ho H) as (o & Eo & H1 & H2 & H3). exists ss, o.
  split; [exact E|]. split; [exact Eo|]. split; [exact H1|]. split; [apply counts_exactly_spec; exact H3|exact H2].
Qed.
Print Assumptions C27_overall_counts_all_traces_but_no_events.

(** Different numbers of buckets panic. *)
Theorem C27_inconsistent_buckets_panic :
  forall order ss other, Bucketing ss <> [] -> Bucketing other <> [] -> length (Bucketing ss) <> length (Bucketing other) ->
    ss_Merge order ss (Some other) = Panic.
Proof.
  intros order ss other H1 H2 Hl. unfold ss_Merge, ss_IsZero, zlen.
  destruct (Bucketing ss) as [|x l]; [contradiction|]. destruct (Bucketing other) as [|y l']; [contradiction|].
  cbn [length] in *. destruct (Z.leb_spec (Z.of_nat (S (length l'))) 0); [lia|]. destruct (Z.leb_spec (Z.of_nat (S (length l))) 0); [lia|].
  destruct (Z.eqb_spec (Z.of_nat (S (length l))) (Z.of_nat (S (length l')))); [lia|]. reflexivity.
Qed.
Print Assumptions C27_inconsistent_buckets_panic.

(** Finding: the event count of a category on both sides is not added up. *)
Definition id_order (l : list string) : list string := l.
Theorem C27_event_counts_refuted :
  exists b l l' s s' m o cs co,
    Observe (NewSearchStats b) l = Ok s /\ Observe (NewSearchStats b) l' = Ok s' /\
    ss_Merge id_order s (Some s') = Ok m /\ Observe (NewSearchStats b) (l ++ l') = Ok o /\
    map_get "a" (Categories m) = Some cs /\ map_get "a" (Categories o) = Some co /\
    EventCount cs = 2 /\ EventCount co = 5.
Proof.
  exists [0; 5], [demo_st "a" 7 5 true false 2], [demo_st "a" 8 5 true false 3].
  do 6 eexists. do 6 (split; [vm_compute; reflexivity|]). repeat split.
Qed.
Print Assumptions C27_event_counts_refuted.

Example C27_instance :
  let t := Mrg (@rev string) (Mrg id_order (Obs [demo_st "a" 7 5 true false 2]) (Obs [demo_st "b" 3 1 false true 1]))
               (Obs [demo_st "a" 9 12 true false 1; demo_st "c" 4 9 true true 1]) in
  tree_ok t /\ exists ss, tree_stats [0; 5; 10] t = Ok ss /\
    map_get "a" (Categories ss) = Some (MkCS "a" 2 0 [2; 2; 1] 0 7 9) /\ map_get "c" (Categories ss) = Some (MkCS "c" 1 0 [0; 0; 0] 1 4 4).
Proof.
  cbn zeta. split; [|eexists; split; [vm_compute; reflexivity|repeat split]]. cbn. split; [intros l; symmetry; apply Permutation_rev|]. split; [|exact I].
  split; [intros l; reflexivity|auto].
Qed.

(** C78: searches that share a request. *)
From Verif Require Import Go L_List M_Strings M_Types M_Filter S_Trace S_Order L_Order S_Stats L_Stats M_Search S_Search L_Search P_Filter P_Search L_Snapshot P_Slice L_Heap M_Shared S_Shared.
Open Scope string_scope.
Open Scope list_scope.
Open Scope nat_scope.

Section Shared.
Context {RE : Type}.
Variable Compile : string -> RE + string.
Variable sorter : nat -> algo.
Notation mem := (mem RE).
Notation code := (code RE).

(** ** Reading only *)
Fixpoint reads_only {A} (m : mem) (c : code A) : Prop :=
  match c with Ret _ => True | Load f k => reads_only m (k (load f m)) | Store _ _ _ => False | Alloc _ _ => False end.

Lemma quiet_load_all {A} m a n : forall i (k : list Z -> code A),
  let vs := map (fun x => nth x (nth a (m_arrays m) []) 0%Z) (seq i n) in
  reads_only m (k vs) -> reads_only m (load_all a i n k) /\ run_alone (load_all a i n k) m = run_alone (k vs) m.
Proof.
  induction n as [|n IH]; intros i k vs H; [split; [exact H|reflexivity]|]. cbn [load_all reads_only run_alone load].
  apply (IH (S i) (fun xs => k (nth i (nth a (m_arrays m) []) 0%Z :: xs))). exact H.
Qed.
Lemma map_nth_seq (l : list Z) : map (fun x => nth x l 0%Z) (seq 0 (length l)) = l.
Proof.
  apply nth_ext with (d := 0%Z) (d' := 0%Z); rewrite map_length, seq_length; [reflexivity|]. intros n Hn.
  erewrite nth_indep by (rewrite map_length, seq_length; exact Hn). rewrite map_nth with (d := 0), seq_nth by exact Hn. reflexivity.
Qed.
Lemma map_nth_firstn (l : list Z) n : n <= length l -> map (fun x => nth x l 0%Z) (seq 0 n) = firstn n l.
Proof.
  intros H. transitivity (firstn n (map (fun x => nth x l 0%Z) (seq 0 (length l)))); [|f_equal; apply map_nth_seq].
  rewrite firstn_map. f_equal. replace (length l) with (n + (length l - n)) by lia. rewrite seq_app, firstn_app, seq_length, Nat.sub_diag. cbn [firstn].
  rewrite app_nil_r. rewrite firstn_all2 by (rewrite seq_length; lia). reflexivity.
Qed.

Section Quiet.
Variable m : mem.
Variable r : nat.
Hypothesis Hset : settled m r.
Hypothesis Hleave : leaves_sorted sorter.
Notation v := (value_of m r).

Lemma sl_whole : elements m (ro_bucketing (req m r)) = nth (fst (ro_bucketing (req m r))) (m_arrays m) [].
Proof. destruct Hset as (_ & E & _). unfold elements. rewrite E. apply firstn_all. Qed.
Lemma quiet_all {A} (k : list Z -> code A) :
  reads_only m (k (req_Bucketing v)) ->
  reads_only m (load_all (fst (ro_bucketing (req m r))) 0 (snd (ro_bucketing (req m r))) k) /\
  run_alone (load_all (fst (ro_bucketing (req m r))) 0 (snd (ro_bucketing (req m r))) k) m = run_alone (k (req_Bucketing v)) m.
Proof.
  intros H. pose proof (quiet_load_all m (fst (ro_bucketing (req m r))) (snd (ro_bucketing (req m r))) 0 k) as Q. cbn zeta in Q.
  assert (V : map (fun x => nth x (nth (fst (ro_bucketing (req m r))) (m_arrays m) []) 0%Z) (seq 0 (snd (ro_bucketing (req m r)))) = req_Bucketing v).
  { change (req_Bucketing v) with (elements m (ro_bucketing (req m r))). rewrite sl_whole. destruct Hset as (_ & E & _). rewrite E. apply map_nth_seq. }
  rewrite V in Q. apply Q. exact H.
Qed.
Lemma quiet_sort {A} al (k : code A) : no_swap al (nth (fst (ro_bucketing (req m r))) (m_arrays m) []) -> forall a,
  reads_only m k -> reads_only m (sort_slice r a al k) /\ run_alone (sort_slice r a al k) m = run_alone k m.
Proof.
  intros H a Hk. induction al as [|i j c IH|i j c IH]; [split; [exact Hk|reflexivity]| |destruct H].
  cbn [sort_slice reads_only run_alone load no_swap] in *. apply IH. exact H.
Qed.
Lemma quiet_regexp {A} (k : option string -> code A) : reads_only m (k None) ->
  reads_only m (initialize_regexp Compile r k) /\ run_alone (initialize_regexp Compile r k) m = run_alone (k None) m.
Proof.
  intros H. destruct Hset as (_ & _ & _ & _ & _ & Q). unfold value_of in Q. cbn [req_Filter] in Q. unfold initialize_regexp. cbn [reads_only run_alone load].
  destruct (f_regexp (ro_filter (req m r))) as [re|] eqn:E; [split; [exact H|reflexivity]|].
  destruct Q as [Q|Q]; [|destruct Q; reflexivity]. cbn [reads_only run_alone load]. rewrite Q. cbn [String.eqb]. split; [exact H|reflexivity].
Qed.
Lemma quiet_limit {A} (k : code A) : reads_only m k -> reads_only m (normalize_limit r k) /\ run_alone (normalize_limit r k) m = run_alone k m.
Proof.
  intros H. destruct Hset as (_ & _ & _ & _ & L & _). unfold value_of in L. cbn [req_Limit] in L. unfold normalize_limit, SearchLimitMin, SearchLimitMax. cbn [reads_only run_alone load].
  destruct (Z.leb_spec (ro_limit (req m r)) 0); [lia|]. cbn [reads_only run_alone load].
  destruct (Z.ltb_spec (ro_limit (req m r)) 1); [lia|]. cbn [reads_only run_alone load].
  destruct (Z.ltb_spec 250 (ro_limit (req m r))); [lia|]. split; [exact H|reflexivity].
Qed.
Lemma quiet_normalize {A} (k : list string -> code A) : reads_only m (k []) ->
  reads_only m (normalize Compile sorter r k) /\ run_alone (normalize Compile sorter r k) m = run_alone (k []) m.
Proof.
  intros H. pose proof sl_whole as W. destruct Hset as (_ & E & As & (rest & B) & _). unfold value_of in As, B. cbn [req_Bucketing] in As, B.
  assert (Hrest : reads_only m (normalize_rest Compile r k) /\ run_alone (normalize_rest Compile r k) m = run_alone (k []) m).
  { unfold normalize_rest. destruct (quiet_limit (k []) H) as [R1 R2]. destruct (quiet_regexp (fun err => normalize_limit r (k (match err with Some e => ["filter: " ++ ("query: " ++ e)]%string | None => [] end))) R1) as [R3 R4].
    split; [exact R3|]. rewrite R4. exact R2. }
  assert (Hzero : reads_only m (normalize_zero Compile r k) /\ run_alone (normalize_zero Compile r k) m = run_alone (k []) m).
  { unfold normalize_zero. cbn [reads_only run_alone load]. rewrite <- W, B. cbn [nth]. exact Hrest. }
  assert (Hsort : reads_only m (normalize_sort Compile sorter r k) /\ run_alone (normalize_sort Compile sorter r k) m = run_alone (k []) m).
  { unfold normalize_sort. cbn [reads_only run_alone load]. rewrite W in As. specialize (Hleave _ As). rewrite <- E in Hleave.
    destruct (quiet_sort (sorter (snd (ro_bucketing (req m r)))) (normalize_zero Compile r k) Hleave (fst (ro_bucketing (req m r))) (proj1 Hzero)) as [R1 R2].
    split; [exact R1|]. rewrite R2. apply Hzero. }
  unfold normalize. cbn [reads_only run_alone load]. rewrite W in B. destruct (Nat.leb_spec (snd (ro_bucketing (req m r))) 0) as [L|L]; [|exact Hsort].
  rewrite E, B in L. cbn in L. lia.
Qed.
Lemma quiet_candidates {A} n : forall k : list (Z * (Filter RE * Z)) -> code A,
  reads_only m (k (repeat (req_Limit v, (req_Filter v, req_StackDepth v)) n)) ->
  reads_only m (candidates Compile r n k) /\ run_alone (candidates Compile r n k) m = run_alone (k (repeat (req_Limit v, (req_Filter v, req_StackDepth v)) n)) m.
Proof.
  induction n as [|n IH]; intros k H; [split; [exact H|reflexivity]|]. cbn [candidates]. unfold one_candidate. cbn [reads_only run_alone load repeat fst snd] in *.
  match goal with |- reads_only m (initialize_regexp _ _ ?K) /\ _ => pose proof (quiet_regexp K) as Q end. cbv beta in Q. cbn [reads_only run_alone load] in Q.
  match type of Q with reads_only m (candidates _ _ _ ?K) -> _ => specialize (IH K) end. cbv beta in IH.
  replace (with_query (rest_of (ro_filter (req m r))) (Query (ro_filter (req m r))) (f_regexp (ro_filter (req m r)))) with (req_Filter v) in *
    by (unfold value_of; cbn [req_Filter]; destruct (ro_filter (req m r)); reflexivity).
  destruct (IH H) as [R1 R2]. destruct (Q R1) as [R3 R4]. split; [exact R3|]. rewrite R4. exact R2.
Qed.
End Quiet.

Lemma quiet_job m j : settled m (request_of j) -> leaves_sorted sorter ->
  reads_only m (code_of Compile sorter j) /\ run_alone (code_of Compile sorter j) m = (m, takes (value_of m (request_of j)) j).
Proof.
  intros Hs Hl. destruct j as [r n|r|r]; cbn [code_of request_of] in *.
  - unfold collector_search.
    match goal with |- reads_only m (normalize _ _ _ ?K) /\ _ => pose proof (quiet_normalize m r Hs Hl K) as Q end. cbv beta in Q. cbn [reads_only run_alone load] in Q.
    match type of Q with reads_only m (load_all _ _ _ ?K) -> _ => pose proof (quiet_all m r Hs K) as Q2 end. cbv beta in Q2.
    match type of Q2 with reads_only m (candidates _ _ _ ?K) -> _ => pose proof (quiet_candidates m r Hs n K Logic.I) as [C1 C2] end.
    destruct (Q2 C1) as [R1 R2]. destruct (Q R1) as [R3 R4]. split; [exact R3|]. rewrite R4, R2, C2. reflexivity.
  - unfold client_search. cbn [reads_only run_alone load]. match goal with |- reads_only m (load_all _ _ _ ?K) /\ _ => destruct (quiet_all m r Hs K Logic.I) as [R1 R2] end.
    split; [exact R1|]. rewrite R2. reflexivity.
  - unfold multi_rest. cbn [reads_only run_alone load]. match goal with |- reads_only m (load_all _ _ _ ?K) /\ _ => destruct (quiet_all m r Hs K Logic.I) as [R1 R2] end.
    split; [exact R1|]. rewrite R2. reflexivity.
Qed.

Section Concurrent.
Variable m : mem.
Variable jobs : list job.
Hypothesis Hset : forall j, In j jobs -> settled m (request_of j).
Hypothesis Hleave : leaves_sorted sorter.
Definition undisturbed (s : shared RE) : Prop :=
  sh_mem s = m /\ (forall e, In e (sh_log s) -> snd (fst e) = false) /\ length (sh_threads s) = length jobs /\
  forall i j t, nth_error jobs i = Some j -> nth_error (sh_threads s) i = Some t -> reads_only m t /\ run_alone t m = (m, takes (value_of m (request_of j)) j).
Lemma undisturbed_start : undisturbed (sh_start Compile sorter m jobs).
Proof.
  split; [reflexivity|]. split; [intros e []|]. cbn [sh_threads sh_start]. split; [apply map_length|]. intros i j t Hj Ht.
  rewrite nth_error_map, Hj in Ht. injection Ht as <-. apply quiet_job; [|exact Hleave]. apply Hset. eapply nth_error_In. exact Hj.
Qed.
Lemma undisturbed_step s i : undisturbed s -> undisturbed (sh_step s i).
Proof.
  intros (Em & El & En & Et). unfold sh_step. destruct (nth_error (sh_threads s) i) as [t|] eqn:Hi; [|exact (conj Em (conj El (conj En Et)))].
  assert (Hlt : i < length jobs) by (rewrite <- En; apply nth_error_Some; congruence).
  destruct (nth_error jobs i) as [j|] eqn:Hj; [|apply nth_error_None in Hj; lia].
  destruct (Et i j t Hj Hi) as [Hr Ha]. destruct t as [x|B f k|B f v k|vs k]; [exact (conj Em (conj El (conj En Et)))| |destruct Hr|destruct Hr].
  cbn [reads_only run_alone] in Hr, Ha. split; [exact Em|]. cbn [sh_log sh_threads sh_mem]. split.
  { intros e He. apply in_app_iff in He as [He|[<-|[]]]; [apply El; exact He|reflexivity]. }
  split; [rewrite length_update; exact En|]. intros i' j' t' Hj' Ht'. destruct (Nat.eq_dec i i') as [<-|Hne].
  - rewrite nth_update_same in Ht' by lia. injection Ht' as <-. rewrite Hj in Hj'. injection Hj' as <-. rewrite Em. split; assumption.
  - rewrite nth_update_other in Ht' by exact Hne. exact (Et i' j' t' Hj' Ht').
Qed.
Lemma undisturbed_run sched : undisturbed (sh_run sched (sh_start Compile sorter m jobs)).
Proof.
  unfold sh_run. generalize undisturbed_start. generalize (sh_start Compile sorter m jobs). induction sched as [|i sched IH]; intros s Hs; [exact Hs|].
  cbn [fold_left]. apply IH. apply undisturbed_step. exact Hs.
Qed.
End Concurrent.

(** ** Normalizing alone *)
Lemma update_update {A} i (x y : A) l : update i y (update i x l) = update i y l.
Proof. revert i. induction l as [|z l IH]; intros [|i]; cbn [update]; [reflexivity..|f_equal; apply IH]. Qed.
Lemma set_same (m : mem) r : set_req m r (req m r) = m.
Proof. unfold set_req, req. rewrite update_same. destruct m. reflexivity. Qed.
Lemma req_set (m : mem) r o : r < length (m_reqs m) -> req (set_req m r o) r = o.
Proof. intros H. unfold req, set_req. cbn [m_reqs]. apply nth_update_at. exact H. Qed.

Lemma sort_alone {A} r a (k : code A) al : forall m, fst (ro_bucketing (req m r)) = a -> a < length (m_arrays m) ->
  run_alone (sort_slice r a al k) m = run_alone k (MkMem (update a (alg_run al (nth a (m_arrays m) [])) (m_arrays m)) (m_reqs m)).
Proof.
  induction al as [|i j c IH|i j c IH]; intros m Ha Hl.
  - cbn [sort_slice alg_run]. rewrite update_same. destruct m. reflexivity.
  - cbn [sort_slice run_alone load alg_run]. rewrite Ha. apply IH; assumption.
  - cbn [sort_slice run_alone load alg_run store m_arrays m_reqs]. rewrite nth_update_at by exact Hl. rewrite update_update. rewrite IH; cbn [m_arrays m_reqs].
    + rewrite nth_update_at by exact Hl. rewrite update_update. reflexivity.
    + exact Ha.
    + rewrite length_update. exact Hl.
Qed.
Definition with_filter (o : @robj RE) (f : Filter RE) : @robj RE := MkRO (ro_bucketing o) f (ro_limit o) (ro_depth o).
Lemma regexp_alone {A} r (k : option string -> code A) m :
  run_alone (initialize_regexp Compile r k) m =
  run_alone (k (snd (initializeQueryRegexp Compile (ro_filter (req m r))))) (set_req m r (with_filter (req m r) (fst (initializeQueryRegexp Compile (ro_filter (req m r)))))).
Proof.
  unfold initialize_regexp, initializeQueryRegexp. cbn [run_alone load].
  assert (Same : set_req m r (with_filter (req m r) (ro_filter (req m r))) = m) by (unfold with_filter; destruct (req m r) eqn:E; cbn; rewrite <- E; apply set_same).
  destruct (f_regexp (ro_filter (req m r))) as [re|]; [cbn [fst snd]; rewrite Same; reflexivity|]. cbn [run_alone load].
  destruct (String.eqb (Query (ro_filter (req m r))) "") ; [cbn [fst snd]; rewrite Same; reflexivity|]. cbn [run_alone load].
  destruct (Compile (Query (ro_filter (req m r)))) as [re|err]; cbn [run_alone store fst snd]; reflexivity.
Qed.
Lemma limit_alone {A} r (k : code A) m :
  run_alone (normalize_limit r k) m =
  run_alone k (set_req m r (MkRO (ro_bucketing (req m r)) (ro_filter (req m r)) (clamp_limit (ro_limit (req m r))) (ro_depth (req m r)))).
Proof.
  assert (Same : set_req m r (MkRO (ro_bucketing (req m r)) (ro_filter (req m r)) (ro_limit (req m r)) (ro_depth (req m r))) = m)
    by (destruct (req m r) eqn:E; cbn; rewrite <- E; apply set_same).
  unfold normalize_limit, clamp_limit. cbn [run_alone load].
  destruct (ro_limit (req m r) <=? 0)%Z; [reflexivity|]. cbn [run_alone load]. destruct (ro_limit (req m r) <? SearchLimitMin)%Z; [reflexivity|]. cbn [run_alone load].
  destruct (SearchLimitMax <? ro_limit (req m r))%Z; [reflexivity|]. rewrite Same. reflexivity.
Qed.
Lemma rest_alone r m : r < length (m_reqs m) ->
  let fe := FilterNormalize Compile (ro_filter (req m r)) in
  run_alone (normalize_rest Compile r Ret) m =
  (set_req m r (MkRO (ro_bucketing (req m r)) (fst fe) (clamp_limit (ro_limit (req m r))) (ro_depth (req m r))), map (fun e => "filter: " ++ e)%string (snd fe)).
Proof.
  intros Hr fe. unfold normalize_rest. rewrite regexp_alone, limit_alone. rewrite !req_set by exact Hr. unfold with_filter. cbn [ro_bucketing ro_filter ro_limit ro_depth run_alone].
  unfold set_req. cbn [m_arrays m_reqs]. rewrite update_update. unfold fe, FilterNormalize. destruct (initializeQueryRegexp Compile (ro_filter (req m r))) as [f [e|]]; reflexivity.
Qed.
Lemma load_all_alone {A} m a n : forall i (k : list Z -> code A),
  run_alone (load_all a i n k) m = run_alone (k (map (fun x => nth x (nth a (m_arrays m) []) 0%Z) (seq i n))) m.
Proof. induction n as [|n IH]; intros i k; [reflexivity|]. cbn [load_all run_alone load]. rewrite IH. reflexivity. Qed.

(** The slice is a whole array that exists. *)
Definition whole (m : mem) (r : nat) (l : list Z) : Prop :=
  r < length (m_reqs m) /\ nth_error (m_arrays m) (fst (ro_bucketing (req m r))) = Some l /\ snd (ro_bucketing (req m r)) = length l.
Lemma whole_elements m r l : whole m r l -> elements m (ro_bucketing (req m r)) = l.
Proof. intros (_ & H & E). unfold elements. rewrite (nth_error_nth _ _ _ H), E. apply firstn_all. Qed.
Definition kept (a : nat) (m m' : mem) (r : nat) : Prop :=
  (forall r', r' <> r -> req m' r' = req m r') /\ length (m_reqs m') = length (m_reqs m) /\
  (forall b l, b <> a -> nth_error (m_arrays m) b = Some l -> nth_error (m_arrays m') b = Some l).

Lemma finish_alone m r l : whole m r l -> let '(m', errs) := run_alone (normalize_rest Compile r Ret) m in
  let fe := FilterNormalize Compile (ro_filter (req m r)) in
  whole m' r l /\ value_of m' r = MkReq l (fst fe) (clamp_limit (ro_limit (req m r))) (ro_depth (req m r)) /\
  errs = map (fun e => "filter: " ++ e)%string (snd fe) /\ m_arrays m' = m_arrays m /\
  (forall r', r' <> r -> req m' r' = req m r') /\ length (m_reqs m') = length (m_reqs m).
Proof.
  intros H. pose proof H as (Hr & Ha & En). pose proof (rest_alone r m Hr) as R. cbn zeta in R. rewrite R. cbn zeta.
  assert (W : whole (set_req m r (MkRO (ro_bucketing (req m r)) (fst (FilterNormalize Compile (ro_filter (req m r)))) (clamp_limit (ro_limit (req m r))) (ro_depth (req m r)))) r l).
  { unfold whole. rewrite req_set by exact Hr. cbn [ro_bucketing m_reqs m_arrays set_req]. rewrite length_update. exact H. }
  split; [exact W|]. split.
  { unfold value_of. rewrite (whole_elements _ _ _ W). rewrite req_set by exact Hr. reflexivity. }
  split; [reflexivity|]. split; [reflexivity|]. split; [|apply length_update]. intros r' Hne. unfold req, set_req. cbn [m_reqs]. apply nth_update_ne. congruence.
Qed.
Lemma zero_alone m r x l : whole m r (x :: l) -> let '(m', errs) := run_alone (normalize_zero Compile r Ret) m in
  let fe := FilterNormalize Compile (ro_filter (req m r)) in
  let b := if (x =? 0)%Z then x :: l else 0%Z :: x :: l in
  whole m' r b /\ value_of m' r = MkReq b (fst fe) (clamp_limit (ro_limit (req m r))) (ro_depth (req m r)) /\
  errs = map (fun e => "filter: " ++ e)%string (snd fe) /\ (forall a y, nth_error (m_arrays m) a = Some y -> nth_error (m_arrays m') a = Some y) /\
  (forall r', r' <> r -> req m' r' = req m r') /\ length (m_reqs m') = length (m_reqs m).
Proof.
  intros H. pose proof H as (Hr & Ha & En). unfold normalize_zero. cbn [run_alone load]. rewrite (nth_error_nth _ _ _ Ha). cbn [nth]. destruct (Z.eqb_spec x 0) as [E|E].
  - pose proof (finish_alone m r (x :: l) H) as F. destruct (run_alone (normalize_rest Compile r Ret) m) as [m' errs]. destruct F as (F1 & F2 & F3 & F4 & F5 & F6).
    split; [exact F1|]. split; [exact F2|]. split; [exact F3|]. split; [intros a y Hy; rewrite F4; exact Hy|]. split; assumption.
  - cbn [run_alone load]. rewrite load_all_alone. cbn [run_alone store]. rewrite (nth_error_nth _ _ _ Ha), En, map_nth_seq.
    match goal with |- context[run_alone (normalize_rest Compile r Ret) ?M] => set (m2 := M) end.
    assert (Q : req m2 r = MkRO (length (m_arrays m), S (length (x :: l))) (ro_filter (req m r)) (ro_limit (req m r)) (ro_depth (req m r))).
    { unfold m2. apply (req_set (MkMem (m_arrays m ++ [0%Z :: x :: l]) (m_reqs m))). exact Hr. }
    assert (W : whole m2 r (0%Z :: x :: l)).
    { split; [unfold m2; cbn [m_reqs set_req]; rewrite length_update; exact Hr|]. rewrite Q. cbn [ro_bucketing fst snd]. split; [|reflexivity].
      unfold m2. cbn [set_req m_arrays]. rewrite nth_error_app2, Nat.sub_diag by lia. reflexivity. }
    pose proof (finish_alone m2 r _ W) as F. destruct (run_alone (normalize_rest Compile r Ret) m2) as [m' errs]. rewrite Q in F. cbn [ro_filter ro_limit ro_depth] in F.
    destruct F as (F1 & F2 & F3 & F4 & F5 & F6). split; [exact F1|]. split; [exact F2|]. split; [exact F3|]. split.
    { intros a y Hy. rewrite F4. unfold m2. cbn [set_req m_arrays]. rewrite nth_error_app1; [exact Hy|]. apply nth_error_Some. congruence. }
    split; [|rewrite F6; unfold m2; cbn [set_req m_reqs]; apply length_update].
    intros r' Hne. rewrite F5 by exact Hne. unfold m2, req, set_req. cbn [m_reqs]. apply nth_update_ne. congruence.
Qed.
Hypothesis Hsorts : sorts sorter.
Lemma alg_sorts l : alg_run (sorter (length l)) l = sort_durations l.
Proof.
  apply (sorted_unique (fun l => alg_run (sorter (length l)) l)). intros b. destruct (Hsorts b) as [H1 H2]. split; [exact H1|]. apply in_order_ascending. exact H2.
Qed.
Lemma sorted_alone m r l : whole m r l -> l <> [] -> let '(m', errs) := run_alone (normalize_sort Compile sorter r Ret) m in
  let fe := FilterNormalize Compile (ro_filter (req m r)) in
  whole m' r (norm_bucketing l) /\ value_of m' r = MkReq (norm_bucketing l) (fst fe) (clamp_limit (ro_limit (req m r))) (ro_depth (req m r)) /\
  errs = map (fun e => "filter: " ++ e)%string (snd fe) /\ kept (fst (ro_bucketing (req m r))) m m' r /\
  nth_error (m_arrays m') (fst (ro_bucketing (req m r))) = Some (sort_durations l).
Proof.
  intros H Hne. pose proof H as (Hr & Ha & En). unfold normalize_sort. cbn [run_alone load].
  assert (Hlt : fst (ro_bucketing (req m r)) < length (m_arrays m)) by (apply nth_error_Some; congruence).
  rewrite (sort_alone r _ _ _ m eq_refl Hlt). rewrite (nth_error_nth _ _ _ Ha), En, alg_sorts.
  match goal with |- context[run_alone (normalize_zero Compile r Ret) ?M] => set (m2 := M) end.
  assert (Q : req m2 r = req m r) by reflexivity.
  assert (Wn : whole m2 r (sort_durations l)).
  { split; [exact Hr|]. rewrite Q. split; [unfold m2; cbn [m_arrays]; apply nth_update_same; exact Hlt|]. rewrite En. symmetry. apply Permutation_length, sort_durations_perm. }
  assert (Hnb : norm_bucketing l = match sort_durations l with b0 :: _ => if (b0 =? 0)%Z then sort_durations l else 0%Z :: sort_durations l | [] => sort_durations l end)
    by (unfold norm_bucketing; destruct l; [contradiction|reflexivity]).
  rewrite Hnb. destruct (sort_durations l) as [|x l'] eqn:Es.
  { pose proof (sort_durations_perm l) as P. rewrite Es in P. apply Permutation_nil in P. contradiction. }
  pose proof (zero_alone m2 r x l' Wn) as F. destruct (run_alone (normalize_zero Compile r Ret) m2) as [m' errs]. rewrite Q in F. destruct F as (F1 & F2 & F3 & F4 & F5 & F6).
  split; [exact F1|]. split; [exact F2|]. split; [exact F3|]. split.
  - split; [exact F5|]. split; [exact F6|]. intros b y Hb Hy. apply F4. unfold m2. cbn [m_arrays]. rewrite nth_update_other by congruence. exact Hy.
  - apply F4. unfold m2. cbn [m_arrays]. apply nth_update_same. exact Hlt.
Qed.

(** What normalizing does when nobody interferes. *)
Lemma normalize_alone m r : covers m r -> nth_error (m_arrays m) 0 = Some DefaultBucketing ->
  let '(m', errs) := run_alone (normalize Compile sorter r Ret) m in
  Normalize Compile (value_of m r) = Ok (value_of m' r, errs) /\
  whole m' r (req_Bucketing (value_of m' r)) /\
  (forall r', r' <> r -> req m' r' = req m r') /\ length (m_reqs m') = length (m_reqs m) /\
  (forall b l, b <> fst (ro_bucketing (req m r)) -> nth_error (m_arrays m) b = Some l -> nth_error (m_arrays m') b = Some l) /\
  nth_error (m_arrays m') 0 = Some DefaultBucketing.
Proof.
  intros (Hr & Hc) H0. unfold normalize. cbn [run_alone load]. rewrite Normalize_spec, <- clamp_limit_spec.
  assert (Hd : sort_durations DefaultBucketing = DefaultBucketing) by reflexivity.
  destruct (Nat.leb_spec (snd (ro_bucketing (req m r))) 0) as [L|L].
  - cbn [run_alone store]. set (m2 := set_req m r _).
    assert (Q : req m2 r = MkRO (0, length DefaultBucketing) (ro_filter (req m r)) (ro_limit (req m r)) (ro_depth (req m r))) by (apply req_set; exact Hr).
    assert (W : whole m2 r DefaultBucketing).
    { split; [unfold m2; cbn [m_reqs set_req]; rewrite length_update; exact Hr|]. rewrite Q. split; [exact H0|reflexivity]. }
    pose proof (sorted_alone m2 r _ W ltac:(discriminate)) as F. destruct (run_alone (normalize_sort Compile sorter r Ret) m2) as [m' errs]. rewrite Q in F.
    cbn [ro_bucketing ro_filter ro_limit ro_depth fst] in F. rewrite Hd in F. destruct F as (F1 & F2 & F3 & (F4 & F5 & F6) & F7).
    split.
    { rewrite F2, F3. unfold value_of at 1. cbn [req_Bucketing]. unfold elements. replace (snd (ro_bucketing (req m r))) with 0 by lia. reflexivity. }
    split; [rewrite F2; exact F1|]. split; [intros r' Hne; rewrite F4 by exact Hne; unfold m2, req, set_req; cbn [m_reqs]; apply nth_update_ne; congruence|].
    split; [rewrite F5; unfold m2; cbn [set_req m_reqs]; apply length_update|]. split; [|exact F7]. intros b l Hb Hl. destruct (Nat.eq_dec b 0) as [->|Hb0]; [rewrite F7; congruence|].
    apply F6; [exact Hb0|exact Hl].
  - destruct Hc as [Hc|[Hlt Hc]]; [lia|]. destruct (nth_error (m_arrays m) (fst (ro_bucketing (req m r)))) as [l|] eqn:El; [|apply nth_error_None in El; lia].
    rewrite (nth_error_nth _ _ _ El) in Hc. assert (W : whole m r l) by (split; [exact Hr|]; split; [exact El|exact Hc]).
    assert (Hne : l <> []) by (intros ->; cbn in Hc; lia).
    pose proof (sorted_alone m r _ W Hne) as F. destruct (run_alone (normalize_sort Compile sorter r Ret) m) as [m' errs]. destruct F as (F1 & F2 & F3 & (F4 & F5 & F6) & F7).
    split; [rewrite F2, F3; unfold value_of at 1; cbn [req_Bucketing]; rewrite (whole_elements _ _ _ W); reflexivity|].
    split; [rewrite F2; exact F1|]. split; [exact F4|]. split; [exact F5|]. split; [exact F6|].
    destruct (Nat.eq_dec 0 (fst (ro_bucketing (req m r)))) as [E0|E0]; [|apply F6; assumption].
    rewrite <- E0 in F7, El. rewrite H0 in El. injection El as <-. rewrite F7, Hd. reflexivity.
Qed.
Lemma normalized_settled m r : covers m r -> nth_error (m_arrays m) 0 = Some DefaultBucketing ->
  (forall x, In x (req_Bucketing (value_of m r)) -> 0 <= x)%Z -> settled (fst (run_alone (normalize Compile sorter r Ret) m)) r.
Proof.
  intros Hc H0 Hnn. pose proof (normalize_alone m r Hc H0) as F. destruct (run_alone (normalize Compile sorter r Ret) m) as [m' errs]. cbn [fst].
  destruct F as (F1 & F2 & _). rewrite Normalize_spec in F1. unfold settled. remember (value_of m' r) as v' eqn:Ev. injection F1 as F1 _. pose proof F2 as (G1 & G2 & G3). split; [exact G1|]. cbn zeta.
  rewrite (nth_error_nth _ _ _ G2). split; [exact G3|]. rewrite <- F1. cbn [req_Bucketing req_Limit req_Filter].
  destruct (norm_cases (req_Bucketing (value_of m r))) as (_ & N2 & N3). split; [apply N3; exact Hnn|]. split; [exact N2|]. split; [apply effective_limit_bounds|].
  unfold FilterNormalize, initializeQueryRegexp, value_of. cbn [req_Filter]. generalize (ro_filter (req m r)) as f. intros f.
  destruct (f_regexp f) as [re|] eqn:Er; [right; cbn [fst]; rewrite Er; discriminate|].
  destruct (String.eqb_spec (Query f) "") as [E|E]; [left; exact E|]. destruct (Compile (Query f)) as [re|err]; [right; cbn; discriminate|left; reflexivity].
Qed.
End Shared.

(** ** Searches with requests of their own and the default bucketing *)
Section Own.
Context {RE : Type}.
Variable Compile : string -> RE + string.
Variable sorter : nat -> algo.
Notation mem := (mem RE).
Notation code := (code RE).

(** Reads [r] and array 0, writes [r] only. *)
Definition may_read {B} (r : nat) (f : fld (RE := RE) B) : Prop :=
  match f with FBucketing q | FQuery q | FRegexp q | FLimit q | FRest q => q = r | FElem a _ => a = 0 end.
Definition may_write {B} (r : nat) (f : fld (RE := RE) B) : Prop :=
  match f with FBucketing q | FQuery q | FRegexp q | FLimit q => q = r | FRest _ | FElem _ _ => False end.
Fixpoint apart {A} (r : nat) (c : code A) (m : mem) : Prop :=
  match c with
  | Ret _ => True
  | Load f k => may_read r f /\ apart r (k (load f m)) m
  | Store f v k => may_write r f /\ apart r k (store f v m)
  | Alloc _ _ => False
  end.
Definition same_view (r : nat) (m m' : mem) : Prop :=
  req m r = req m' r /\ nth 0 (m_arrays m) [] = nth 0 (m_arrays m') [] /\ length (m_reqs m) = length (m_reqs m').
Lemma same_load {B} r (f : fld B) m m' : same_view r m m' -> may_read r f -> load f m = load f m'.
Proof. intros (E1 & E2 & _) H. destruct f; cbn in *; subst; congruence. Qed.
Lemma same_store {B} r (f : fld B) v m m' : same_view r m m' -> may_write r f -> same_view r (store f v m) (store f v m').
Proof.
  intros (E1 & E2 & E3) H. destruct f; cbn in H; try contradiction; subst r0; cbn [store]; rewrite E1; unfold same_view, set_req, req in *; cbn [m_reqs m_arrays];
    rewrite !length_update, !nth_update, E3, E1; split; [reflexivity|split; [exact E2|reflexivity]|reflexivity|split; [exact E2|reflexivity]|reflexivity|split; [exact E2|reflexivity]|reflexivity|split; [exact E2|reflexivity]].
Qed.
Lemma other_store {B} r r' (f : fld B) v m : r <> r' -> may_write r' f -> same_view r (store f v m) m.
Proof.
  intros Hne H. destruct f; cbn in H; try contradiction; subst; cbn [store]; unfold same_view, set_req, req; cbn [m_reqs m_arrays]; rewrite length_update, nth_update_ne by congruence; auto.
Qed.
Lemma same_apart {A} r (c : code A) : forall m m', same_view r m m' -> apart r c m -> apart r c m' /\ snd (run_alone c m) = snd (run_alone c m').
Proof.
  induction c as [x|B f k IH|B f v k IH|vs k IH]; intros m m' Hv Ha; cbn [apart run_alone] in *; [split; [exact Logic.I|reflexivity]| | |destruct Ha].
  - destruct Ha as [Hr Ha]. rewrite <- (same_load r f m m' Hv Hr). destruct (IH _ m m' Hv Ha) as [I1 I2]. auto.
  - destruct Ha as [Hr Ha]. destruct (IH _ _ (same_store r f v m m' Hv Hr) Ha) as [I1 I2]. auto.
Qed.

Section Run.
Variable m : mem.
Variable jobs : list job.
Hypothesis Hap : forall j, In j jobs -> apart (request_of j) (code_of Compile sorter j) m.
Hypothesis Hdis : NoDup (map request_of jobs).
Definition separate (s : shared RE) : Prop :=
  m_arrays (sh_mem s) = m_arrays m /\ length (sh_threads s) = length jobs /\
  (forall i w a, In (i, w, a) (sh_log s) -> exists j, nth_error jobs i = Some j /\ match a with
    | AElem b _ => b = 0 /\ w = false
    | ABucketing q | AQuery q | ARegexp q | ALimit q | ARest q => q = request_of j end) /\
  forall i j t, nth_error jobs i = Some j -> nth_error (sh_threads s) i = Some t ->
    apart (request_of j) t (sh_mem s) /\ snd (run_alone t (sh_mem s)) = snd (run_alone (code_of Compile sorter j) m).
Lemma separate_start : separate (sh_start Compile sorter m jobs).
Proof.
  split; [reflexivity|]. cbn [sh_threads sh_start sh_log sh_mem]. split; [apply map_length|]. split; [intros i w a []|]. intros i j t Hj Ht.
  rewrite nth_error_map, Hj in Ht. injection Ht as <-. split; [|reflexivity]. apply Hap. eapply nth_error_In. exact Hj.
Qed.
Lemma distinct i i' j j' : nth_error jobs i = Some j -> nth_error jobs i' = Some j' -> i <> i' -> request_of j <> request_of j'.
Proof.
  intros H H' Hne E. apply Hne. apply (proj1 (NoDup_nth_error (map request_of jobs)) Hdis).
  - apply nth_error_Some. rewrite nth_error_map, H. discriminate.
  - rewrite !nth_error_map, H, H'. cbn. congruence.
Qed.
Lemma separate_step s i : separate s -> separate (sh_step s i).
Proof.
  intros (Em & En & El & Et). unfold sh_step. destruct (nth_error (sh_threads s) i) as [t|] eqn:Hi; [|exact (conj Em (conj En (conj El Et)))].
  assert (Hlt : i < length jobs) by (rewrite <- En; apply nth_error_Some; congruence).
  destruct (nth_error jobs i) as [j|] eqn:Hj; [|apply nth_error_None in Hj; lia].
  destruct (Et i j t Hj Hi) as [Ha Hr]. destruct t as [x|B f k|B f v k|vs k]; [exact (conj Em (conj En (conj El Et)))| | |destruct Ha]; cbn [apart run_alone] in Ha, Hr; destruct Ha as [Hf Ha].
  - split; [exact Em|]. cbn [sh_log sh_threads sh_mem]. split; [rewrite length_update; exact En|]. split.
    + intros i' w a H. apply in_app_iff in H as [H|[H|[]]]; [apply El; exact H|]. injection H as <- <- <-. exists j. split; [exact Hj|]. destruct f; cbn in Hf |- *; auto.
    + intros i' j' t' Hj' Ht'. destruct (Nat.eq_dec i i') as [<-|Hne].
      * rewrite nth_update_same in Ht' by lia. injection Ht' as <-. rewrite Hj in Hj'. injection Hj' as <-. split; assumption.
      * rewrite nth_update_other in Ht' by exact Hne. exact (Et i' j' t' Hj' Ht').
  - split; [destruct f; cbn in Hf; try contradiction; exact Em|]. cbn [sh_log sh_threads sh_mem]. split; [rewrite length_update; exact En|]. split.
    + intros i' w a H. apply in_app_iff in H as [H|[H|[]]]; [apply El; exact H|]. injection H as <- <- <-. exists j. split; [exact Hj|]. destruct f; cbn in Hf |- *; auto; contradiction.
    + intros i' j' t' Hj' Ht'. destruct (Nat.eq_dec i i') as [<-|Hne].
      * rewrite nth_update_same in Ht' by lia. injection Ht' as <-. rewrite Hj in Hj'. injection Hj' as <-. split; assumption.
      * rewrite nth_update_other in Ht' by exact Hne. destruct (Et i' j' t' Hj' Ht') as [Ha' Hr'].
        assert (V : same_view (request_of j') (sh_mem s) (store f v (sh_mem s))).
        { destruct (other_store (request_of j') (request_of j) f v (sh_mem s)) as (V1 & V2 & V3); [exact (distinct i' i j' j Hj' Hj ltac:(congruence))|exact Hf|]. repeat split; congruence. }
        destruct (same_apart _ _ _ _ V Ha') as [I1 I2]. split; [exact I1|congruence].
Qed.
Lemma separate_run sched : separate (sh_run sched (sh_start Compile sorter m jobs)).
Proof.
  unfold sh_run. generalize separate_start. generalize (sh_start Compile sorter m jobs). induction sched as [|i sched IH]; intros s Hs; [exact Hs|].
  cbn [fold_left]. apply IH. apply separate_step. exact Hs.
Qed.
End Run.

(** A request that has the default bucketing. *)
Definition defaulted (r : nat) (m : mem) : Prop :=
  r < length (m_reqs m) /\ ro_bucketing (req m r) = (0, length DefaultBucketing) /\ nth 0 (m_arrays m) [] = DefaultBucketing.
Definition fine {A} (r : nat) (c : code A) : Prop := forall m, defaulted r m -> apart r c m.
Lemma defaulted_set r m o : defaulted r m -> ro_bucketing o = (0, length DefaultBucketing) -> defaulted r (set_req m r o).
Proof. intros (H1 & H2 & H3) H. split; [cbn; rewrite length_update; exact H1|]. rewrite req_set by exact H1. split; [exact H|exact H3]. Qed.
Lemma fine_load_all {A} r n : forall i (k : list Z -> code A), (forall l, fine r (k l)) -> fine r (load_all 0 i n k).
Proof.
  induction n as [|n IH]; intros i k H; [apply H|]. intros m Hm. cbn [load_all apart may_read]. split; [reflexivity|].
  apply (IH (S i) (fun xs => k (_ :: xs))); [|exact Hm]. intros l. apply H.
Qed.
Lemma fine_regexp {A} r (k : option string -> code A) : (forall e, fine r (k e)) -> fine r (initialize_regexp Compile r k).
Proof.
  intros H m Hm. unfold initialize_regexp. cbn [apart may_read load]. split; [reflexivity|]. destruct (f_regexp (ro_filter (req m r))); [apply H; exact Hm|].
  cbn [apart may_read load]. split; [reflexivity|]. destruct (String.eqb _ _); [apply H; exact Hm|]. cbn [apart may_read load]. split; [reflexivity|].
  destruct (Compile (Query (ro_filter (req m r)))); cbn [apart may_write store]; (split; [reflexivity|]); apply H, defaulted_set; [exact Hm|apply Hm|exact Hm|apply Hm].
Qed.
Lemma fine_limit {A} r (k : code A) : fine r k -> fine r (normalize_limit r k).
Proof.
  intros H m Hm. unfold normalize_limit. cbn [apart may_read load]. split; [reflexivity|]. destruct (_ <=? 0)%Z.
  { cbn [apart may_write store]. split; [reflexivity|]. apply H, defaulted_set; [exact Hm|apply Hm]. }
  cbn [apart may_read load]. split; [reflexivity|]. destruct (_ <? SearchLimitMin)%Z.
  { cbn [apart may_write store]. split; [reflexivity|]. apply H, defaulted_set; [exact Hm|apply Hm]. }
  cbn [apart may_read load]. split; [reflexivity|]. destruct (SearchLimitMax <? _)%Z; [|apply H; exact Hm].
  cbn [apart may_write store]. split; [reflexivity|]. apply H, defaulted_set; [exact Hm|apply Hm].
Qed.
Lemma fine_sort {A} r al (k : code A) : no_swap al DefaultBucketing -> fine r k -> fine r (sort_slice r 0 al k).
Proof.
  intros Hn Hk m Hm. pose proof Hm as (_ & E1 & E2). induction al as [|i j c IH|i j c IH]; [apply Hk; exact Hm| |destruct Hn].
  cbn [sort_slice apart load may_read]. rewrite E1. cbn [fst]. rewrite E2. do 4 (split; [reflexivity|]). apply IH. exact Hn.
Qed.
Hypothesis Hleave : leaves_sorted sorter.
Lemma default_ascending : ascending DefaultBucketing.
Proof. cbn. lia. Qed.
Lemma fine_candidates {A} r n : forall k : list (Z * (Filter RE * Z)) -> code A, (forall l, fine r (k l)) -> fine r (candidates Compile r n k).
Proof.
  induction n as [|n IH]; intros k H; [apply H|]. intros m Hm. cbn [candidates]. unfold one_candidate. cbn [apart may_read]. do 2 (split; [reflexivity|]).
  apply fine_regexp; [|exact Hm]. intros e m' Hm'. cbn [apart may_read]. do 2 (split; [reflexivity|]). apply IH; [|exact Hm']. intros l. apply H.
Qed.
Lemma fine_search r n m : r < length (m_reqs m) -> snd (ro_bucketing (req m r)) = 0 -> nth 0 (m_arrays m) [] = DefaultBucketing ->
  apart r (collector_search Compile sorter r n) m.
Proof.
  intros Hr Hs H0. unfold collector_search, normalize. cbn [apart may_read load]. split; [reflexivity|]. rewrite Hs. cbn [Nat.leb apart may_write store]. split; [reflexivity|].
  assert (Hm : defaulted r (set_req m r (MkRO (0, length DefaultBucketing) (ro_filter (req m r)) (ro_limit (req m r)) (ro_depth (req m r))))).
  { split; [cbn; rewrite length_update; exact Hr|]. rewrite req_set by exact Hr. split; [reflexivity|exact H0]. }
  revert Hm. generalize (set_req m r (MkRO (0, length DefaultBucketing) (ro_filter (req m r)) (ro_limit (req m r)) (ro_depth (req m r)))). clear m Hr Hs H0. intros m Hm.
  unfold normalize_sort. cbn [apart may_read load]. split; [reflexivity|]. destruct Hm as (M1 & M2 & M3). rewrite M2. cbn [fst snd].
  apply fine_sort; [apply Hleave, default_ascending| |exact (conj M1 (conj M2 M3))]. clear m M1 M2 M3. intros m Hm. unfold normalize_zero. pose proof Hm as (_ & M2 & M3). cbn [apart may_read load]. split; [reflexivity|].
  rewrite M2. cbn [fst]. split; [reflexivity|]. rewrite M3. cbn [nth DefaultBucketing Z.eqb]. unfold normalize_rest. apply fine_regexp; [|exact Hm]. intros e. apply fine_limit. clear m Hm M2 M3.
  intros m Hm. pose proof Hm as (_ & M2 & M3). cbn [apart may_read load]. split; [reflexivity|]. rewrite M2. cbn [fst snd]. apply fine_load_all; [|exact Hm].
  intros l. apply fine_candidates. intros l' m' Hm'. cbn [apart may_read]. split; [reflexivity|exact Logic.I].
Qed.

(** Normalizing, then something else. *)
Lemma rest_then {A} r (k : list string -> code A) m : r < length (m_reqs m) ->
  run_alone (normalize_rest Compile r k) m = let '(m', e) := run_alone (normalize_rest Compile r Ret) m in run_alone (k e) m'.
Proof. intros Hr. unfold normalize_rest. rewrite !regexp_alone, !limit_alone. reflexivity. Qed.
Lemma normalize_then {A} r (k : list string -> code A) m : sorts sorter -> covers m r -> nth_error (m_arrays m) 0 = Some DefaultBucketing ->
  run_alone (normalize Compile sorter r k) m = let '(m', e) := run_alone (normalize Compile sorter r Ret) m in run_alone (k e) m'.
Proof.
  intros Hso (Hr & Hc) H0. unfold normalize. cbn [run_alone load].
  assert (Z : forall m, r < length (m_reqs m) -> run_alone (normalize_zero Compile r k) m = let '(m', e) := run_alone (normalize_zero Compile r Ret) m in run_alone (k e) m').
  { clear m Hr Hc H0. intros m Hr. unfold normalize_zero. cbn [run_alone load]. destruct (_ =? 0)%Z; [apply rest_then; exact Hr|]. cbn [run_alone load]. rewrite !load_all_alone. cbn [run_alone store].
    apply rest_then. cbn. rewrite length_update. exact Hr. }
  assert (So : forall m, r < length (m_reqs m) -> fst (ro_bucketing (req m r)) < length (m_arrays m) ->
    run_alone (normalize_sort Compile sorter r k) m = let '(m', e) := run_alone (normalize_sort Compile sorter r Ret) m in run_alone (k e) m').
  { clear m Hr Hc H0. intros m Hr Hl. unfold normalize_sort. cbn [run_alone load]. rewrite !(sort_alone r _ _ _ m eq_refl Hl). apply Z. exact Hr. }
  destruct (Nat.leb_spec (snd (ro_bucketing (req m r))) 0) as [L|L].
  - cbn [run_alone store]. apply So; [cbn; rewrite length_update; exact Hr|]. rewrite req_set by exact Hr. cbn. apply nth_error_Some. congruence.
  - destruct Hc as [Hc|[Hc _]]; [lia|]. apply So; assumption.
Qed.
End Own.

(** ** Go's insertion sort *)
Lemma swap_next p y x q : swap (S (length p)) (length p) (p ++ y :: x :: q) = p ++ x :: y :: q.
Proof. induction p as [|z p IH]; [reflexivity|]. unfold swap in *. cbn [length app update nth]. f_equal. exact IH. Qed.
Lemma nth_here (p : list Z) x q : nth (length p) (p ++ x :: q) 0%Z = x.
Proof. rewrite app_nth2, Nat.sub_diag by lia. reflexivity. Qed.
Lemma inner_spec k : forall p x s q, in_order Z.ltb p -> in_order Z.ltb (x :: s) -> (forall y z, In y p -> In z s -> (z <? y)%Z = false) ->
  exists l, Permutation l (p ++ x :: s) /\ in_order Z.ltb l /\ alg_run (inner (length p) k) (p ++ x :: s ++ q) = alg_run k (l ++ q).
Proof.
  induction p as [|y p IH] using rev_ind; intros x s q Hp Hx Hps.
  - exists (x :: s). split; [reflexivity|]. split; [exact Hx|reflexivity].
  - rewrite app_length, Nat.add_1_r. cbn [inner alg_run].
    assert (E : (p ++ [y]) ++ x :: s ++ q = p ++ y :: x :: s ++ q) by (rewrite <- app_assoc; reflexivity). rewrite E. rewrite nth_here.
    replace (nth (S (length p)) (p ++ y :: x :: s ++ q) 0%Z) with x.
    2: { rewrite <- E. replace (S (length p)) with (length (p ++ [y])) by (rewrite app_length; cbn; lia). symmetry. apply nth_here. }
    apply in_order_app in Hp as (P1 & P2 & P3). destruct (x <? y)%Z eqn:Hxy.
    + cbn [alg_run]. rewrite swap_next. destruct (IH x (y :: s) q) as (l & L1 & L2 & L3).
      * exact P1.
      * unfold in_order in *. inversion Hx as [|? ? S1 S2]; subst. constructor.
        -- constructor; [exact S1|]. apply Forall_forall. intros z Hz. apply Hps; [apply in_app_iff; right; left; reflexivity|exact Hz].
        -- constructor; [lia|exact S2].
      * intros a z Ha [<-|Hz]; [apply P3; [exact Ha|left; reflexivity]|]. apply Hps; [apply in_app_iff; left; exact Ha|exact Hz].
      * exists l. split; [rewrite L1; rewrite <- app_assoc; apply Permutation_app_head; apply perm_swap|]. split; [exact L2|exact L3].
    + exists ((p ++ [y]) ++ x :: s). split; [reflexivity|]. split; [|rewrite <- E, <- (app_assoc (p ++ [y])); reflexivity].
      apply in_order_app. split; [apply in_order_app; auto|]. split; [exact Hx|]. intros a z Ha [<-|Hz]; [|apply Hps; assumption].
      apply in_app_iff in Ha as [Ha|[<-|[]]]; [|exact Hxy]. specialize (P3 a y Ha (or_introl eq_refl)). lia.
Qed.
Lemma outer_spec n : forall p q, in_order Z.ltb p -> length q = n ->
  Permutation (alg_run (outer (length p) n) (p ++ q)) (p ++ q) /\ in_order Z.ltb (alg_run (outer (length p) n) (p ++ q)).
Proof.
  induction n as [|n IH]; intros p q Hp Hq.
  - destruct q; [|discriminate]. rewrite app_nil_r. split; [reflexivity|exact Hp].
  - destruct q as [|x q]; [discriminate|]. injection Hq as Hq. cbn [outer].
    destruct (inner_spec (outer (S (length p)) n) p x [] q Hp) as (l & L1 & L2 & L3); [constructor; constructor|intros y z _ []|]. cbn [app] in L3. rewrite L3.
    assert (El : S (length p) = length l) by (rewrite (Permutation_length L1), app_length; cbn; lia). rewrite El. destruct (IH l q L2 Hq) as [I1 I2]. split; [|exact I2].
    rewrite I1. rewrite L1, <- app_assoc. reflexivity.
Qed.
Lemma insertion_sorts : sorts insertion.
Proof.
  intros l. unfold insertion. destruct l as [|x l]; [split; [reflexivity|exact Logic.I]|]. cbn [length]. rewrite Nat.sub_succ, Nat.sub_0_r.
  destruct (outer_spec (length l) [x] l) as [H1 H2]; [constructor; constructor|reflexivity|]. split; [exact H1|]. apply in_order_ascending. exact H2.
Qed.
Lemma ascending_next l : forall j, ascending l -> S j < length l -> (nth (S j) l 0 <? nth j l 0)%Z = false.
Proof.
  induction l as [|x l IH]; intros j Ha Hj; [cbn in Hj; lia|]. destruct l as [|y l]; [cbn in Hj; lia|]. destruct Ha as [H1 H2]. destruct j as [|j]; [cbn [nth]; lia|].
  change (nth (S (S j)) (x :: y :: l) 0%Z) with (nth (S j) (y :: l) 0%Z). change (nth (S j) (x :: y :: l) 0%Z) with (nth j (y :: l) 0%Z). apply IH; [exact H2|cbn in *; lia].
Qed.
Lemma insertion_leaves : leaves_sorted insertion.
Proof.
  intros l Hl. unfold insertion. assert (H : forall n i, i + n <= length l -> no_swap (outer i n) l).
  { induction n as [|n IH]; intros i Hi; [exact Logic.I|]. cbn [outer]. destruct i as [|i]; cbn [inner no_swap]; [apply IH; lia|]. rewrite ascending_next by (exact Hl || lia). apply IH. lia. }
  destruct (length l) as [|n] eqn:E; [exact Logic.I|]. apply H. lia.
Qed.

(** ** C78 *)

(** A MultiSearcher normalizes the request and hands it to any number of searchers, which
    run in any order, step by step: nobody writes anything, and each takes from the request
    what it would take if it had the request to itself. *)
Theorem C78_shared_request_is_only_read : forall RE (Compile : string -> RE + string) sorter m r jobs sched,
  sorts sorter -> leaves_sorted sorter ->
  nth_error (m_arrays m) 0 = Some DefaultBucketing -> covers m r -> (forall x, In x (req_Bucketing (value_of m r)) -> 0 <= x)%Z ->
  (forall j, In j jobs -> request_of j = r) ->
  let m1 := fst (run_alone (normalize Compile sorter r Ret) m) in
  let errs := snd (run_alone (normalize Compile sorter r Ret) m) in
  let s := sh_run sched (sh_start Compile sorter m1 jobs) in
  Normalize Compile (value_of m r) = Ok (value_of m1 r, errs) /\
  sh_mem s = m1 /\ (forall i w a, In (i, w, a) (sh_log s) -> w = false) /\
  forall i j x, nth_error jobs i = Some j -> nth_error (sh_threads s) i = Some (Ret x) -> x = takes (value_of m1 r) j.
Proof.
  intros RE Compile sorter m r jobs sched Hso Hle H0 Hc Hnn Hj m1 errs s.
  pose proof (normalize_alone Compile sorter Hso m r Hc H0) as F. pose proof (normalized_settled Compile sorter Hso m r Hc H0 Hnn) as Hset. fold m1 in Hset.
  unfold errs, m1 in *. destruct (run_alone (normalize Compile sorter r Ret) m) as [m' e]. cbn [fst snd] in *. split; [apply F|].
  assert (Hall : forall j, In j jobs -> settled m' (request_of j)) by (intros j Hin; rewrite (Hj j Hin); exact Hset).
  destruct (undisturbed_run Compile sorter m' jobs Hall Hle sched) as (U1 & U2 & U3 & U4). fold s in U1, U2, U3, U4. split; [exact U1|]. split.
  - intros i w a Hin. exact (U2 (i, w, a) Hin).
  - intros i j x Hij Ht. destruct (U4 i j (Ret x) Hij Ht) as [_ U]. cbn [run_alone] in U. injection U as ->. rewrite (Hj j (nth_error_In _ _ Hij)). reflexivity.
Qed.

(** Every goroutine that is scheduled long enough returns, whatever the memory. *)
Theorem C78_finishes : forall RE (s : shared RE) i, i < length (sh_threads s) ->
  exists n x, nth_error (sh_threads (sh_run (repeat i n) s)) i = Some (Ret x).
Proof.
  intros RE s i Hi. destruct (nth_error (sh_threads s) i) as [t|] eqn:E; [|apply nth_error_None in E; lia]. revert s Hi E.
  induction t as [x|B f k IH|B f v k IH|vs k IH]; intros s Hi E; [exists 0, x; exact E| | |].
  - assert (Es : sh_step s i = MkSh (sh_mem s) (update i (k (load f (sh_mem s))) (sh_threads s)) (sh_log s ++ [(i, false, addr_of f)])) by (unfold sh_step; rewrite E; reflexivity).
    destruct (IH (load f (sh_mem s)) (sh_step s i)) as (n & x & Hn); [rewrite Es; cbn; rewrite length_update; exact Hi|rewrite Es; cbn; apply nth_update_same; exact Hi|].
    exists (S n), x. exact Hn.
  - assert (Es : sh_step s i = MkSh (store f v (sh_mem s)) (update i k (sh_threads s)) (sh_log s ++ [(i, true, addr_of f)])) by (unfold sh_step; rewrite E; reflexivity).
    destruct (IH (sh_step s i)) as (n & x & Hn); [rewrite Es; cbn; rewrite length_update; exact Hi|rewrite Es; cbn; apply nth_update_same; exact Hi|].
    exists (S n), x. exact Hn.
  - assert (Es : sh_step s i = MkSh (MkMem (m_arrays (sh_mem s) ++ [vs]) (m_reqs (sh_mem s))) (update i (k (length (m_arrays (sh_mem s)))) (sh_threads s)) (sh_log s)) by (unfold sh_step; rewrite E; reflexivity).
    destruct (IH (length (m_arrays (sh_mem s))) (sh_step s i)) as (n & x & Hn); [rewrite Es; cbn; rewrite length_update; exact Hi|rewrite Es; cbn; apply nth_update_same; exact Hi|].
    exists (S n), x. exact Hn.
Qed.

(** Searches with requests of their own, all without a bucketing, all sort the one array of
    DefaultBucketing in place.  Nobody ever writes it, no two searches touch the same place
    with one of them writing, and each gets what it gets alone: its own request, normalized. *)
Theorem C78_default_bucketing_is_never_written : forall RE (Compile : string -> RE + string) sorter m (jobs : list (nat * nat)) sched,
  sorts sorter -> leaves_sorted sorter ->
  nth_error (m_arrays m) 0 = Some DefaultBucketing -> NoDup (map fst jobs) ->
  (forall r n, In (r, n) jobs -> r < length (m_reqs m) /\ snd (ro_bucketing (req m r)) = 0) ->
  let s := sh_run sched (sh_start Compile sorter m (map (fun j => JCollector (fst j) (snd j)) jobs)) in
  m_arrays (sh_mem s) = m_arrays m /\ ~ conflict (sh_log s) /\
  forall i r n x, nth_error jobs i = Some (r, n) -> nth_error (sh_threads s) i = Some (Ret x) ->
    exists v errs, Normalize Compile (value_of m r) = Ok (v, errs) /\
      x = MkTaken errs (req_Bucketing v) (repeat (req_Limit v, (req_Filter v, req_StackDepth v)) n) (req_Limit v).
Proof.
  intros RE Compile sorter m jobs sched Hso Hle H0 Hnd Hin s. set (js := map (fun j => JCollector (fst j) (snd j)) jobs) in *.
  assert (Hreq : map request_of js = map fst jobs) by (unfold js; rewrite map_map; reflexivity).
  assert (Hap : forall j, In j js -> apart (request_of j) (code_of Compile sorter j) m).
  { intros j Hj. unfold js in Hj. apply in_map_iff in Hj as ((r & n) & <- & Hj). destruct (Hin r n Hj) as [G1 G2]. cbn [request_of code_of fst snd].
    apply fine_search; [exact Hle|exact G1|exact G2|apply nth_error_nth; exact H0]. }
  rewrite <- Hreq in Hnd. destruct (separate_run Compile sorter m js Hap Hnd sched) as (U1 & U2 & U3 & U4). fold s in U1, U2, U3, U4. split; [exact U1|]. split.
  - intros (i & j & a & w & Hne & H1 & H2). destruct (U3 _ _ _ H1) as (ji & J1 & J2). destruct (U3 _ _ _ H2) as (jj & J3 & J4).
    assert (Hd : request_of ji <> request_of jj) by exact (distinct js Hnd i j ji jj J1 J3 Hne). destruct a; [congruence|destruct J2; discriminate|congruence..].
  - intros i r n x Hi Ht. destruct (U4 i (JCollector r n) (Ret x)) as [_ U]; [unfold js; rewrite nth_error_map, Hi; reflexivity|exact Ht|]. cbn [run_alone snd code_of] in U.
    destruct (Hin r n (nth_error_In _ _ Hi)) as [G1 G2]. assert (Hc : covers m r) by (split; [exact G1|left; exact G2]).
    unfold collector_search in U. rewrite (normalize_then Compile sorter r _ m Hso Hc H0) in U.
    assert (Hnn : (forall y, In y (req_Bucketing (value_of m r)) -> 0 <= y)%Z) by (unfold value_of, elements; cbn [req_Bucketing]; rewrite G2; intros y []).
    pose proof (normalize_alone Compile sorter Hso m r Hc H0) as F. pose proof (normalized_settled Compile sorter Hso m r Hc H0 Hnn) as Hset.
    destruct (run_alone (normalize Compile sorter r Ret) m) as [m' e]. cbn [fst] in Hset. exists (value_of m' r), e. split; [apply F|]. rewrite U. cbn [run_alone load].
    match goal with |- context[load_all _ _ _ ?K] => pose proof (quiet_all m' r Hset K) as Q end. cbv beta in Q.
    match type of Q with reads_only _ (candidates _ _ _ ?K) -> _ => pose proof (quiet_candidates Compile m' r Hset n K Logic.I) as [C1 C2] end.
    destruct (Q C1) as [_ Q2]. rewrite Q2, C2. reflexivity.
Qed.

(** *** The hypotheses can be met: Go's insertion sort, a request with unsorted buckets, a
    query and no limit, shared by two collectors, a client and the MultiSearcher itself. *)
Definition ex_compile (q : string) : string + string := if String.eqb q "(" then inr "missing )" else inl q.
Definition ex_filter (q : string) : Filter string := MkFilter [] [] "" false false None false false q None.
Definition ex_mem (b : list Z) (q : string) : mem string :=
  MkMem [DefaultBucketing; b] [MkRO (1, length b) (ex_filter q) 0 3; MkRO (0, 0) (ex_filter "(") 7 0; MkRO (0, 0) (ex_filter "a") 999 0].
Definition ex_m1 (b : list Z) (q : string) : mem string := fst (run_alone (normalize ex_compile insertion 0 Ret) (ex_mem b q)).
Definition results (s : shared string) : list (option (taken string)) := map (fun c => match c with Ret x => Some x | _ => None end) (sh_threads s).
Fixpoint round_robin (threads n : nat) : list nat := match n with O => [] | S n => seq 0 threads ++ round_robin threads n end.
Example C78_instance :
  sorts insertion /\ leaves_sorted insertion /\
  let m := ex_mem [7; 3; 5]%Z "a" in
  covers m 0 /\ nth_error (m_arrays m) 0 = Some DefaultBucketing /\ (forall x, In x (req_Bucketing (value_of m 0)) -> 0 <= x)%Z /\
  let v := value_of (ex_m1 [7; 3; 5]%Z "a") 0 in
  let jobs := [JCollector 0 2; JCollector 0 0; JClient 0; JMulti 0] in
  v = MkReq [0; 3; 5; 7]%Z (with_query (ex_filter "a") "a" (Some "a")) 10 3 /\
  results (sh_run (round_robin 4 70) (sh_start ex_compile insertion (ex_m1 [7; 3; 5]%Z "a") jobs)) = map (fun j => Some (takes v j)) jobs.
Proof.
  split; [exact insertion_sorts|]. split; [exact insertion_leaves|]. cbn zeta. split; [split; [vm_compute; lia|right; vm_compute; split; [lia|reflexivity]]|]. split; [reflexivity|].
  split; [intros x Hx; vm_compute in Hx; lia|]. split; vm_compute; reflexivity.
Qed.
(** Two searches with requests of their own: both normalize, one finds a problem. *)
Example C78_default_instance :
  let m := ex_mem [1]%Z "" in let jobs := [(1, 1); (2, 0)] in
  NoDup (map fst jobs) /\ (forall r n, In (r, n) jobs -> r < length (m_reqs m) /\ snd (ro_bucketing (req m r)) = 0) /\
  results (sh_run (round_robin 2 90) (sh_start ex_compile insertion m (map (fun j => JCollector (fst j) (snd j)) jobs))) =
  [Some (MkTaken ["filter: query: invalid, ignoring (missing ))"] DefaultBucketing [(7, (ex_filter "", 0))]%Z 7);
   Some (MkTaken [] DefaultBucketing [] 250)].
Proof.
  cbn zeta. split; [repeat constructor; cbn; intuition lia|]. split; [|vm_compute; reflexivity].
  intros r n [E|[E|[]]]; injection E as <- <-; vm_compute; split; (lia || reflexivity).
Qed.

(** *** A negative bucket: the normalized request is not in order, so each searcher sorts and
    extends it again, while the others use it. *)
Theorem C78_negative_bucket_refuted :
  let m1 := ex_m1 [-1; 3]%Z "" in
  let start := sh_start ex_compile insertion m1 [JCollector 0 0; JCollector 0 0] in
  req_Bucketing (value_of m1 0) = [0; -1; 3]%Z /\
  (exists sched, let s := sh_run sched start in conflict (sh_log s) /\ map (option_map (fun x => tk_bucketing x)) (results s) = [Some [0; -1; 0; 3]; Some [0; -1; 0; 0; 3]]%Z) /\
  exists sched, let s := sh_run sched start in conflict (sh_log s) /\ map (option_map (fun x => tk_bucketing x)) (results s) = [Some [0; -1; 0; 3]; Some [0; -1; 0; 3]]%Z.
Proof.
  cbn zeta. split; [vm_compute; reflexivity|]. split.
  - exists (repeat 0 60 ++ repeat 1 60). cbn zeta. split; [|vm_compute; reflexivity]. exists 0, 1, (ABucketing 0), true. split; [lia|].
    split; vm_compute; repeat first [left; reflexivity|right].
  - exists (round_robin 2 60). cbn zeta. split; [|vm_compute; reflexivity]. exists 0, 1, (ABucketing 0), true. split; [lia|].
    split; vm_compute; repeat first [left; reflexivity|right].
Qed.
(** *** A request that nobody has normalized, given to two collectors at the same time: a
    bucket is lost. *)
Theorem C78_unnormalized_refuted :
  exists sched, let s := sh_run sched (sh_start ex_compile insertion (ex_mem [7; 3; 5]%Z "a") [JCollector 0 0; JCollector 0 0]) in
    conflict (sh_log s) /\ map (option_map (fun x => tk_bucketing x)) (results s) = [Some [0; 5; 7; 7]; Some [0; 5; 7; 7]]%Z.
Proof.
  exists (repeat 0 9 ++ repeat 1 60 ++ repeat 0 60). cbn zeta. split; [|vm_compute; reflexivity]. exists 0, 1, (AElem 1 1), true. split; [lia|].
  split; vm_compute; repeat first [left; reflexivity|right].
Qed.

Print Assumptions C78_shared_request_is_only_read.
Print Assumptions C78_finishes.
Print Assumptions C78_default_bucketing_is_never_written.
Print Assumptions C78_negative_bucket_refuted.
Print Assumptions C78_unnormalized_refuted.

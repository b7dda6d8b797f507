(** C94: percentages and timelines on the search page, in float64. *)
From Coq Require Import ZArith QArith Qround Lqa Lia Sorted.
From Verif Require Import Go L_List M_Types M_Web M_Float S_Timeline L_Float S_Trace M_Trace S_TraceView L_Trace M_Summary S_Summary P_Web P_Trace D_Demo.
Open Scope string_scope.
Open Scope list_scope.
Open Scope Z_scope.

(** *** The table: what float64 computes is the exact percentage, rounded down. *)
Theorem C94_table_percentages :
  forall odd n d, 0 <= n <= d -> 0 < d <= 2 ^ 46 ->
    0 <= PercentInt_float odd n d <= 100 /\ is_percent (PercentInt_float odd n d) n d /\
    forall odd', PercentInt_float odd n d = PercentInt odd' n d.
Proof.
  intros odd n d Hn Hd. destruct (fpercent_small n d ltac:(lia) Hd) as (q & E & Eq).
  assert (H : PercentInt_float odd n d = 100 * n / d).
  { unfold PercentInt_float. rewrite E. cbn [int].
    assert (Pq : (0 <= q)%Q). { rewrite Eq. change 0%Q with (round 0). apply round_mono. apply share_nonneg; lia. }
    rewrite trunc_floor by exact Pq. rewrite (Qfloor_comp _ _ Eq). apply share_round_floor; assumption. }
  rewrite H. pose proof (Z.div_mod (100 * n) d ltac:(lia)). pose proof (Z.mod_pos_bound (100 * n) d ltac:(lia)).
  split; [split; [apply Z.div_pos; lia|apply Z.div_le_upper_bound; lia]|]. split; [unfold is_percent; lia|].
  intros odd'. unfold PercentInt. destruct (Z.eqb_spec d 0); [lia|]. rewrite Z.quot_div_nonneg by lia. reflexivity.
Qed.
Print Assumptions C94_table_percentages.

(** *** The rows of a trace *)
Lemma in_time_last evs : forall t last, in_time t evs last -> last_when t evs <= last.
Proof. induction evs as [|ev evs IH]; intros t last H; [exact H|]. destruct H as [_ H]. apply IH. exact H. Qed.
Lemma in_time_rows t0 evs : forall i t last row, in_time t evs last -> In row (rows t0 i t evs) -> 0 <= re_Delta row.
Proof.
  induction evs as [|ev evs IH]; intros i t last row H Hin; [destruct Hin|]. destruct H as [H1 H2]. destruct Hin as [<-|Hin]; [cbn; lia|]. eapply IH; eassumption.
Qed.
Lemma deltas_nonneg st : well_timed st -> Forall (fun row => 0 <= re_Delta row) (renderEvents st).
Proof.
  intros H. destruct (renderEvents_eq st) as (d & -> & Ed). unfold well_timed in H. constructor; [cbn; lia|].
  apply Forall_app. split; [apply Forall_forall; intros row Hin; eapply in_time_rows; eassumption|].
  constructor; [|constructor]. cbn. pose proof (in_time_last _ _ _ H). lia.
Qed.
Lemma delta_le l : Forall (fun row => 0 <= re_Delta row) l -> Forall (fun row => 0 <= re_Delta row <= deltas l) l.
Proof.
  intros H. assert (P : forall l, Forall (fun row => 0 <= re_Delta row) l -> 0 <= deltas l).
  { clear. induction 1 as [|r l Hr _ IH]; cbn [deltas]; lia. }
  induction H as [|r l Hr Hl IH]; [constructor|]. pose proof (P l Hl) as Pl. constructor; [cbn [deltas]; lia|].
  eapply Forall_impl; [|exact IH]. cbn [deltas]. intros row Hrow. lia.
Qed.
Lemma row_delta st row : well_timed st -> In row (renderEvents st) -> 0 <= re_Delta row <= TraceDuration st.
Proof.
  intros H Hin. destruct (C58_deltas_add_up st) as [_ E]. rewrite <- E. pose proof (delta_le _ (deltas_nonneg st H)) as F.
  rewrite Forall_forall in F. apply F. exact Hin.
Qed.
Lemma rows_not_start t0 evs : forall i t row, In row (rows t0 i t evs) -> re_IsStart row = false.
Proof.
  induction evs as [|ev evs IH]; intros i t row Hin; [destruct Hin|]. destruct Hin as [<-|Hin]; [reflexivity|]. eapply IH; exact Hin.
Qed.
Lemma start_delta st row : In row (renderEvents st) -> re_IsStart row = true -> re_Delta row = 0.
Proof.
  destruct (renderEvents_eq st) as (d & -> & Ed). intros [<-|Hin] Hs; [reflexivity|]. apply in_app_or in Hin as [Hin|[<-|[]]]; [|discriminate].
  apply rows_not_start in Hin. congruence.
Qed.

(** The share of each row of a trace that lasted up to 19 hours (2^46 ns) is between 0 and 100
    percent and the exact one up to rounding; the row's element of the timeline grows with the
    exact percentage rounded down, but at least with 1. *)
Theorem C94_rows :
  forall st row, well_timed st -> 0 < TraceDuration st <= 2 ^ 46 -> In row (renderEvents st) ->
    exists q, DeltaPercent st row = Fin q /\ (0 <= q <= 100)%Q /\ close q (share (re_Delta row) (TraceDuration st)) /\
      forall odd, flexGrowPercent odd (DeltaPercent st row) = Z.max 1 (100 * re_Delta row / TraceDuration st).
Proof.
  intros st row Hw Hd Hin. pose proof (row_delta st row Hw Hin) as Hr. set (D := TraceDuration st) in *. set (n := re_Delta row) in *.
  destruct (fpercent_small n D ltac:(lia) Hd) as (q & E & Eq).
  destruct (fpercent_close n D ltac:(lia) ltac:(lia)) as (q' & E' & C). rewrite E in E'. injection E' as <-.
  assert (B : (0 <= q <= 100)%Q).
  { rewrite Eq. split.
    - change 0%Q with (round 0). apply round_mono. apply share_nonneg; lia.
    - change (100 # 1)%Q with (inject_Z 100). rewrite <- (round_int 100) at 1 by lia. apply round_mono. apply share_le; lia. }
  assert (Fl : Qfloor q = 100 * n / D) by (rewrite (Qfloor_comp _ _ Eq); apply share_round_floor; lia).
  assert (H100 : 100 * n / D <= 100) by (apply Z.div_le_upper_bound; lia).
  assert (Fx : forall odd, flexGrowPercent odd (Fin q) = Z.max 1 (100 * n / D)).
  { intros odd. cbn [flexGrowPercent]. destruct (Qle_bool 1 q) eqn:E1; cbn [negb].
    - apply Qle_bool_iff in E1. destruct (Qle_bool q 100) eqn:E2; cbn [negb].
      + rewrite trunc_floor by lra. rewrite Fl. assert (1 <= Qfloor q) by (rewrite <- (Qfloor_Z 1); apply Qfloor_resp_le; exact E1). lia.
      + exfalso. destruct B as [_ B]. apply Qle_bool_iff in B. congruence.
    - assert (L : (q < 1)%Q) by (apply Qnot_le_lt; intros X; apply Qle_bool_iff in X; congruence).
      assert (Qfloor q < 1). { pose proof (floor_spec q) as [F1 _]. assert (inject_Z (Qfloor q) < inject_Z 1)%Q as X by (change (inject_Z 1) with 1%Q; lra). rewrite <- Zlt_Qlt in X. exact X. }
      lia. }
  destruct (re_IsStart row) eqn:Es.
  - assert (N0 : n = 0) by (apply (start_delta st); assumption). unfold DeltaPercent. rewrite Es, N0. exists 0%Q. split; [reflexivity|]. split; [split; [apply Qle_refl|discriminate]|]. split.
    + unfold close, share. cbn [Z.mul]. change (inject_Z 0) with 0%Q. unfold Qdiv. rewrite Qmult_0_l. split; vm_compute; discriminate.
    + intros odd. reflexivity.
  - exists q. unfold DeltaPercent. rewrite Es. fold n D. rewrite E. auto.
Qed.
Print Assumptions C94_rows.

(** Together the rows make up 100 percent, up to 2^-50 of that, whatever the duration. *)
Lemma fold_close l : forall D, 0 < D <= 2 ^ 63 -> Forall (fun row => 0 <= re_Delta row <= D) l ->
  exists qs, map (fun row => fpercent (re_Delta row) D) l = map Fin qs /\ close (total qs) (share (deltas l) D).
Proof.
  induction l as [|r l IH]; intros D HD H.
  - exists []. split; [reflexivity|]. unfold close, share. cbn. change (inject_Z 0) with 0%Q. unfold Qdiv. rewrite Qmult_0_l. split; vm_compute; discriminate.
  - inversion H as [|? ? Hr Hl]; subst. destruct (IH D HD Hl) as (qs & E & [C1 C2]).
    destruct (fpercent_close (re_Delta r) D ltac:(lia) ltac:(lia)) as (q & Eq & [A1 A2]). exists (q :: qs). cbn [map total fold_right deltas]. split; [rewrite Eq, E; reflexivity|].
    fold (total qs). assert (S : (share (re_Delta r + deltas l) D == share (re_Delta r) D + share (deltas l) D)%Q).
    { unfold share. rewrite Z.mul_add_distr_l, inject_Z_plus. field. pose proof (inject_pos D ltac:(lia)). lra. }
    unfold close. rewrite S. split; [ring_simplify in C1; ring_simplify in A1; ring_simplify; lra|ring_simplify in C2; ring_simplify in A2; ring_simplify; lra].
Qed.
Theorem C94_rows_make_up_the_whole :
  forall st, well_timed st -> 0 < TraceDuration st <= 2 ^ 63 ->
    exists qs, map (DeltaPercent st) (renderEvents st) = map Fin qs /\ close (total qs) 100.
Proof.
  intros st Hw HD. destruct (C58_deltas_add_up st) as [_ Es].
  assert (F : Forall (fun row => 0 <= re_Delta row <= TraceDuration st) (renderEvents st)) by (apply Forall_forall; intros row Hin; apply row_delta; assumption).
  destruct (renderEvents_eq st) as (d & E & Ed). rewrite E in Es, F. rewrite E. cbn [map].
  inversion F as [|? ? _ F']; subst. destruct (fold_close _ (TraceDuration st) HD F') as (qs & Eq & C).
  exists (0%Q :: qs). split.
  - cbn [map]. change (DeltaPercent st (MkRE true false (-1) (TraceStarted st) 0 0 "start" false [])) with (Fin 0). f_equal. rewrite <- Eq. apply map_ext_in.
    intros row Hin. unfold DeltaPercent. destruct (re_IsStart row) eqn:X; [|reflexivity]. exfalso.
    apply in_app_or in Hin as [Hin|[<-|[]]]; [|discriminate]. apply rows_not_start in Hin. congruence.
  - cbn [total fold_right]. fold (total qs). cbn [deltas re_Delta] in Es. rewrite Z.add_0_l in Es. rewrite Es in C.
    assert (S : (share (TraceDuration st) (TraceDuration st) == 100)%Q) by (unfold share; rewrite inject_Z_mult; change (inject_Z 100) with (100 # 1)%Q; field; pose proof (inject_pos (TraceDuration st) ltac:(lia)); lra).
    unfold close in *. rewrite S in C. lra.
Qed.
Print Assumptions C94_rows_make_up_the_whole.

(** Whatever the numbers: unless the share is not a number, the element grows with 1 to 100, and
    a longer row never with less than a shorter one. *)
Theorem C94_elements_in_range :
  forall odd f, f <> NaN -> 1 <= flexGrowPercent odd f <= 100.
Proof.
  intros odd [x| | |] H; cbn [flexGrowPercent]; try lia; [|congruence].
  destruct (Qle_bool 1 x) eqn:E1; cbn [negb]; [|lia]. destruct (Qle_bool x 100) eqn:E2; cbn [negb]; [|lia].
  apply Qle_bool_iff in E1, E2. rewrite trunc_floor by lra. split; [rewrite <- (Qfloor_Z 1)|rewrite <- (Qfloor_Z 100)]; apply Qfloor_resp_le; assumption.
Qed.
Theorem C94_longer_is_not_narrower :
  forall odd n n' d, n <= n' -> 0 < d ->
    flexGrowPercent odd (fpercent n d) <= flexGrowPercent odd (fpercent n' d).
Proof.
  intros odd n n' d Hn Hd. unfold fpercent, float64.
  assert (Pd : (0 < round (inject_Z d))%Q).
  { pose proof (round_mono (inject_Z 1) (inject_Z d)) as M. rewrite (round_int 1) in M by lia. change (inject_Z 1) with 1%Q in M. assert (1 <= inject_Z d)%Q by (change 1%Q with (inject_Z 1); rewrite <- Zle_Qle; lia). specialize (M H). lra. }
  rewrite !fdiv_fin by exact Pd.
  set (x := round (round (inject_Z 100 * round (inject_Z n)) / round (inject_Z d))). set (y := round (round (inject_Z 100 * round (inject_Z n')) / round (inject_Z d))).
  assert (H : (x <= y)%Q).
  { apply round_mono. apply Qmult_le_compat_r; [|apply Qlt_le_weak, Qinv_lt_0_compat; exact Pd]. apply round_mono. change (inject_Z 100) with (100 # 1)%Q.
    assert (round (inject_Z n) <= round (inject_Z n'))%Q by (apply round_mono; rewrite <- Zle_Qle; exact Hn). lra. }
  pose proof (C94_elements_in_range odd (Fin y) ltac:(discriminate)) as Ry. pose proof (C94_elements_in_range odd (Fin x) ltac:(discriminate)) as Rx. cbn [flexGrowPercent] in *.
  destruct (Qle_bool 1 x) eqn:X1; cbn [negb] in *; [|lia]. destruct (Qle_bool y 100) eqn:Y2; cbn [negb] in *.
  - apply Qle_bool_iff in X1, Y2. assert (X2 : Qle_bool x 100 = true) by (apply Qle_bool_iff; lra). assert (Y1 : Qle_bool 1 y = true) by (apply Qle_bool_iff; lra).
    rewrite X2, Y1. cbn [negb]. rewrite !trunc_floor by lra. apply Qfloor_resp_le. exact H.
  - apply Qle_bool_iff in X1. assert (Y1 : Qle_bool 1 y = true) by (apply Qle_bool_iff; lra). rewrite Y1 in *. cbn [negb] in *. lia.
Qed.
(** ... and for any shares, also infinite ones. *)
Theorem C94_larger_share_is_not_narrower :
  forall odd x y, float_le x y -> flexGrowPercent odd x <= flexGrowPercent odd y.
Proof.
  intros odd x y H.
  assert (Nx : x <> NaN) by (destruct x; cbn in H; try discriminate; contradiction).
  assert (Ny : y <> NaN) by (destruct y; try discriminate; destruct x; contradiction).
  pose proof (C94_elements_in_range odd x Nx) as Rx. pose proof (C94_elements_in_range odd y Ny) as Ry.
  destruct x as [a| | |], y as [b| | |]; cbn [float_le] in H; try contradiction; cbn [flexGrowPercent] in *; try lia.
  destruct (Qle_bool 1 a) eqn:X1; cbn [negb] in *; [|lia]. destruct (Qle_bool b 100) eqn:Y2; cbn [negb] in *.
  - apply Qle_bool_iff in X1, Y2. assert (X2 : Qle_bool a 100 = true) by (apply Qle_bool_iff; lra). assert (Y1 : Qle_bool 1 b = true) by (apply Qle_bool_iff; lra).
    rewrite X2, Y1. cbn [negb]. rewrite !trunc_floor by lra. apply Qfloor_resp_le. exact H.
  - apply Qle_bool_iff in X1. assert (Y1 : Qle_bool 1 b = true) by (apply Qle_bool_iff; lra). rewrite Y1 in *. cbn [negb] in *. lia.
Qed.
Print Assumptions C94_elements_in_range.
Print Assumptions C94_larger_share_is_not_narrower.
Print Assumptions C94_longer_is_not_narrower.

(** *** Which traces are well timed *)
Lemma sorted_in_time evs : forall t last, StronglySorted Z.le (t :: map When evs ++ [last]) -> in_time t evs last.
Proof.
  induction evs as [|ev evs IH]; intros t last H; apply StronglySorted_inv in H as [H Ht].
  - inversion Ht; assumption.
  - split; [inversion Ht; assumption|]. apply IH. exact H.
Qed.
Lemma subseq_sorted {A} (f : A -> Z) l1 l2 : subseq l1 l2 ->
  forall t rest, StronglySorted Z.le (t :: map f l2 ++ rest) -> StronglySorted Z.le (t :: map f l1 ++ rest).
Proof.
  intros H. induction H as [|x l1 l2 H IH|x l1 l2 H IH]; intros t rest S; [exact S| |].
  - cbn [map app] in *. apply StronglySorted_inv in S as [S Ht]. specialize (IH _ _ S). constructor; [exact IH|].
    inversion Ht as [|? ? Hx Ht']; subst. constructor; [exact Hx|]. apply StronglySorted_inv in IH as [_ Hx'].
    eapply Forall_impl; [|exact Hx']. intros a Ha. cbn in Ha. lia.
  - apply IH. cbn [map app] in S. apply StronglySorted_inv in S as [S Ht]. apply StronglySorted_inv in S as [S _]. inversion Ht; subst. constructor; assumption.
Qed.
Lemma before_finish_sorted {arg world pc} (h : history arg (env arg world pc)) : forall t now,
  StronglySorted Z.le ([t] ++ times h ++ [now]) ->
  StronglySorted Z.le (t :: map (fun c => e_now (fst c)) (before_finish h) ++ [match first_finish h with Some e => e_now e | None => now end]).
Proof.
  induction h as [|c h IH]; intros t now S; [exact S|]. cbn [before_finish first_finish times map app] in *.
  apply StronglySorted_inv in S as [S Ht]. destruct (is_finish c).
  - cbn [map app]. inversion Ht; subst. constructor; [repeat constructor|]. constructor; [assumption|constructor].
  - specialize (IH _ _ S). cbn [map app]. constructor; [exact IH|]. inversion Ht as [|? ? Hx Ht']; subst. constructor; [exact Hx|].
    apply StronglySorted_inv in IH as [_ Hx']. eapply Forall_impl; [|exact Hx']. intros a Ha. cbn in Ha. lia.
Qed.
Lemma filter_subseq {A} (f : A -> bool) l : subseq (filter f l) l.
Proof. induction l as [|x l IH]; [constructor|]. cbn. destruct (f x); constructor; exact IH. Qed.
Lemma subseq_trans {A} (l1 l2 l3 : list A) : subseq l1 l2 -> subseq l2 l3 -> subseq l1 l3.
Proof.
  intros H12 H23. revert l1 H12. induction H23 as [|x l2 l3 H IH|x l2 l3 H IH]; intros l1 H12; [exact H12| |constructor; apply IH; exact H12].
  inversion H12; subst; constructor; apply IH; assumption.
Qed.

Section Traces.
Context {arg world pc : Type} (Sprintf : world -> string -> list arg -> string) (CallersFrames : list pc -> list rframe).

(** trace_static.go:24-33 NewSearchTrace of a core trace: the duration is read before the events.
    [tr]/[now]: the trace and the clock when the duration is read, [tr']/[e] when the events are. *)
Definition searched (now : Z) (tr : coreTrace arg pc) (e : env arg world pc) (tr' : coreTrace arg pc) : StaticTrace :=
  MkStatic (Source tr) (ID tr) (Category tr) (Started tr) (Duration now tr) "" (Finished tr) (Errored tr)
           (snd (Events Sprintf CallersFrames e tr')).

Lemma started_run (h : history arg (env arg world pc)) g start id (pooled : coreTrace arg pc) source category :
  Started (run Sprintf CallersFrames h (newCoreTrace g start id pooled source category)) = start.
Proof. unfold Started. destruct (run_const Sprintf CallersFrames h (newCoreTrace g start id pooled source category)) as (_ & _ & _ & H & _). exact H. Qed.

(** A trace whose events all fitted, under a clock that does not go back: every event lies between
    the start and the end, whether it is active or finished. *)
Theorem C94_traces_are_well_timed :
  forall g start id (pooled : coreTrace arg pc) source category (h : history arg (env arg world pc)) now (e : env arg world pc),
    1 <= g_maxEvents g -> zlen (stored (g_maxEvents g) h) = zlen (logs h) ->
    StronglySorted Z.le ([start] ++ times h ++ [now]) ->
    let tr := run Sprintf CallersFrames h (newCoreTrace g start id pooled source category) in
    well_timed (searched now tr e tr).
Proof.
  intros g start id pooled source category h now e HM HT HS tr. unfold well_timed. apply sorted_in_time.
  destruct (C09_events_of_any_history arg world pc Sprintf CallersFrames g start id pooled source category h e HM) as (real & E & Em).
  rewrite HT, Z.sub_diag in E, Em. cbn [Z.ltb Z.compare] in E, Em. rewrite app_nil_r in E. unfold searched. cbn [TraceStarted TraceDuration TraceEvents].
  fold tr in E. rewrite E. unfold tr at 1 2 3. rewrite started_run, C10_duration.
  assert (W : map When real = map (fun c => e_now (fst c)) (stored (g_maxEvents g) h)).
  { apply (f_equal (map fst)) in Em. rewrite !map_map in Em. exact Em. }
  rewrite W. replace (start + (match first_finish h with Some e0 => e_now e0 | None => now end - start)) with (match first_finish h with Some e0 => e_now e0 | None => now end) by lia.
  apply (subseq_sorted _ _ (before_finish h)); [|apply before_finish_sorted; exact HS].
  eapply subseq_trans; [apply stored_subseq|apply filter_subseq].
Qed.

(** Finding: not so a truncated one.  Its marker has the time of the reading, which is after the end
    of a finished trace, and after the duration of an active one was read.  The time from the marker
    to the end, shown in the last row, is then negative, and its share not even near 0. *)
Theorem C94_truncated_traces_refuted :
  forall g start id (pooled : coreTrace arg pc) source category (h : history arg (env arg world pc)) now (e : env arg world pc),
    1 <= g_maxEvents g -> zlen (stored (g_maxEvents g) h) < zlen (logs h) ->
    let tr := run Sprintf CallersFrames h (newCoreTrace g start id pooled source category) in
    let end_ := match first_finish h with Some f => e_now f | None => now end in
    end_ < e_now e ->
    ~ well_timed (searched now tr e tr) /\
    exists l row, renderEvents (searched now tr e tr) = l ++ [row] /\ re_Delta row = end_ - e_now e /\ re_Delta row < 0.
Proof.
  intros g start id pooled source category h now e HM HT tr end_ He.
  destruct (C09_events_of_any_history arg world pc Sprintf CallersFrames g start id pooled source category h e HM) as (real & E & _).
  replace (0 <? _) with true in E by (symmetry; apply Z.ltb_lt; lia).
  assert (LW : forall evs t0 ev, last_when t0 (evs ++ [ev]) = When ev).
  { induction evs as [|x evs IH]; intros t0 ev; [reflexivity|]. cbn [app last_when]. apply IH. }
  set (st := searched now tr e tr). assert (S1 : TraceStarted st = start) by (unfold st, searched, tr; cbn [TraceStarted]; apply started_run).
  assert (S2 : TraceDuration st = end_ - start) by (unfold st, searched, tr; cbn [TraceDuration]; apply C10_duration).
  assert (S3 : TraceEvents st = real ++ [truncated_event (e_now e) (zlen (logs h) - zlen (stored (g_maxEvents g) h))]) by exact E.
  split.
  - intros W. apply in_time_last in W. rewrite S3, LW, S1, S2 in W. cbn in W. lia.
  - destruct (renderEvents_eq st) as (d & R & Ed). rewrite S3, LW, S1, S2 in Ed. rewrite R. rewrite app_comm_cons.
    do 2 eexists. split; [reflexivity|]. cbn [re_Delta]. cbn [When truncated_event] in Ed. lia.
Qed.
End Traces.
Print Assumptions C94_traces_are_well_timed.
Print Assumptions C94_truncated_traces_refuted.

(** Finding: when the clock did not move between start and finish, every row but the first has the
    share 0/0, and the growth of its element is whatever the machine makes of int(NaN). *)
Theorem C94_no_duration_refuted :
  forall st row, well_timed st -> TraceDuration st = 0 -> In row (renderEvents st) -> re_IsStart row = false ->
    DeltaPercent st row = NaN /\ forall odd, flexGrowPercent odd (DeltaPercent st row) = odd NaN.
Proof.
  intros st row Hw H0 Hin Hs. pose proof (row_delta st row Hw Hin) as Hr. rewrite H0 in Hr. assert (E : re_Delta row = 0) by lia.
  unfold DeltaPercent. rewrite Hs, H0, E. split; [|intros odd]; reflexivity.
Qed.
Print Assumptions C94_no_duration_refuted.

(** A trace of 100 ms with three events, and the same with ten, read a second after Finish. *)
Definition demo_ms (t : Z) : env nat demo_world Z * call nat := (demo_e (100 + t * 1000000), CallLog KTracef "x" []).
Example C94_instance :
  let h := [demo_ms 5; demo_ms 7; demo_ms 72; (demo_e (100 + 100000000), CallFinish)] in
  let tr := run demo_Sprintf demo_frames h (demo_new 10) in
  let st := searched demo_Sprintf demo_frames 300000000 tr (demo_e 300000000) tr in
  zlen (stored 10 h) = zlen (logs h) /\ StronglySorted Z.le ([100] ++ times h ++ [300000000]) /\
  well_timed st /\ 0 < TraceDuration st <= 2 ^ 46 /\
  map (fun row => flexGrowPercent (fun _ => 0) (DeltaPercent st row)) (renderEvents st) = [1; 5; 2; 65; 28] /\
  PercentInt_float (fun _ => 0) 29 100 = 29 /\ PercentInt_float (fun _ => 0) 2 3 = 66.
Proof.
  cbn zeta. split; [reflexivity|]. split; [repeat constructor; cbn; lia|]. split; [vm_compute; intuition discriminate|]. split; [vm_compute; intuition discriminate|]. split; vm_compute; auto.
Qed.
Example C94_finding_instance :
  let h := demo_logs 12 101 ++ [(demo_e 120, CallFinish)] in
  let tr := run demo_Sprintf demo_frames h (demo_new 10) in
  let st := searched demo_Sprintf demo_frames 500 tr (demo_e 500) tr in
  zlen (stored 10 h) < zlen (logs h) /\ map re_Delta (renderEvents st) = [0; 2; 1; 1; 1; 1; 1; 1; 1; 1; 390; -380] /\
  (exists x, DeltaPercent st (nth 10 (renderEvents st) (MkRE true false 0 0 0 0 "" false [])) = Fin x /\ (1900 < x)%Q) /\
  (exists x, DeltaPercent st (nth 11 (renderEvents st) (MkRE true false 0 0 0 0 "" false [])) = Fin x /\ (x < -1800)%Q) /\
  let tr := run demo_Sprintf demo_frames [demo_log 100 KTracef "x"; (demo_e 100, CallFinish)] (demo_new 10) in
  let st := searched demo_Sprintf demo_frames 500 tr (demo_e 500) tr in
  well_timed st /\ TraceDuration st = 0 /\ map (DeltaPercent st) (renderEvents st) = [Fin 0; NaN; NaN].
Proof.
  cbn zeta. split; [vm_compute; reflexivity|]. split; [vm_compute; reflexivity|]. split; [eexists; split; vm_compute; reflexivity|]. split; [eexists; split; vm_compute; reflexivity|].
  split; [vm_compute; intuition discriminate|]. split; vm_compute; reflexivity.
Qed.

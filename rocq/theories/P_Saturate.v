(** C109: the timeline and the rates when times are far apart. *)
From Verif Require Import Go M_Strings M_Types M_Stats M_Web M_Rates M_Saturate S_Saturate S_Timeline P_Web.
From Coq Require Import QArith Lia ZifyBool Lqa.
Open Scope string_scope.
Open Scope list_scope.
Open Scope Z_scope.

Lemma Sub_exact t u : representable (t - u) -> Sub t u = t - u.
Proof. unfold representable, Sub, maxDuration, minDuration. intros H. destruct (Z.ltb_spec (2 ^ 63 - 1) (t - u)); [lia|]. destruct (Z.ltb_spec (t - u) (- 2 ^ 63)); lia. Qed.
Lemma Sub_nearest t u : nearest (Sub t u) (t - u).
Proof.
  unfold nearest, representable, Sub, maxDuration, minDuration. set (B := 2 ^ 63). assert (0 < B) by (subst B; lia). clearbody B.
  destruct (Z.ltb_spec (B - 1) (t - u)); [split; [lia|intros; lia]|]. destruct (Z.ltb_spec (t - u) (- B)); split; intros; lia.
Qed.
Lemma Sub_sgn t u : Z.sgn (Sub t u) = Z.sgn (t - u).
Proof.
  unfold Sub, maxDuration, minDuration. destruct (Z.ltb_spec (2 ^ 63 - 1) (t - u)); [lia|]. destruct (Z.ltb_spec (t - u) (- 2 ^ 63)); lia.
Qed.

(** The rows the loop appends *)
Fixpoint rows64 (started i prev : Z) (evs : list Event) : list renderEvent :=
  match evs with
  | [] => []
  | ev :: evs => MkRE false false i (When ev) (Sub (When ev) prev) (Sub (When ev) started) (What ev) (IsError ev) (Stack ev) :: rows64 started (i + 1) (When ev) evs
  end.
Lemma render_loop64_rows started evs : forall i prev acc,
  render_loop64 started i prev evs acc = (acc ++ rows64 started i prev evs, last_when prev evs).
Proof.
  induction evs as [|ev evs IH]; intros i prev acc; [cbn; rewrite app_nil_r; reflexivity|].
  cbn [render_loop64 rows64]. rewrite IH, <- app_assoc. reflexivity.
Qed.
Lemma renderEvents64_eq st :
  renderEvents64 st = MkRE true false (-1) (TraceStarted st) 0 0 "start" false [] :: rows64 (TraceStarted st) 0 (TraceStarted st) (TraceEvents st) ++
    [MkRE false true (zlen (TraceEvents st)) (TraceStarted st + TraceDuration st) (Sub (TraceStarted st + TraceDuration st) (last_when (TraceStarted st) (TraceEvents st)))
          (TraceDuration st) (if TraceFinished st then "finished" else "active...") false []].
Proof. unfold renderEvents64. rewrite render_loop64_rows. reflexivity. Qed.

(** ** Times of one era *)
Lemma last_when_in evs : forall t, last_when t evs = t \/ In (last_when t evs) (map When evs).
Proof. induction evs as [|ev evs IH]; intros t; [left; reflexivity|]. cbn [last_when map]. right. destruct (IH (When ev)) as [->|H]; [left; reflexivity|right; exact H]. Qed.
Lemma rows64_exact (L : list Z) started evs :
  (forall t u, In t L -> In u L -> Z.abs (t - u) < 2 ^ 63) -> In started L -> (forall ev, In ev evs -> In (When ev) L) ->
  forall i prev, In prev L -> rows64 started i prev evs = rows started i prev evs.
Proof.
  intros HL Hs. induction evs as [|ev evs IH]; intros Hev i prev Hp; [reflexivity|]. cbn [rows64 rows].
  assert (Hw : In (When ev) L) by (apply Hev; left; reflexivity).
  pose proof (HL _ _ Hw Hp). pose proof (HL _ _ Hw Hs). rewrite !Sub_exact by (unfold representable; lia).
  rewrite IH; [reflexivity|intros e He; apply Hev; right; exact He|exact Hw].
Qed.

(** C109.  If no two times of a trace are 292 years apart then the timeline is the one of exact
    subtraction, the one C58 and C94 are about. *)
Theorem C109_same_era :
  forall st, same_era st -> renderEvents64 st = renderEvents st.
Proof.
  intros st H. destruct (renderEvents_eq st) as (d & -> & ->). rewrite renderEvents64_eq. f_equal. unfold same_era in H.
  assert (Hs : In (TraceStarted st) (times st)) by (left; reflexivity).
  assert (Hev : forall ev, In ev (TraceEvents st) -> In (When ev) (times st)).
  { intros ev He. right. apply in_or_app. left. apply in_map. exact He. }
  assert (He : In (TraceStarted st + TraceDuration st) (times st)) by (right; apply in_or_app; right; left; reflexivity).
  rewrite (rows64_exact (times st)) by assumption. do 2 f_equal. f_equal. apply Sub_exact.
  assert (Hl : In (last_when (TraceStarted st) (TraceEvents st)) (times st)).
  { destruct (last_when_in (TraceEvents st) (TraceStarted st)) as [->|Hl]; [exact Hs|]. right. apply in_or_app. left. exact Hl. }
  pose proof (H _ _ He Hl). unfold representable. lia.
Qed.
Print Assumptions C109_same_era.

(** In particular for every trace whose events are in order and between its start and its end:
    its duration fits in 64 bits. *)
Lemma in_time_bounds evs : forall t last, in_time t evs last -> t <= last /\ Forall (fun ev => t <= When ev <= last) evs.
Proof.
  induction evs as [|ev evs IH]; intros t last H; [split; [exact H|constructor]|]. cbn [in_time] in H. destruct H as [H1 H2].
  destruct (IH _ _ H2) as [H3 H4]. split; [lia|]. constructor; [lia|]. eapply Forall_impl; [|exact H4]. cbn. intros; lia.
Qed.
Theorem C109_well_timed :
  forall st, well_timed st -> TraceDuration st < 2 ^ 63 ->
    same_era st /\ renderEvents64 st = renderEvents st /\ sum_of_deltas (renderEvents64 st) = TraceDuration st.
Proof.
  intros st Hw Hd. assert (E : same_era st).
  { destruct (in_time_bounds _ _ _ Hw) as [H1 H2]. rewrite Forall_forall in H2.
    assert (B : forall t, In t (times st) -> TraceStarted st <= t <= TraceStarted st + TraceDuration st).
    { intros t [<-|Ht]; [lia|]. apply in_app_or in Ht. destruct Ht as [Ht|[<-|[]]]; [|lia]. apply in_map_iff in Ht. destruct Ht as (ev & <- & Hev). apply H2, Hev. }
    intros t u Ht Hu. specialize (B t Ht) as B1. specialize (B u Hu) as B2. lia. }
  split; [exact E|]. rewrite (C109_same_era st E). split; [reflexivity|].
  rewrite <- (proj2 (C58_deltas_add_up st)). unfold sum_of_deltas. induction (renderEvents st) as [|r l IH]; [reflexivity|]. cbn. f_equal. exact IH.
Qed.
Print Assumptions C109_well_timed.

(** Whatever the times: the rows are the same but for the numbers, and every number is as close
    to the exact one as 64 bits allow, and on the same side of zero. *)
Theorem C109_nearest :
  forall st k row exact,
    representable (TraceDuration st) ->
    nth_error (renderEvents64 st) k = Some row -> nth_error (renderEvents st) k = Some exact ->
    nearest (re_Delta row) (re_Delta exact) /\ Z.sgn (re_Delta row) = Z.sgn (re_Delta exact) /\
    nearest (re_Cumulative row) (re_Cumulative exact) /\ Z.sgn (re_Cumulative row) = Z.sgn (re_Cumulative exact) /\
    re_When row = re_When exact /\ re_What row = re_What exact /\ re_IsError row = re_IsError exact /\ re_Stack row = re_Stack exact /\
    re_Index row = re_Index exact /\ re_IsStart row = re_IsStart exact /\ re_IsEnd row = re_IsEnd exact.
Proof.
  intros st k row exact Hd H1 H2.
  set (R := fun row exact : renderEvent =>
    nearest (re_Delta row) (re_Delta exact) /\ Z.sgn (re_Delta row) = Z.sgn (re_Delta exact) /\
    nearest (re_Cumulative row) (re_Cumulative exact) /\ Z.sgn (re_Cumulative row) = Z.sgn (re_Cumulative exact) /\
    re_When row = re_When exact /\ re_What row = re_What exact /\ re_IsError row = re_IsError exact /\ re_Stack row = re_Stack exact /\
    re_Index row = re_Index exact /\ re_IsStart row = re_IsStart exact /\ re_IsEnd row = re_IsEnd exact).
  assert (same : forall d, representable d -> nearest d d) by (intros d Hr; split; [exact Hr|intros; lia]).
  assert (G : Forall2 R (renderEvents64 st) (renderEvents st)).
  { destruct (renderEvents_eq st) as (d & -> & ->). rewrite renderEvents64_eq. constructor.
    { repeat split; cbn; try apply same; unfold representable in *; try lia. }
    apply Forall2_app.
    - assert (X : forall s evs i p, Forall2 R (rows64 s i p evs) (rows s i p evs)); [|apply X].
      intros s. induction evs as [|ev evs IH]; intros i p; [constructor|]. cbn [rows64 rows]. constructor; [|apply IH]. repeat (split; [first [apply Sub_nearest|apply Sub_sgn|reflexivity]|]). reflexivity.
    - constructor; [|constructor]. repeat (split; [first [apply Sub_nearest|apply Sub_sgn|apply same; exact Hd|reflexivity]|]). reflexivity. }
  clear same Hd. revert k H1 H2. induction G as [|a b l l' Hab _ IH]; intros [|k] H1 H2; cbn [nth_error] in H1, H2; try discriminate.
  - injection H1 as <-. injection H2 as <-. exact Hab.
  - exact (IH k H1 H2).
Qed.
Print Assumptions C109_nearest.
Theorem C109_same_number_of_rows :
  forall st, length (renderEvents64 st) = length (renderEvents st).
Proof.
  intros st. destruct (renderEvents_eq st) as (d & -> & _). rewrite renderEvents64_eq. cbn [length]. f_equal. rewrite !app_length. f_equal.
  rewrite rows_length. assert (X : forall s evs i p, length (rows64 s i p evs) = length evs); [|apply X].
  intros s. induction evs as [|ev evs IH]; intros i p; [reflexivity|]. cbn. f_equal. apply IH.
Qed.
Print Assumptions C109_same_number_of_rows.

(** ** An event without a time *)
(** Finding: a trace of another server whose only event has no time (the zero time is 0, the year
    one).  Whenever the trace started after the year 293: the event is shown 292 years before the
    start, and the deltas add up to minus one nanosecond, not to the duration. *)
Theorem C109_no_time_refuted :
  forall st ev, TraceEvents st = [ev] -> When ev = 0 -> 2 ^ 63 < TraceStarted st -> 0 <= TraceDuration st < 2 ^ 63 ->
    map re_Cumulative (renderEvents64 st) = [0; - 2 ^ 63; TraceDuration st] /\
    sum_of_deltas (renderEvents64 st) = -1 /\ sum_of_deltas (renderEvents64 st) <> TraceDuration st.
Proof.
  intros st ev He Hw Hs Hd.
  assert (S1 : Sub 0 (TraceStarted st) = - 2 ^ 63).
  { unfold Sub, maxDuration, minDuration. destruct (Z.ltb_spec (2 ^ 63 - 1) (0 - TraceStarted st)); [lia|]. destruct (Z.ltb_spec (0 - TraceStarted st) (- 2 ^ 63)); lia. }
  assert (S2 : Sub (TraceStarted st + TraceDuration st) 0 = 2 ^ 63 - 1).
  { unfold Sub, maxDuration, minDuration. destruct (Z.ltb_spec (2 ^ 63 - 1) (TraceStarted st + TraceDuration st - 0)); lia. }
  assert (E : sum_of_deltas (renderEvents64 st) = -1).
  { rewrite renderEvents64_eq, He. unfold sum_of_deltas. cbn [rows64 last_when app map fold_right re_Delta]. rewrite Hw, S1, S2. lia. }
  split; [|split; [exact E|rewrite E; lia]].
  rewrite renderEvents64_eq, He. cbn [rows64 app map re_Cumulative]. rewrite Hw, S1. reflexivity.
Qed.
Print Assumptions C109_no_time_refuted.

(** ** The rates *)
(** The rates of a category whose oldest trace is not 292 years old are those of exact subtraction,
    the ones C65 is about... *)
Theorem C109_rates :
  forall total oldest newest now, representable (now - oldest) ->
    fresh_rate64 total oldest newest now = fresh_rate total oldest newest now.
Proof. intros total oldest newest now H. unfold fresh_rate64, fresh_rate. rewrite Sub_exact by exact H. reflexivity. Qed.
Print Assumptions C109_rates.
(** ... and of an older one they are too high, whatever the number of traces. *)
Theorem C109_old_rates_refuted :
  forall total oldest newest now, 0 < total -> oldest <> 0 -> newest <> 0 -> 2 ^ 63 <= now - oldest ->
    (fresh_rate total oldest newest now < fresh_rate64 total oldest newest now)%Q.
Proof.
  intros total oldest newest now Ht Ho Hn Hd. unfold fresh_rate64, fresh_rate.
  assert (E : Sub now oldest = 2 ^ 63 - 1).
  { unfold Sub, maxDuration. destruct (Z.ltb_spec (2 ^ 63 - 1) (now - oldest)); lia. }
  rewrite E. destruct (Z.leb_spec total 0); [lia|]. destruct (Z.eqb_spec newest 0); [contradiction|]. destruct (Z.eqb_spec oldest 0); [contradiction|].
  destruct (Z.leb_spec (now - oldest) 0); [lia|]. change (2 ^ 63 - 1 <=? 0) with false. cbn [orb]. unfold per_second.
  set (d := now - oldest) in *. set (m := 2 ^ 63 - 1) in *. assert (Hm : 0 < m < d) by (subst m; lia). clearbody d m.
  assert (Qm : (0 < inject_Z m)%Q) by (change 0%Q with (inject_Z 0); rewrite <- Zlt_Qlt; lia).
  assert (Qd : (inject_Z m < inject_Z d)%Q) by (rewrite <- Zlt_Qlt; lia).
  assert (Qt : (0 < inject_Z total)%Q) by (change 0%Q with (inject_Z 0); rewrite <- Zlt_Qlt; lia).
  assert (Qb : (0 < inject_Z 1000000000)%Q) by reflexivity.
  generalize dependent (inject_Z 1000000000). intros b Qb. generalize dependent (inject_Z total). intros c Qt. generalize dependent (inject_Z m). intros x Qm Qd. generalize dependent (inject_Z d). intros y Qd.
  assert (F : forall z, (0 < z)%Q -> (c / (z / b) == c * b * / z)%Q) by (intros z Hz; field; split; intro Z0; rewrite Z0 in *; lra).
  rewrite !F by lra. apply Qmult_lt_l; [|].
  - apply Qmult_lt_0_compat; assumption.
  - apply (Qinv_lt_contravar x y); [exact Qm|lra|exact Qd].
Qed.
Print Assumptions C109_old_rates_refuted.

(** A trace started in 1997 with two events, and the same with an event without a time.  Times are
    in nanoseconds since the year one, of which 63 * 10^18 have passed in 1997. *)
Definition recent : Z := 63 * 10 ^ 18.
Example C109_instance :
  let st := MkStatic "s" "i" "c" recent 50 "" true false [MkEvent (recent + 10) "a" [] false; MkEvent (recent + 30) "b" [] true] in
  let bad := MkStatic "s" "i" "c" recent 50 "" true false [MkEvent 0 "a" [] false] in
  well_timed st /\ same_era st /\ map re_Delta (renderEvents64 st) = [0; 10; 20; 20] /\
  ~ same_era bad /\ 2 ^ 63 < TraceStarted bad /\ map re_Delta (renderEvents64 bad) = [0; - 2 ^ 63; 2 ^ 63 - 1] /\
  map re_Delta (renderEvents bad) = [0; - recent; recent + 50].
Proof.
  cbn zeta. assert (W : well_timed (MkStatic "s" "i" "c" recent 50 "" true false [MkEvent (recent + 10) "a" [] false; MkEvent (recent + 30) "b" [] true])) by (unfold well_timed; cbn [in_time TraceEvents TraceStarted TraceDuration When]; lia).
  split; [exact W|]. split; [apply C109_well_timed; [exact W|reflexivity]|]. split; [vm_compute; reflexivity|].
  split; [|split; [reflexivity|split; vm_compute; reflexivity]].
  intros H. specialize (H recent 0 (or_introl eq_refl) (or_intror (or_introl eq_refl))). vm_compute in H. discriminate.
Qed.

(** C103: trc stream tells which servers are silent. *)
From Verif Require Import Go M_Strings M_Types M_Filter M_Humanize M_Text M_Url P_Url M_Reporter S_Reporter.
Open Scope string_scope.
Open Scope list_scope.
Open Scope Z_scope.

Lemma reporter_app uri I : forall l1 last l2, exists last',
  reporter uri I last (l1 ++ l2) = reporter uri I last l1 ++ reporter uri I last' l2 /\
  ((forall t, last_read l1 t -> last' = Some t) /\ (never_read l1 -> last' = last)).
Proof.
  induction l1 as [|x l1 IH]; intros last l2.
  - exists last. cbn. split; [reflexivity|]. split; [|reflexivity]. intros t (h1 & ty & h2 & E & _). destruct h1; discriminate E.
  - destruct x as [now ty|ts].
    + destruct (IH (Some now) l2) as (last' & E & H1 & H2). exists last'. cbn [reporter app]. rewrite E. split; [reflexivity|]. split.
      * intros t (h1 & ty' & h2 & Eh & N). destruct h1 as [|y h1]; cbn in Eh.
        -- injection Eh as -> -> ->. apply H2. exact N.
        -- injection Eh as E1 E2. apply H1. exists h1, ty', h2. auto.
      * intros N. exfalso. apply (N (Read now ty)); [left; reflexivity|]. exists now, ty. reflexivity.
    + destruct (IH last l2) as (last' & E & H1 & H2). exists last'. cbn [reporter app]. rewrite E. split; [reflexivity|]. split.
      * intros t (h1 & ty' & h2 & Eh & N). destruct h1 as [|y h1]; cbn in Eh; [discriminate|]. injection Eh as E1 E2. apply H1. exists h1, ty', h2. auto.
      * intros N. apply H2. intros x Hx. apply N. right. exact Hx.
Qed.
Lemma reporter_length uri I : forall l last, length (reporter uri I last l) = length l.
Proof. induction l as [|[]]; intros last; cbn; f_equal; auto. Qed.
Lemma nth_reporter uri I h x l : exists last,
  nth (length h) (reporter uri I None (h ++ x :: l)) [] = hd [] (reporter uri I last [x]) /\
  (forall t, last_read h t -> last = Some t) /\ (never_read h -> last = None).
Proof.
  destruct (reporter_app uri I h None (x :: l)) as (last & E & H1 & H2). exists last. rewrite E.
  rewrite app_nth2 by (rewrite reporter_length; lia). rewrite reporter_length, Nat.sub_diag. split; [|auto]. destruct x; reflexivity.
Qed.

Lemma truncate_100ms d : 0 <= d -> exists k, Truncate d (100 * Millisecond) = k * (100 * Millisecond) /\
  Truncate d (100 * Millisecond) <= d < Truncate d (100 * Millisecond) + 100 * Millisecond.
Proof.
  intros H. unfold Truncate, Millisecond, Microsecond.
  change (100 * (1000 * 1000)) with 100000000. change (100000000 <=? 0) with false. cbv iota.
  rewrite Z.rem_mod_nonneg by lia. exists (d / 100000000).
  pose proof (Z.div_mod d 100000000 ltac:(lia)) as E. pose proof (Z.mod_pos_bound d 100000000 ltac:(lia)).
  remember (d / 100000000) as k. remember (d mod 100000000) as r. clear Heqk Heqr. lia.
Qed.

(** What the reporter says when it looks at time ts, after any history h: that there was no data, if nothing was ever read;
    nothing, if the last message is at most two intervals old; and otherwise how old the last message is, rounded down to
    a tenth of a second. *)
Theorem C103_what_is_said_about_silence :
  forall uri I h ts rest, 0 < I -> exists all,
  run_reporter uri I (h ++ Tick ts :: rest) = Ok all /\ length all = length (h ++ Tick ts :: rest) /\
  let said := nth (length h) all [] in
  (never_read h -> said = [uri ++ ": no data"]%string) /\
  (forall t, last_read h t -> ts - t <= 2 * I -> said = []) /\
  (forall t, last_read h t -> 2 * I < ts - t -> exists age tenths,
     said = [uri ++ ": last data " ++ DurationString age ++ " ago"]%string /\
     age = tenths * (100 * Millisecond) /\ age <= ts - t < age + 100 * Millisecond).
Proof.
  intros uri I h ts rest HI. unfold run_reporter. destruct (Z.leb_spec I 0); [lia|]. eexists. split; [reflexivity|]. split; [apply reporter_length|].
  destruct (nth_reporter uri I h (Tick ts) rest) as (last & E & H1 & H2). cbv zeta. rewrite E. cbn [reporter hd].
  split; [intros N; rewrite (H2 N); reflexivity|]. split.
  - intros t L D. rewrite (H1 t L). unfold on_tick. cbv zeta. destruct (Z.ltb_spec (2 * I) (ts - t)); [lia|reflexivity].
  - intros t L D. rewrite (H1 t L). unfold on_tick. cbv zeta. destruct (Z.ltb_spec (2 * I) (ts - t)); [|lia].
    destruct (truncate_100ms (ts - t) ltac:(lia)) as (k & K & B). exists (Truncate (ts - t) (100 * Millisecond)), k. auto.
Qed.
Print Assumptions C103_what_is_said_about_silence.

(** Reading a message is reported just if it is the first of a connection. *)
Theorem C103_connections_are_reported :
  forall uri I h now type rest, 0 < I -> exists all,
  run_reporter uri I (h ++ Read now type :: rest) = Ok all /\
  (type = "init" -> nth (length h) all [] = [uri ++ ": stream re/connected"]%string) /\
  (type <> "init" -> nth (length h) all [] = []).
Proof.
  intros uri I h now type rest HI. unfold run_reporter. destruct (Z.leb_spec I 0); [lia|]. eexists. split; [reflexivity|].
  destruct (nth_reporter uri I h (Read now type) rest) as (last & E & _). rewrite E. cbn [reporter hd]. unfold on_read.
  split; intros T; [subst type; reflexivity|]. apply String.eqb_neq in T. rewrite T. reflexivity.
Qed.
Print Assumptions C103_connections_are_reported.

Lemma asked_interval c : 0 < c_StatsInterval c -> c_StatsInterval (initialize c) = Z.max (1 * Second) (Z.min (c_StatsInterval c) (60 * Second)).
Proof.
  intros H. cbn [initialize c_StatsInterval]. unfold clamp. destruct (Z.eqb_spec (c_StatsInterval c) 0); [lia|].
  unfold Second, Millisecond, Microsecond. repeat match goal with |- context [?x <? ?y] => destruct (Z.ltb_spec x y) end; lia.
Qed.

(** With an interval of at least a second: while the server's messages come as often as the server was asked to send its
    statistics, late by at most one more interval, nothing is said when the reporter looks. *)
Theorem C103_no_false_alarm :
  forall (RE : Type) float_part, float_exact float_part ->
  forall c (f : @Filter RE) raw uri l late all,
  let I := c_StatsInterval c in
  1 * Second <= I -> late <= I ->
  in_time (stream_stats_interval float_part (stream_query c f raw) + late) l ->
  run_reporter uri I l = Ok all ->
  forall n ts, nth_error l n = Some (Tick ts) -> nth_error all n = Some [].
Proof.
  intros RE fl Hfl c f raw uri l late all I HI Hlate Hin Hall n ts Hn.
  destruct (C55_client_configuration_reaches_server fl Hfl c f raw) as (E & _). rewrite E in Hin.
  assert (P : 0 < I) by (unfold Second, Millisecond, Microsecond in HI; lia).
  rewrite asked_interval in Hin by exact P. fold I in Hin.
  apply nth_error_split in Hn. destruct Hn as (h & rest & -> & <-).
  destruct (Hin h ts rest eq_refl) as (t & L & D).
  destruct (C103_what_is_said_about_silence uri I h ts rest P) as (all' & E' & Len & _ & S & _). rewrite E' in Hall. injection Hall as ->.
  rewrite (nth_error_nth' all [] (n := length h)) by (rewrite Len, app_length; cbn; lia).
  f_equal. apply (S t L). lia.
Qed.
Print Assumptions C103_no_false_alarm.

(** Finding: the client asks the server for at most one message a second, and the reporter still expects them at its own
    interval.  With an interval below half a second, a server that sends all it was asked for is reported as silent. *)
Theorem C103_false_alarm_refuted :
  forall (RE : Type) float_part, float_exact float_part ->
  forall c (f : @Filter RE) raw uri t ts,
  let I := c_StatsInterval c in
  0 < I -> 2 * I < ts - t <= 1 * Second ->
  stream_stats_interval float_part (stream_query c f raw) = 1 * Second /\
  in_time (stream_stats_interval float_part (stream_query c f raw)) [Read t "init"; Tick ts] /\
  exists age, run_reporter uri I [Read t "init"; Tick ts] =
    Ok [[uri ++ ": stream re/connected"]; [uri ++ ": last data " ++ DurationString age ++ " ago"]]%string.
Proof.
  intros RE fl Hfl c f raw uri t ts I HI D.
  destruct (C55_client_configuration_reaches_server fl Hfl c f raw) as (E & _). rewrite E, asked_interval by exact HI. fold I.
  assert (M : Z.max (1 * Second) (Z.min I (60 * Second)) = 1 * Second) by (unfold Second, Millisecond, Microsecond in *; lia). rewrite M.
  split; [reflexivity|]. split.
  - intros h1 ts' h2 Eq. destruct h1 as [|x h1]; [discriminate|]. injection Eq as <- Eq. destruct h1 as [|y h1]; [|destruct h1; discriminate].
    injection Eq as <- <-. exists t. split; [|lia]. exists [], "init", []. split; [reflexivity|]. intros x [].
  - exists (Truncate (ts - t) (100 * Millisecond)). unfold run_reporter. destruct (Z.leb_spec I 0); [lia|]. cbn [reporter on_read String.eqb Ascii.eqb Bool.eqb].
    unfold on_tick. cbv zeta. destruct (Z.ltb_spec (2 * I) (ts - t)); [|lia]. reflexivity.
Qed.
Print Assumptions C103_false_alarm_refuted.

(** Finding: an interval that is not positive ends the program. *)
Theorem C103_interval_crashes_refuted :
  forall uri I l, run_reporter uri I l = Panic <-> I <= 0.
Proof. intros. unfold run_reporter. destruct (Z.leb_spec I 0); split; intros; try reflexivity; try lia; discriminate. Qed.
Print Assumptions C103_interval_crashes_refuted.

(** A run: nothing at first, then a connection, a quiet spell, and a long one. *)
Definition demo_run : list happening :=
  [Tick (10 * Second); Read (11 * Second) "init"; Read (12 * Second) "stats"; Tick (20 * Second); Tick (30 * Second); Tick (40 * Second + 123 * Millisecond)].
Example C103_instance :
  run_reporter "a" (10 * Second) demo_run =
    Ok [["a: no data"]; ["a: stream re/connected"]; []; []; []; ["a: last data 28.1s ago"]]%string /\
  last_read (firstn 5 demo_run) (12 * Second) /\ never_read (firstn 1 demo_run) /\
  in_time (20 * Second) (skipn 1 (firstn 5 demo_run)) /\
  run_reporter "a" (10 * Second) (skipn 1 (firstn 5 demo_run)) = Ok [["a: stream re/connected"]; []; []; []]%string.
Proof.
  split; [vm_compute; reflexivity|]. split; [|split; [|split; [|vm_compute; reflexivity]]].
  - exists [Tick (10 * Second); Read (11 * Second) "init"], "stats", [Tick (20 * Second); Tick (30 * Second)]. split; [reflexivity|].
    intros x [<-|[<-|[]]] (t & ty & E); discriminate.
  - intros x [<-|[]] (t & ty & E); discriminate.
  - intros h1 ts h2 E. exists (12 * Second).
    destruct h1 as [|a [|b [|c [|d h1]]]]; cbn in E; try discriminate; injection E; intros; subst; try (destruct h1; discriminate); (split; [|vm_compute; discriminate]).
    + exists [Read (11 * Second) "init"], "stats", []. split; [reflexivity|]. intros x [].
    + exists [Read (11 * Second) "init"], "stats", [Tick (20 * Second)]. split; [reflexivity|]. intros x [<-|[]] (t & ty & E'); discriminate.
Qed.

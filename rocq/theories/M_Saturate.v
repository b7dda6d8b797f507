(** Differences of times as the code computes them: time.Time.Sub and time.Since answer a
    Duration, an int64 of nanoseconds, and where the difference does not fit they answer the
    largest or the smallest Duration.  M_Web.v and M_Rates.v subtract exactly; this file has the
    same functions with the subtraction of the library. *)
From Verif Require Import Go M_Strings M_Types M_Stats M_Web M_Rates.
From Coq Require Import QArith.
Open Scope string_scope.
Open Scope list_scope.
Open Scope Z_scope.

(** time.Duration: minDuration, maxDuration *)
Definition maxDuration : Z := 2 ^ 63 - 1.
Definition minDuration : Z := - 2 ^ 63.
(** time.Time.Sub (and time.Since, which is now.Sub) *)
Definition Sub (t u : Z) : Z :=
  let d := t - u in
  if maxDuration <? d then maxDuration else if d <? minDuration then minDuration else d.

(** trcweb/render.go:329-342 *)
Fixpoint render_loop64 (started : Z) (i prev : Z) (evs : list Event) (events : list renderEvent) : list renderEvent * Z :=
  match evs with
  | [] => (events, prev)
  | ev :: evs =>
      let delta := Sub (When ev) prev in
      let events := events ++ [MkRE false false i (When ev) delta (Sub (When ev) started) (What ev) (IsError ev) (Stack ev)] in
      render_loop64 started (i + 1) (When ev) evs events
  end.
(** trcweb/render.go:317-360 *)
Definition renderEvents64 (st : StaticTrace) : list renderEvent :=
  let events := [MkRE true false (-1) (TraceStarted st) 0 0 "start" false []] in
  let '(events, prev) := render_loop64 (TraceStarted st) 0 (TraceStarted st) (TraceEvents st) events in
  let when := TraceStarted st + TraceDuration st in
  let delta := Sub when prev in
  let what := if TraceFinished st then "finished" else "active..." in
  events ++ [MkRE false true (zlen (TraceEvents st)) when delta (TraceDuration st) what false []].

(** search_stats.go:203-218 and 229-244: the computation both rates share *)
Definition fresh_rate64 (total oldest newest now : Z) : Q :=
  let delta := Sub now oldest in
  let totalZero := total <=? 0 in
  let deltaZero := delta <=? 0 in
  let newestZero := newest =? 0 in
  let oldestZero := oldest =? 0 in
  let isZero := totalZero || deltaZero || newestZero || oldestZero in
  if isZero then 0 else per_second total delta.

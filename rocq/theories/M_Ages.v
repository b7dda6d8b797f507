(** Model of the times and the ages on the search page: the functions TimeTrunc and TimeRFC3339
    of the templates (trcweb/render.go:174, 214-215) and the functions timeSince and calcDates of
    the page (trcweb/assets/traces.html:49-76, 420, 429, 497). *)
From Coq Require Import ZArith QArith Qround.
From Verif Require Import Go M_Strings M_Humanize M_Time M_Float.
Open Scope string_scope.
Open Scope Z_scope.

(** TimeTrunc: t.Format with the layout 15:04:05.000000, trcweb/render.go:174, 214.  The times of
    traces are in UTC (trace_core.go:114, 275, 355); one that was read from JSON with another zone
    keeps that zone, which is left out.  Of the fraction the first six of nine digits are
    written. *)
Definition TimeTrunc (t : Z) : string :=
  let clock := t / Second mod 86400 in
  pad 2 (clock / 3600) (":" ++ pad 2 (clock mod 3600 / 60) (":" ++ pad 2 (clock mod 60) ("." ++ pad 6 (t mod Second / 1000) ""))).

(** the year in time.Format: at least four digits, after a sign if it is negative *)
Definition appendYear (year : Z) (rest : string) : string :=
  let digits := fun y => if y <=? 9999 then pad 4 y rest else itoa y ++ rest in
  if year <? 0 then "-" ++ digits (- year) else digits year.
(** TimeRFC3339: t.Format with the layout 2006-01-02T15:04:05Z07:00, in UTC,
    trcweb/render.go:215.  It has no fraction of a second. *)
Definition TimeRFC3339 (t : Z) : string :=
  let sec := t / Second in
  let '(year, month, day) := absDate (sec / 86400) in
  let clock := sec mod 86400 in
  appendYear year ("-" ++ pad 2 month ("-" ++ pad 2 day ("T" ++ pad 2 (clock / 3600) (":" ++ pad 2 (clock mod 3600 / 60) (":" ++ pad 2 (clock mod 60) "Z"))))).

(** Math.floor(ms / unit), traces.html:54-57: the quotient is a float64.  Whole numbers below
    2^53, their differences and their products below 2^53 are exact, so they are integers here. *)
Definition floor_div (ms unit : Z) : Z := Qfloor (round (inject_Z ms / inject_Z unit)).
(** one of the lines traces.html:54-57 *)
Definition take (unit ms : Z) : Z * Z :=
  let n := floor_div ms unit in
  (n, if 0 <? n then ms - n * unit else ms).
(** timeSince after the first three lines, traces.html:54-66 *)
Definition since (ms : Z) : string :=
  let '(days, ms) := take (86400 * 1000) ms in
  let '(hours, ms) := take (3600 * 1000) ms in
  let '(minutes, ms) := take (60 * 1000) ms in
  let '(seconds, ms) := take (1 * 1000) ms in
  if 0 <? days then itoa days ++ "d" ++ itoa hours ++ "h"
  else if 0 <? hours then itoa hours ++ "h" ++ itoa minutes ++ "m"
  else if 0 <? minutes then itoa minutes ++ "m" ++ itoa seconds ++ "s"
  else if 0 <? seconds then itoa seconds ++ "s"
  else if 0 <? ms then itoa ms ++ "ms"
  else "fresh".
(** timeSince(s), traces.html:49-67: [parse] is Date.parse of the browser, None is NaN, and [now]
    its clock; both are milliseconds since 1970.  With NaN no comparison holds. *)
Definition timeSince (parse : string -> option Z) (s : string) (now : Z) : string :=
  match parse s with
  | Some ts => since (now - ts)
  | None => "fresh"
  end.
(** the age in the line of a trace, traces.html:429 and calcDates, traces.html:69-74 *)
Definition age (parse : string -> option Z) (started now : Z) : string := timeSince parse (TimeRFC3339 started) now.

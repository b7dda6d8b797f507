(** Times in JSON: time.Time's MarshalJSON and UnmarshalJSON, which encoding/json calls for the
    time.Time fields of a trace, an event and the statistics of a category
    (/repo/trace_static.go:12, /repo/trace.go:93, /repo/search_stats.go:143-144).  All of
    trc's times are in UTC (trace_core.go:114, 275, 355), so a time is an instant: the
    nanoseconds since 1 January of year 1, Go's zero time.  Go counts days from a year far in
    the past that is 1 modulo 400, in unsigned arithmetic; here they are counted from year 1,
    with division that rounds down. *)
From Verif Require Import Go M_Strings M_Humanize M_Text.
Open Scope string_scope.
Open Scope Z_scope.

Definition daysPer400Years : Z := 365 * 400 + 97.
Definition daysPer100Years : Z := 365 * 100 + 24.
Definition daysPer4Years : Z := 365 * 4 + 1.
(** time.isLeap *)
Definition isLeap (year : Z) : bool := (year mod 4 =? 0) && (negb (year mod 100 =? 0) || (year mod 400 =? 0)).
(** time.daysBefore: the days before each month, in a year that is not a leap year *)
Definition daysBefore (m : Z) : Z := nth (Z.to_nat m) [0; 31; 59; 90; 120; 151; 181; 212; 243; 273; 304; 334; 365] 0.

(** time.absDate: the year of a day, and the day of that year *)
Definition absYear (d : Z) : Z * Z :=
  let n := d / daysPer400Years in
  let y := 400 * n in
  let d := d - daysPer400Years * n in
  let n := d / daysPer100Years in
  let n := n - n / 4 in
  let y := y + 100 * n in
  let d := d - daysPer100Years * n in
  let n := d / daysPer4Years in
  let y := y + 4 * n in
  let d := d - daysPer4Years * n in
  let n := d / 365 in
  let n := n - n / 4 in
  let y := y + n in
  let d := d - 365 * n in
  (y + 1, d).
(** the month, from 1, of a day that no leap day precedes: "estimate month on assumption that
    every month has 31 days" *)
Definition estimate (day : Z) : Z * Z :=
  let month := day / 31 in
  let end_ := daysBefore (month + 1) in
  if end_ <=? day then (month + 2, day - end_ + 1) else (month + 1, day - daysBefore month + 1).
Definition absMonth (leap : bool) (yday : Z) : Z * Z :=
  if leap then
    if 31 + 29 - 1 <? yday then estimate (yday - 1)
    else if yday =? 31 + 29 - 1 then (2, 29)
    else estimate yday
  else estimate yday.
Definition absDate (d : Z) : Z * Z * Z :=
  let '(year, yday) := absYear d in
  let '(month, day) := absMonth (isLeap year) yday in
  (year, month, day).

(** time.daysSinceEpoch, and time.Date: the day of a date *)
Definition daysSinceEpoch (year : Z) : Z :=
  let y := year - 1 in
  let n := y / 400 in
  let y := y - 400 * n in
  let d := daysPer400Years * n in
  let n := y / 100 in
  let y := y - 100 * n in
  let d := d + daysPer100Years * n in
  let n := y / 4 in
  let y := y - 4 * n in
  let d := d + daysPer4Years * n in
  d + 365 * y.
Definition day_of (year month day : Z) : Z :=
  daysSinceEpoch year + daysBefore (month - 1) + (if isLeap year && (3 <=? month) then 1 else 0) + (day - 1).
(** time.daysIn *)
Definition daysIn (month year : Z) : Z :=
  if (month =? 2) && isLeap year then 29 else daysBefore month - daysBefore (month - 1).

(** time.appendInt(b, x, width), of a number of that width *)
Fixpoint pad (width : nat) (x : Z) (rest : string) : string :=
  match width with
  | O => rest
  | S width => pad width (x / 10) (String (digit_char (x mod 10)) rest)
  end.
(** time.appendNano, for the format .999999999 *)
Fixpoint trim_zeros (s : string) : string :=
  match s with
  | "" => ""
  | String c s =>
      match trim_zeros s with
      | "" => if Ascii.eqb c "0" then "" else String c ""
      | r => String c r
      end
  end.
Definition appendNano (nanosec : Z) : string := if nanosec =? 0 then "" else String "." (trim_zeros (pad 9 nanosec "")).

(** Time.MarshalJSON, without the quotation marks.  A year that does not have four digits is an
    error. *)
Definition rfc3339 (t : Z) : option string :=
  let sec := t / Second in
  let '(year, month, day) := absDate (sec / 86400) in
  let clock := sec mod 86400 in
  if (0 <=? year) && (year <=? 9999)
  then Some (pad 4 year ("-" ++ pad 2 month ("-" ++ pad 2 day ("T" ++ pad 2 (clock / 3600) (":" ++ pad 2 (clock mod 3600 / 60) (":" ++ pad 2 (clock mod 60) (appendNano (t mod Second) ++ "Z")))))))
  else None.

(** parseUint of time.parseRFC3339: digits, and a number in some range *)
Definition parseUint (s : string) (min max : Z) : option Z :=
  match read_digits s 0 with
  | Some x => if (x <? min) || (max <? x) then None else Some x
  | None => None
  end.
Definition byte_is (s : string) (n : nat) (c : ascii) : bool := match String.get n s with Some a => Ascii.eqb a c | None => false end.
(** the digits at the beginning, and the rest *)
Fixpoint leading_digits (s : string) : string * string :=
  match s with
  | String c r => if is_digit c then let '(d, x) := leading_digits r in (String c d, x) else ("", s)
  | "" => ("", "")
  end.
(** time.parseNanoseconds: of the digits after the point, the first nine count *)
Definition parseNanoseconds (digits : string) : option Z :=
  let d := substring 0 9 digits in
  match read_digits d 0 with Some x => Some (x * 10 ^ (9 - Z.of_nat (String.length d))) | None => None end.
(** the fractional second at the beginning, if there is one, and the rest *)
Definition parseFraction (s : string) : option (Z * string) :=
  match s with
  | String c r =>
      if Ascii.eqb c "." then
        match leading_digits r with
        | ("", _) => Some (0, s)
        | (d, x) => match parseNanoseconds d with Some ns => Some (ns, x) | None => None end
        end
      else Some (0, s)
  | "" => Some (0, "")
  end.
(** the time zone: the seconds east of UTC *)
Definition parseZone (s : string) : option Z :=
  if String.eqb s "Z" then Some 0
  else if negb (Nat.eqb (String.length s) 6) then None
  else
    match parseUint (substring 1 2 s) 0 23, parseUint (substring 4 2 s) 0 59 with
    | Some hr, Some mm =>
        let offset := (hr * 60 + mm) * 60 in
        if byte_is s 3 ":" then
          if byte_is s 0 "-" then Some (- offset) else if byte_is s 0 "+" then Some offset else None
        else None
    | _, _ => None
    end.
(** time.parseRFC3339 *)
Definition parseRFC3339 (s : string) : option Z :=
  if Nat.ltb (String.length s) 19 then None
  else
    match parseUint (substring 0 4 s) 0 9999, parseUint (substring 5 2 s) 1 12 with
    | Some year, Some month =>
        match parseUint (substring 8 2 s) 1 (daysIn month year), parseUint (substring 11 2 s) 0 23,
              parseUint (substring 14 2 s) 0 59, parseUint (substring 17 2 s) 0 59 with
        | Some day, Some hour, Some min, Some sec =>
            if byte_is s 4 "-" && byte_is s 7 "-" && byte_is s 10 "T" && byte_is s 13 ":" && byte_is s 16 ":" then
              match parseFraction (str_skip 19 s) with
              | Some (nsec, r) =>
                  match parseZone r with
                  | Some offset => Some ((day_of year month day * 86400 + hour * 3600 + min * 60 + sec - offset) * Second + nsec)
                  | None => None
                  end
              | None => None
              end
            else None
        | _, _, _, _ => None
        end
    | _, _ => None
    end.
(** Time.UnmarshalJSON: what parseRFC3339 does not read goes to [other], the general parser of
    the time package *)
Definition parse_time (other : string -> option Z) (s : string) : option Z :=
  match parseRFC3339 s with Some t => Some t | None => other s end.

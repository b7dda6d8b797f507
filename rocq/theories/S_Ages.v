(** What the times and the ages on the search page say. *)
From Coq Require Import String.
From Verif Require Import Go M_Strings S_Time.
Open Scope string_scope.
Open Scope Z_scope.

(** [s] is the time of day hour:min:sec.us, with microseconds *)
Definition clock_reads (s : string) (hour min sec us : Z) : Prop :=
  exists hh mm ss ff, s = hh ++ ":" ++ mm ++ ":" ++ ss ++ "." ++ ff /\
    digits_of 2 hh hour /\ digits_of 2 mm min /\ digits_of 2 ss sec /\ digits_of 6 ff us /\
    hour < 24 /\ min < 60 /\ sec < 60.

Definition a_second : Z := 1000.
Definition a_minute : Z := 60 * a_second.
Definition an_hour : Z := 60 * a_minute.
Definition a_day : Z := 24 * an_hour.
(** [says s v u]: the text [s] says that [v] milliseconds have passed, up to the unit [u] *)
Inductive says : string -> Z -> Z -> Prop :=
| says_days d h : 0 < d -> 0 <= h < 24 -> says (itoa d ++ "d" ++ itoa h ++ "h") (d * a_day + h * an_hour) an_hour
| says_hours h m : 0 < h < 24 -> 0 <= m < 60 -> says (itoa h ++ "h" ++ itoa m ++ "m") (h * an_hour + m * a_minute) a_minute
| says_minutes m s : 0 < m < 60 -> 0 <= s < 60 -> says (itoa m ++ "m" ++ itoa s ++ "s") (m * a_minute + s * a_second) a_second
| says_seconds s : 0 < s < 60 -> says (itoa s ++ "s") (s * a_second) a_second
| says_milliseconds ms : 0 < ms < 1000 -> says (itoa ms ++ "ms") ms 1
| says_fresh : says "fresh" 0 1.

(** 1 January 1970 *)
Definition unix_epoch (e : Z) : Prop := exists n, day_is n (1970, 1, 1) /\ e = n * 86400 * 10 ^ 9.
(** A browser: it reads times of RFC 3339 with neither fraction nor offset, as milliseconds since
    1970. *)
Definition browser (parse : string -> option Z) : Prop :=
  forall s t e, means s t -> String.length s = 20%nat -> unix_epoch e -> parse s = Some ((t - e) / 10 ^ 6).
(** the times that a browser can represent *)
Definition browser_time (now : Z) : Prop := - 8640000000000000 <= now <= 8640000000000000.
(** the instant [now], in milliseconds since 1970, as nanoseconds since year 1 *)
Definition instant (now i : Z) : Prop := exists e, unix_epoch e /\ i = e + now * 10 ^ 6.

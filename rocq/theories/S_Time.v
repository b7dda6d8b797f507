(** The calendar, and what a time in RFC 3339 means. *)
From Verif Require Import Go M_Json S_Json S_JsonText.
Open Scope string_scope.
Open Scope Z_scope.

Definition leap (y : Z) : Prop := (4 | y) /\ (~ (100 | y) \/ (400 | y)).
Inductive month_length : Z -> Z -> Z -> Prop :=
| month_31 y m : In m [1; 3; 5; 7; 8; 10; 12] -> month_length y m 31
| month_30 y m : In m [4; 6; 9; 11] -> month_length y m 30
| month_29 y : leap y -> month_length y 2 29
| month_28 y : ~ leap y -> month_length y 2 28.
(** year, month and day *)
Definition date : Type := Z * Z * Z.
Definition is_date (a : date) : Prop := let '(y, m, d) := a in exists n, month_length y m n /\ 1 <= d <= n.
Inductive next_day : date -> date -> Prop :=
| next_in_month y m d n : month_length y m n -> 1 <= d < n -> next_day (y, m, d) (y, m, d + 1)
| next_month y m n : month_length y m n -> m < 12 -> next_day (y, m, n) (y, m + 1, 1)
| next_year y : next_day (y, 12, 31) (y + 1, 1, 1).
(** the date [n] days after 1 January of year 1 *)
Inductive day_is : Z -> date -> Prop :=
| day_zero : day_is 0 (1, 1, 1)
| day_after n a b : day_is n a -> next_day a b -> day_is (n + 1) b
| day_before n a b : day_is n b -> next_day a b -> day_is (n - 1) a.

(** a number with that many digits *)
Definition digits_of (width : nat) (s : string) (x : Z) : Prop := String.length s = width /\ decimal_value s x.
(** the nanoseconds of a fraction of a second: there may be more than nine digits *)
Definition fraction_is (s : string) (ns : Z) : Prop :=
  (s = "" /\ ns = 0) \/
  (exists d x, s = String "." d /\ d <> "" /\ decimal_value d x /\ ns = x * 10 ^ 9 / 10 ^ Z.of_nat (String.length d)).
(** seconds east of UTC *)
Definition zone_is (s : string) (offset : Z) : Prop :=
  (s = "Z" /\ offset = 0) \/
  (exists sg hh h mm m, s = String sg (hh ++ ":" ++ mm) /\ digits_of 2 hh h /\ digits_of 2 mm m /\ h < 24 /\ m < 60 /\
     ((sg = "+"%char /\ offset = h * 3600 + m * 60) \/ (sg = "-"%char /\ offset = - (h * 3600 + m * 60)))).
(** [s] is a time in RFC 3339, namely [t] nanoseconds after the first instant of year 1 *)
Definition means (s : string) (t : Z) : Prop :=
  exists YYYY MM DD hh mm ss frac zone year month day hour min sec ns offset n,
    s = YYYY ++ "-" ++ MM ++ "-" ++ DD ++ "T" ++ hh ++ ":" ++ mm ++ ":" ++ ss ++ frac ++ zone /\
    digits_of 4 YYYY year /\ digits_of 2 MM month /\ digits_of 2 DD day /\
    digits_of 2 hh hour /\ digits_of 2 mm min /\ digits_of 2 ss sec /\
    hour < 24 /\ min < 60 /\ sec < 60 /\ fraction_is frac ns /\ zone_is zone offset /\
    day_is n (year, month, day) /\
    t = (n * 86400 + hour * 3600 + min * 60 + sec - offset) * 10 ^ 9 + ns.
(** the instant [t] is on the day [a] *)
Definition on_day (t : Z) (a : date) : Prop := exists n, day_is n a /\ n * 86400 * 10 ^ 9 <= t < (n + 1) * 86400 * 10 ^ 9.
(** in a year of four digits *)
Definition four_digit_year (t : Z) : Prop := exists y m d, on_day t (y, m, d) /\ 0 <= y <= 9999.

(** internal/trcutil/humanize.go: TruncateDuration *)
From Verif Require Import Go.
Open Scope Z_scope.

(** time.Duration constants, in nanoseconds *)
Definition Microsecond : Z := 1000.
Definition Millisecond : Z := 1000 * Microsecond.
Definition Second : Z := 1000 * Millisecond.
Definition Minute : Z := 60 * Second.
Definition Hour : Z := 60 * Minute.

(** time.Duration.Truncate: d - d%m; % truncates toward zero *)
Definition Truncate (d m : Z) : Z := if m <=? 0 then d else d - Z.rem d m.

(** internal/trcutil/humanize.go:12-33 *)
Definition TruncateDuration (d : Z) : Z :=
  if 10 * 24 * Hour <=? d then Truncate d (24 * Hour)
  else if 24 * Hour <=? d then Truncate d Hour
  else if Hour <=? d then Truncate d Minute
  else if Minute <=? d then Truncate d Second
  else if Second <=? d then Truncate d (100 * Millisecond)
  else if 10 * Millisecond <=? d then Truncate d (1000 * Microsecond)
  else if 1 * Millisecond <=? d then Truncate d (100 * Microsecond)
  else if 1 * Microsecond <=? d then Truncate d (1 * Microsecond)
  else d.

(** internal/trcutil/humanize.go:48-97: HumanizeFloat and HumanizeBytes.  A finite float is
    the rational number it is; negative zero is left out. *)
From Coq Require Import QArith.
From Verif Require Import Go M_Strings.
Open Scope string_scope.
Open Scope Z_scope.

(** The integer nearest to a/b, b > 0; of two, the even one (strconv rounds the exact decimal
    value of a float like this). *)
Definition round_half_even (a b : Z) : Z :=
  let q := a / b in let r := a mod b in
  if 2 * r <? b then q else if b <? 2 * r then q + 1 else if Z.even q then q else q + 1.
(** fmt verbs %.0f and %.1f (%0.1f and %0.01f say the same: no width, one decimal) *)
Definition unsigned_f0 (q : Q) : string := itoa (round_half_even (Qnum q) (Zpos (Qden q))).
Definition unsigned_f1 (q : Q) : string :=
  let k := round_half_even (Qnum q * 10) (Zpos (Qden q)) in itoa (k / 10) ++ "." ++ itoa (k mod 10).
Definition signed (f : Q -> string) (q : Q) : string := if Qnum q <? 0 then "-" ++ f (- q)%Q else f q.
Definition f0 : Q -> string := signed unsigned_f0.
Definition f1 : Q -> string := signed unsigned_f1.

Definition Qltb (x y : Q) : bool := negb (Qle_bool y x).
(** humanize.go:52-72; [fl] rounds the quotient to a float *)
Definition HumanizeFloat (fl : Q -> Q) (f : Q) : string :=
  let s := if Qltb (inject_Z 1000000) f then "1M+"
           else if Qltb (inject_Z 10000) f then f0 (fl (f / inject_Z 1000)%Q) ++ "K"
           else if Qltb (inject_Z 1000) f then f1 (fl (f / inject_Z 1000)%Q) ++ "K"
           else if Qle_bool (inject_Z 1) f then f0 f
           else if Qeq_bool f 0 then "0"
           else f1 f in
  if String.eqb s "0.0" then "0" else s.

(** humanize.go:77-97, for n that are floats, up to 2^53: dividing by powers of two is exact *)
Definition kib : Z := 1024.
Definition mib : Z := 1024 * kib.
Definition HumanizeBytes (n : Z) : string :=
  if n <? 1 * kib then f1 (inject_Z n) ++ "B"
  else if n <? 100 * kib then f1 (n # 1024) ++ "KB"
  else if n <? 1 * mib then f0 (n # 1024) ++ "KB"
  else if n <? 100 * mib then f1 (n # 1048576) ++ "MB"
  else f0 (n # 1048576) ++ "MB".

(** Reading a humanized number: what it says, in tenths of the unit one. *)
From Coq Require Import QArith.
From Verif Require Import Go.
Open Scope string_scope.
Open Scope Z_scope.

Definition digit_of (c : ascii) : option Z :=
  let n := Z.of_nat (nat_of_ascii c) - 48 in if (0 <=? n) && (n <=? 9) then Some n else None.
(** digits, and what comes after them *)
Fixpoint scan (s : string) (x : Z) : Z * string :=
  match s with
  | String c r => match digit_of c with Some d => scan r (10 * x + d) | None => (x, s) end
  | EmptyString => (x, s)
  end.
(** a number with up to one decimal, in tenths *)
Definition scan_tenths (s : string) : Z * string :=
  let '(n, r) := scan s 0 in
  match r with
  | String "." (String c r') => match digit_of c with Some d => (10 * n + d, r') | None => (10 * n, r) end
  | _ => (10 * n, r)
  end.
Definition unit_of (u : string) : option Z :=
  if String.eqb u "" then Some 1 else if String.eqb u "B" then Some 1
  else if String.eqb u "K" then Some 1000 else if String.eqb u "KB" then Some 1024
  else if String.eqb u "MB" then Some (1024 * 1024) else if String.eqb u "M+" then Some 1000000 else None.
Definition read_unsigned (s : string) : option Z := let '(t, u) := scan_tenths s in option_map (Z.mul t) (unit_of u).
Definition says (s : string) : option Z :=
  match s with String "-" s => option_map Z.opp (read_unsigned s) | _ => read_unsigned s end.

(** Rounding to floats keeps the order, keeps integers, and is off by one part in 2^52 at most. *)
Definition rounding (fl : Q -> Q) : Prop :=
  (forall x y, (x <= y -> fl x <= fl y)%Q) /\ (forall n, Z.abs n <= 2 ^ 53 -> (fl (inject_Z n) == inject_Z n)%Q) /\ (forall x, (1 <= x -> fl x - x <= x * (1 # 4503599627370496) /\ x - fl x <= x * (1 # 4503599627370496))%Q).

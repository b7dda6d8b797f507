(** Model of the float64 arithmetic of the search page: the percentages of the table
    (trcweb/render.go:206), those of the events of a trace (trcweb/render.go:336, 354) and the
    widths of the timeline (trcweb/render.go:307-315).  The arithmetic is that of IEEE 754,
    binary64, rounding to nearest, ties to even; finite values are rational numbers. *)
From Coq Require Import ZArith QArith Qround Qabs Qpower.
From Verif Require Import Go M_Types M_Web.
Open Scope Z_scope.

(** *** IEEE 754 *)
(** to the nearest integer, ties to even *)
Definition nearest (x : Q) : Z :=
  let f := Qfloor x in
  match Qcompare (x - inject_Z f)%Q (1 # 2) with
  | Lt => f
  | Gt => f + 1
  | Eq => if Z.even f then f else f + 1
  end.
Definition two (e : Z) : Q := Qpower (2 # 1) e.
(** the exponent of a positive number: 2^k <= x < 2^(k+1) *)
Definition log2 (x : Q) : Z :=
  let k := Z.log2 (Qnum x) - Z.log2 (Zpos (Qden x)) in
  if Qle_bool (two k) x then k else k - 1.
(** the weight of the last of the 53 bits; -1074 is the smallest exponent *)
Definition last_place (x : Q) : Z := Z.max (-1074) (log2 x - 52).
Definition round_pos (x : Q) : Q := (inject_Z (nearest (x / two (last_place x))) * two (last_place x))%Q.
(** Rounding.  Overflow to an infinity is left out: the numbers of the page are below 2^71. *)
Definition round (x : Q) : Q :=
  match Qcompare x 0 with
  | Eq => 0%Q
  | Gt => round_pos x
  | Lt => (- round_pos (- x))%Q
  end.
Inductive float := Fin (x : Q) | PosInf | NegInf | NaN.
(** float64(n) *)
Definition float64 (n : Z) : Q := round (inject_Z n).
(** x / y *)
Definition fdiv (x y : Q) : float :=
  if Qeq_bool y 0 then match Qcompare x 0 with Eq => NaN | Gt => PosInf | Lt => NegInf end
  else Fin (round (x / y)).
(** int(f): towards zero; Go leaves the result to the implementation where it is out of range *)
Definition trunc (x : Q) : Z := Z.quot (Qnum x) (Zpos (Qden x)).
Definition int (odd : float -> Z) (f : float) : Z := match f with Fin x => trunc x | _ => odd f end.

(** *** The page *)
(** 100 * float64(n) / float64(d): trcweb/render.go:206, 336, 354 *)
Definition fpercent (n d : Z) : float := fdiv (round (inject_Z 100 * float64 n)) (float64 d).
(** trcweb/render.go:206 *)
Definition PercentInt_float (odd : float -> Z) (n d : Z) : Z := int odd (fpercent n d).
(** trcweb/render.go:336, 354: the share of a row; the first row has the zero value *)
Definition DeltaPercent (st : StaticTrace) (row : renderEvent) : float :=
  if re_IsStart row then Fin 0 else fpercent (re_Delta row) (TraceDuration st).
(** trcweb/render.go:307-315; comparing a NaN is false *)
Definition flexGrowPercent (odd : float -> Z) (f : float) : Z :=
  match f with
  | NegInf => 1
  | PosInf => 100
  | NaN => odd NaN
  | Fin x => if negb (Qle_bool 1 x) then 1 else if negb (Qle_bool x 100) then 100 else trunc x
  end.

(** Go's text conversions that trc's web package relies on: strconv.Atoi,
    time.Duration.String, time.ParseDuration.  Errors are None: the code only tests
    whether there was one. *)
From Verif Require Import Go M_Strings M_Humanize.
Open Scope string_scope.
Open Scope Z_scope.

Definition two63 : Z := 2 ^ 63.
(** the values of int and time.Duration *)
Definition int64 (z : Z) : Prop := - two63 <= z < two63.

(** '0' <= c && c <= '9', and the value of the digit *)
Definition digit (c : ascii) : option Z :=
  let n := Z.of_N (N_of_ascii c) in
  if (48 <=? n) && (n <=? 57) then Some (n - 48) else None.
Definition is_digit (c : ascii) : bool := match digit c with Some _ => true | None => false end.
Definition digit_char (v : Z) : ascii := ascii_of_N (Z.to_N (v + 48)).

(** strconv.Atoi: an optional sign, then one or more digits, within the range of int *)
Fixpoint read_digits (s : string) (x : Z) : option Z :=
  match s with
  | EmptyString => Some x
  | String c s => match digit c with Some v => read_digits s (x * 10 + v) | None => None end
  end.
Definition sign (s : string) : bool * string :=
  match s with
  | String c r => if Ascii.eqb c "-"%char then (true, r) else if Ascii.eqb c "+"%char then (false, r) else (false, s)
  | EmptyString => (false, s)
  end.
Definition Atoi (s : string) : option Z :=
  let '(neg, r) := sign s in
  match r with
  | EmptyString => None
  | _ => match read_digits r 0 with
         | Some n => let v := if neg then - n else n in
                     if (- two63 <=? v) && (v <? two63) then Some v else None
         | None => None
         end
  end.

(** time.fmtFrac: the last [prec] decimal digits of v, without trailing zeros, before
    [buf]; and v without them *)
Fixpoint fmtFrac (prec : nat) (v : Z) (print : bool) (buf : string) : string * Z :=
  match prec with
  | O => (if print then String "." buf else buf, v)
  | S prec =>
      let d := v mod 10 in
      let print := print || negb (d =? 0) in
      fmtFrac prec (v / 10) print (if print then String (digit_char d) buf else buf)
  end.

Definition micro : string := String "194"%char (String "181"%char EmptyString).

(** time.Duration.String (Duration.format); time.fmtInt is [itoa] *)
Definition DurationString (d : Z) : string :=
  let u := Z.abs d in
  let s :=
    if u <? Second then
      if u =? 0 then "0s"
      else
        let '(prec, unit) :=
          if u <? Microsecond then (0%nat, "ns") else if u <? Millisecond then (3%nat, micro ++ "s") else (6%nat, "ms") in
        let '(buf, u) := fmtFrac prec u false unit in
        itoa u ++ buf
    else
      let '(buf, u) := fmtFrac 9 u false "s" in
      let buf := itoa (u mod 60) ++ buf in
      let u := u / 60 in
      if 0 <? u then
        let buf := itoa (u mod 60) ++ "m" ++ buf in
        let u := u / 60 in
        if 0 <? u then itoa u ++ "h" ++ buf else buf
      else buf in
  if d <? 0 then "-" ++ s else s.

(** time.leadingInt; None is the overflow error *)
Fixpoint leadingInt (s : string) (x : Z) : option (Z * string) :=
  match s with
  | EmptyString => Some (x, s)
  | String c r =>
      match digit c with
      | None => Some (x, s)
      | Some v =>
          if two63 / 10 <? x then None
          else let x := x * 10 + v in
               if two63 <? x then None else leadingInt r x
      end
  end.
(** time.leadingFraction *)
Fixpoint leadingFraction (s : string) (x scale : Z) (overflow : bool) : Z * Z * string :=
  match s with
  | EmptyString => (x, scale, s)
  | String c r =>
      match digit c with
      | None => (x, scale, s)
      | Some v =>
          if overflow then leadingFraction r x scale true
          else if (two63 - 1) / 10 <? x then leadingFraction r x scale true
          else let y := x * 10 + v in
               if two63 <? y then leadingFraction r x scale true
               else leadingFraction r y (scale * 10) false
      end
  end.

(** the unit: everything up to the next '.' or digit *)
Fixpoint span_unit (s : string) : string * string :=
  match s with
  | EmptyString => (EmptyString, EmptyString)
  | String c r =>
      if Ascii.eqb c "."%char || is_digit c then (EmptyString, s)
      else let '(u, rest) := span_unit r in (String c u, rest)
  end.
Definition greek_mu : string := String "206"%char (String "188"%char EmptyString).
(** time.unitMap *)
Definition unitMap (u : string) : option Z :=
  if String.eqb u "ns" then Some 1
  else if String.eqb u "us" then Some Microsecond
  else if String.eqb u (micro ++ "s") then Some Microsecond
  else if String.eqb u (greek_mu ++ "s") then Some Microsecond
  else if String.eqb u "ms" then Some Millisecond
  else if String.eqb u "s" then Some Second
  else if String.eqb u "m" then Some Minute
  else if String.eqb u "h" then Some Hour
  else None.

Section ParseDuration.
(** uint64(float64(f) * (float64(unit) / scale)): floating point, so an input *)
Variable float_part : Z -> Z -> Z -> Z.

(** the loop of time.ParseDuration; every iteration consumes at least two bytes, so
    the length of the string is enough fuel *)
Fixpoint parse_loop (fuel : nat) (s : string) (d : Z) : option Z :=
  match s with
  | EmptyString => Some d
  | String c _ =>
      match fuel with
      | O => None
      | S fuel =>
          if negb (Ascii.eqb c "."%char || is_digit c) then None
          else
            match leadingInt s 0 with
            | None => None
            | Some (v, s) =>
                let pre := is_digit c in
                let '(f, scale, s, post) :=
                  match s with
                  | String c2 s2 =>
                      if Ascii.eqb c2 "."%char then
                        let '(f, scale, s3) := leadingFraction s2 0 1 false in
                        (f, scale, s3, match s2 with String c3 _ => is_digit c3 | EmptyString => false end)
                      else (0, 1, s, false)
                  | EmptyString => (0, 1, s, false)
                  end in
                if negb pre && negb post then None
                else
                  let '(u, s) := span_unit s in
                  match unitMap u with
                  | None => None
                  | Some unit =>
                      if two63 / unit <? v then None
                      else
                        let v := v * unit in
                        let v := if 0 <? f then v + float_part f unit scale else v in
                        if (0 <? f) && (two63 <? v) then None
                        else
                          let d := (d + v) mod (2 * two63) in
                          if two63 <? d then None else parse_loop fuel s d
                  end
            end
      end
  end.
(** time.ParseDuration *)
Definition ParseDuration (s : string) : option Z :=
  let '(neg, s) := sign s in
  if String.eqb s "0" then Some 0
  else if String.eqb s "" then None
  else
    match parse_loop (String.length s) s 0 with
    | None => None
    | Some d => if neg then Some (- d) else if two63 - 1 <? d then None else Some d
    end.
End ParseDuration.

(** What IEEE arithmetic gives when the quotient and the product are whole numbers that
    a float64 represents: the exact result. *)
Definition float_exact (float_part : Z -> Z -> Z -> Z) : Prop :=
  forall f q scale, 0 < f -> 0 < q -> 0 < scale -> f * q < 2 ^ 53 -> q * scale < 2 ^ 53 ->
    float_part f (q * scale) scale = f * q.

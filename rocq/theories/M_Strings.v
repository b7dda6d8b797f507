(** The functions of Go's package strings and strconv that trc uses, on byte
    strings. *)
From Verif Require Import Go.
From Coq Require Import DecimalString DecimalZ.
Open Scope string_scope.

(** strings.HasPrefix(s, p) *)
Definition HasPrefix (s p : string) : bool := String.prefix p s.

(** last [n] bytes of [s] *)
Definition str_skip (n : nat) (s : string) : string := substring n (String.length s - n) s.

(** strings.HasSuffix(s, p) *)
Definition HasSuffix (s p : string) : bool :=
  (String.length p <=? String.length s)%nat &&
  String.eqb (str_skip (String.length s - String.length p) s) p.

(** strconv.Itoa, and %d *)
Definition itoa (z : Z) : string := NilZero.string_of_int (Z.to_int z).

Fixpoint list_of_string (s : string) : list ascii :=
  match s with EmptyString => [] | String c s => c :: list_of_string s end.
Fixpoint string_of_list (l : list ascii) : string :=
  match l with [] => EmptyString | c :: l => String c (string_of_list l) end.

(** strings.LastIndex(s, c) and strings.Index(s, c) for a one-byte separator; None
    is -1. *)
Fixpoint LastIndexByte (s : string) (c : ascii) : option nat :=
  match s with
  | EmptyString => None
  | String x s =>
      match LastIndexByte s c with
      | Some i => Some (S i)
      | None => if Ascii.eqb x c then Some 0%nat else None
      end
  end.
Fixpoint IndexByte (s : string) (c : ascii) : option nat :=
  match s with
  | EmptyString => None
  | String x s => if Ascii.eqb x c then Some 0%nat else option_map S (IndexByte s c)
  end.
Definition index_of (o : option nat) : Z := match o with Some i => Z.of_nat i | None => (-1)%Z end.

(** s[i:j] *)
Definition str_slice (s : string) (i j : Z) : res string :=
  if ((0 <=? i) && (i <=? j) && (j <=? Z.of_nat (String.length s)))%Z
  then Ok (substring (Z.to_nat i) (Z.to_nat (j - i)) s)
  else Panic.

(** strings.Cut(s, c) for a one-byte separator *)
Fixpoint CutByte (s : string) (c : ascii) : string * string * bool :=
  match s with
  | EmptyString => (EmptyString, EmptyString, false)
  | String x s =>
      if Ascii.eqb x c then (EmptyString, s, true)
      else let '(before, after, found) := CutByte s c in (String x before, after, found)
  end.

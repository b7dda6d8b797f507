(** Model of how trace IDs are made: trace_core.go:66, 111-116, and github.com/oklog/ulid/v2,
    which is not in /repo.  Of that package are modelled Timestamp, New (MustNew), SetTime,
    the monotonic entropy behind DefaultEntropy, and String, as its documentation states
    them: an ID is a 128 bit number, 48 bits of milliseconds and 80 bits of entropy, its text
    the 26 digits of that number in base 32. *)
From Verif Require Import Go.
Open Scope string_scope.
Open Scope list_scope.
Open Scope Z_scope.

(** The instant 1970-01-01T00:00:00Z in nanoseconds since the zero time. *)
Definition unix_epoch : Z := 62135596800 * 1000000000.
(** ulid.Timestamp: milliseconds since the epoch, as a uint64 *)
Definition Timestamp (now : Z) : Z := ((now - unix_epoch) / 1000000) mod 2 ^ 64.
(** ulid.MonotonicEntropy: the milliseconds and the entropy of the last ID *)
Record entropy := MkEntropy { last_ms : Z; last_entropy : Z }.
(** before the first ID *)
Definition new_entropy : entropy := MkEntropy 0 0.
(** What the random source gives: [draw], 80 bits, when they are read, and [inc], 1..2^32-1,
    when an increment is read. *)
Record randomness := MkRandom { draw : Z; inc : Z }.
(** ulid.MonotonicEntropy.MonotonicRead: None is ErrMonotonicOverflow; the sum is kept all the same *)
Definition MonotonicRead (s : entropy) (ms : Z) (r : randomness) : entropy * option Z :=
  if negb (last_entropy s =? 0) && (last_ms s =? ms) then
    let sum := (last_entropy s + inc r) mod 2 ^ 80 in
    (MkEntropy (last_ms s) sum, if last_entropy s + inc r <? 2 ^ 80 then Some sum else None)
  else (MkEntropy ms (draw r), Some (draw r)).
(** ulid.MustNew: panics if the time has more than 48 bits or on overflow *)
Definition MustNew (s : entropy) (ms : Z) (r : randomness) : entropy * res Z :=
  if 2 ^ 48 <=? ms then (s, Panic)
  else match MonotonicRead s ms r with
       | (s, Some e) => (s, Ok (ms * 2 ^ 80 + e))
       | (s, None) => (s, Panic)
       end.
(** ulid.ULID.String *)
Definition Encoding : string := "0123456789ABCDEFGHJKMNPQRSTVWXYZ".
Definition digit (d : Z) : ascii := match String.get (Z.to_nat d) Encoding with Some a => a | None => "0"%char end.
Fixpoint text (n : nat) (x : Z) : string :=
  match n with O => "" | S n => String (digit ((x / 32 ^ Z.of_nat n) mod 32)) (text n x) end.
Definition ulid_String (id : Z) : string := text 26 id.

(** trace_core.go:111-116: traces created one after another, [now] their starts.  What is
    recorded of each is its start and its ID.  Stops at a panic. *)
Fixpoint create (s : entropy) (l : list (Z * randomness)) : res (list (Z * string)) :=
  match l with
  | [] => Ok []
  | (now, r) :: l =>
      let '(s, id) := MustNew s (Timestamp now) r in
      id <- id ;; rest <- create s l ;; Ok ((now, ulid_String id) :: rest)
  end.

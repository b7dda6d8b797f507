(** Model of argument slices: what the rest of the model takes as lists of values are Go
    slices, several of which can share an array.  helpers.go:94-132 (Prefix, prefixTrace),
    trace_core.go:350-361, 452-499 (events keep the slice they are given; lazy ones read it
    when they are formatted). *)
From Verif Require Import Go S_Trace.
Open Scope string_scope.
Open Scope list_scope.

Section Slice.
Context {arg world : Type}.
Variable Sprintf : world -> string -> list arg -> string.

(** All arrays of the process, by address. *)
Definition heap := list (list arg).
(** A slice: address of its array, offset, length, capacity. *)
Record slice := MkSlice { sl_arr : nat; sl_off : nat; sl_len : nat; sl_cap : nat }.
Definition array_at (h : heap) (a : nat) : list arg := nth a h [].
(** The elements of a slice. *)
Definition read (h : heap) (s : slice) : list arg := firstn (sl_len s) (skipn (sl_off s) (array_at h (sl_arr s))).
(** Writing a list of elements into an array. *)
Definition overwrite (l : list arg) (at_ : nat) (xs : list arg) : list arg := firstn at_ l ++ xs ++ skipn (at_ + length xs) l.
(** append(s, xs...): in place if there is room, else in a new array, with whatever spare
    capacity the runtime likes. *)
Definition append (h : heap) (s : slice) (xs : list arg) (spare : list arg) : heap * slice :=
  if (sl_len s + length xs <=? sl_cap s)%nat
  then (update (sl_arr s) (overwrite (array_at h (sl_arr s)) (sl_off s + sl_len s) xs) h,
        MkSlice (sl_arr s) (sl_off s) (sl_len s + length xs) (sl_cap s))
  else (h ++ [read h s ++ xs ++ spare],
        MkSlice (length h) 0 (sl_len s + length xs) (sl_len s + length xs + length spare)).

(** A trace with prefixes, the outermost first: format and args of each. *)
Definition ptrace := list (string * slice).
(** An event as it is kept: a format, a slice, and the text if it is already made. *)
Record pevent := MkPE { pe_format : string; pe_args : slice; pe_text : option string }.

(** helpers.go:118-132 through all prefixes, then trace_core.go:350-361.  The spare capacity
    of new arrays is [spares]. *)
Fixpoint plog (t : ptrace) (lazy : bool) (w : world) (format : string) (args : slice) (spares : nat -> list arg) (h : heap) : heap * pevent :=
  match t with
  | [] => (h, MkPE format args (if lazy then None else Some (Sprintf w format (read h args))))
  | (pf, pa) :: t =>
      let '(h, args) := append h pa (read h args) (spares O) in
      plog t lazy w (pf ++ format)%string args (fun n => spares (S n)) h
  end.

(** trace_core.go:484-499: the text, made now if it has not been made *)
Definition text (w : world) (h : heap) (e : pevent) : string :=
  match pe_text e with Some t => t | None => Sprintf w (pe_format e) (read h (pe_args e)) end.

(** What a program does: it makes arrays, prefixes traces (trace 0 has no prefix, each
    Prefix makes the next one) and logs events. *)
Inductive pop :=
| PMake (values : list arg)
| PPrefix (t : nat) (format : string) (args : slice)
| PLog (t : nat) (lazy : bool) (w : world) (format : string) (args : slice) (spares : nat -> list arg).
Record pstate := MkPS { ps_heap : heap; ps_traces : list ptrace; ps_events : list pevent }.
Definition pinit : pstate := MkPS [] [[]] [].
(** helpers.go:94-109 for a format that is not blank; trimming is in M_Decor *)
Definition pstep (s : pstate) (o : pop) : pstate :=
  match o with
  | PMake vs => MkPS (ps_heap s ++ [vs]) (ps_traces s) (ps_events s)
  | PPrefix t f a => MkPS (ps_heap s) (ps_traces s ++ [(f, a) :: nth t (ps_traces s) []]) (ps_events s)
  | PLog t lazy w f a spares =>
      let '(h, e) := plog (nth t (ps_traces s) []) lazy w f a spares (ps_heap s) in
      MkPS h (ps_traces s) (ps_events s ++ [e])
  end.
Definition prun (ops : list pop) : pstate := fold_left pstep ops pinit.
End Slice.
Arguments pop : clear implicits.
Arguments pstate : clear implicits.

(** Model of stringer.String called by any number of goroutines at once:
    trace_core.go:484-504.  One step is one atomic operation (Load or
    CompareAndSwap) or one formatting. *)
From Verif Require Import Go.

(** Where one call of String is. *)
Inductive scall :=
| AtLoad                      (* about to Load, line 486 *)
| AtFormat                    (* loaded an invalid value; about to format, line 493 *)
| AtSwap (s : string)         (* formatted s; about to CompareAndSwap, line 494 *)
| AtReload                    (* the swap failed; about to Load again, line 499 *)
| Returned (s : string)       (* lines 488, 495, 503 *)
| Panicked.                   (* line 501 *)

(** The cell [str] (None is zeroNullString), the calls (numbered; those not yet
    begun are at [AtLoad]), and, for the specification only, all texts that some
    formatting has produced. *)
Record sstate := MkS { cell : option string; calls : nat -> scall; formatted : list string }.

Definition set_call (i : nat) (c : scall) (f : nat -> scall) : nat -> scall :=
  fun j => if Nat.eqb j i then c else f j.

(** trace_core.go:484-504; [text] is what this formatting gives, which may differ
    from call to call. *)
Definition sstep_call (i : nat) (text : string) (st : sstate) : sstate :=
  match calls st i with
  | AtLoad =>                                                                    (* 486-489 *)
      match cell st with
      | Some s => MkS (cell st) (set_call i (Returned s) (calls st)) (formatted st)
      | None => MkS (cell st) (set_call i AtFormat (calls st)) (formatted st)
      end
  | AtFormat => MkS (cell st) (set_call i (AtSwap text) (calls st)) (text :: formatted st)   (* 492-493 *)
  | AtSwap s =>                                                                  (* 494-496 *)
      match cell st with
      | None => MkS (Some s) (set_call i (Returned s) (calls st)) (formatted st)
      | Some _ => MkS (cell st) (set_call i AtReload (calls st)) (formatted st)
      end
  | AtReload =>                                                                  (* 499-503 *)
      match cell st with
      | Some s => MkS (cell st) (set_call i (Returned s) (calls st)) (formatted st)
      | None => MkS (cell st) (set_call i Panicked (calls st)) (formatted st)
      end
  | Returned _ | Panicked => st
  end.

(** A schedule: which call moves, and what its formatting gives if it formats. *)
Definition srun (sched : list (nat * string)) (st : sstate) : sstate :=
  fold_left (fun st it => sstep_call (fst it) (snd it) st) sched st.

Definition sinit (c : option string) : sstate := MkS c (fun _ => AtLoad) [].

(** What the log of a trace used by several goroutines should show. *)
From Verif Require Import Go M_Strings M_Types S_Trace M_Trace M_Text M_Humanize M_Decor M_LogConc.
Open Scope string_scope.
Open Scope list_scope.

Section Spec.
Context {arg world pc : Type}.
Notation env := (env arg world pc).

(** The calls that are to be logged: events and Finish. *)
Definition is_logged (c : lcall arg) : bool := match c with LLog _ _ _ | LFinish => true | _ => false end.
(** The numbers of the first n calls of a program that are to be logged. *)
Definition logged_calls (p : list (lcall arg)) (n : nat) : list nat :=
  filter (fun k => match nth_error p k with Some c => is_logged c | None => false end) (seq 0 n).
(** The numbers of the calls of goroutine i that have a line, in the order of the lines. *)
Definition lines_by (i : nat) (out : list entry) : list nat :=
  flat_map (fun x => match en_call x with Some (j, n) => if Nat.eqb j i then [n] else [] | None => [] end) out.
(** The numbers of the calls of goroutine i that have reached the trace, in their order there. *)
Definition calls_by (i : nat) (calls : list (nat * nat * (env * call arg))) : list nat :=
  flat_map (fun x => let '(j, n, _) := x in if Nat.eqb j i then [n] else []) calls.
(** Goroutine i has returned from all its calls. *)
Definition returned (i : nat) (m : lmachine (arg := arg) (world := world) (pc := pc)) : Prop :=
  exists g, nth_error (lm_gors m) i = Some g /\ lg_todo g = [].
(** Call n of goroutine i. *)
Definition the_call (programs : list (list (lcall arg))) (i n : nat) (c : lcall arg) : Prop :=
  exists p, nth_error programs i = Some p /\ nth_error p n = Some c.
(** a line "done" *)
Definition is_done (programs : list (list (lcall arg))) (x : entry) : Prop :=
  exists i n, en_call x = Some (i, n) /\ the_call programs i n LFinish.
(** no Finish among these *)
Definition unfinished (calls : list (nat * nat * (env * call arg))) : Prop :=
  forall x, In x calls -> snd (snd x) <> CallFinish.
End Spec.

(** The lines of a text; the last one is what comes after the last newline. *)
Fixpoint split_lines (s : string) : list string :=
  match s with
  | "" => [""]
  | String a r =>
      if Ascii.eqb a (Ascii.ascii_of_nat 10) then "" :: split_lines r
      else match split_lines r with [] => [String a ""] | l :: ls => String a l :: ls end
  end.
Definition no_newline (s : string) : Prop := split_lines s = [s].

(** A process that uses core traces, with the settings of the package (trace_core.go:21-60). *)
From Verif Require Import Go M_Strings M_Types M_Frame S_Trace M_Trace.
Open Scope Z_scope.

Section Settings.
Context {arg world pc : Type}.
Variable Sprintf : world -> string -> list arg -> string.
Variable CallersFrames : list pc -> list rframe.
Notation env := (env arg world pc).
Notation coreTrace := (coreTrace arg pc).

Inductive set_op :=
| SetMax (n : Z)                                   (* SetTraceMaxEvents(n) *)
| SetStacks (enable : bool)                        (* SetTraceStacks(enable) *)
| NewTrace (source category : string)              (* New(ctx, source, category) *)
| Call (i : nat) (c : env * call arg).             (* a method of the trace made by New number i *)

(** the package variables and the traces made so far *)
Record process := MkProcess { ps_globals : globals; ps_traces : list coreTrace }.
(** clock, ID and pooled object used by New *)
Variable now : nat -> Z.
Variable ids : nat -> string.
Variable pooled : nat -> coreTrace.

Definition set_step (p : process) (o : set_op) : process :=
  match o with
  | SetMax n => MkProcess (SetTraceMaxEvents (ps_globals p) n) (ps_traces p)            (* trace_core.go:39-47 *)
  | SetStacks enable => MkProcess (SetTraceStacks (ps_globals p) enable) (ps_traces p)  (* trace_core.go:58-60 *)
  | NewTrace source category =>                                                         (* trace_core.go:92-98 *)
      let i := length (ps_traces p) in
      MkProcess (ps_globals p) (ps_traces p ++ [newCoreTrace (ps_globals p) (now i) (ids i) (pooled i) source category])
  | Call i c =>                                                                         (* trace_core.go:137-300 *)
      match nth_error (ps_traces p) i with
      | Some tr => MkProcess (ps_globals p) (firstn i (ps_traces p) ++ do_call Sprintf CallersFrames tr c :: skipn (S i) (ps_traces p))
      | None => p
      end
  end.
Definition set_run (ops : list set_op) : process := fold_left set_step ops (MkProcess initial_globals []).
End Settings.
Arguments set_op : clear implicits.

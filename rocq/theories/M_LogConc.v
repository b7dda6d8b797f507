(** Model of one trace with a log decorator (decorators.go:22-97) used by several goroutines
    at once.  Every method of the core trace runs under the trace's lock
    (trace_core.go:153-284), so it is one step; so is one Write to the destination, which
    has to be safe for concurrent use (os.Stderr and log.Logger are).  Whoever else writes
    to the destination, such as the other traces of the collector, may write at any time. *)
From Verif Require Import Go M_Strings M_Types S_Trace M_Trace M_Text M_Humanize M_Decor.
Open Scope string_scope.
Open Scope list_scope.
Open Scope Z_scope.

(** What a goroutine does to the trace: the event methods, Finish, SetMaxEvents, and
    reading the events. *)
Inductive lcall {arg : Type} :=
| LLog (k : kind) (format : string) (args : list arg)
| LFinish
| LSetMaxEvents (n : Z)
| LRead (n : Z) (stacks : bool).
Arguments lcall : clear implicits.
(** The steps of a goroutine. *)
Inductive lmicro {arg : Type} :=
| LWrite (format : string) (args : list arg)   (* decorators.go:93-96 *)
| LCore (c : call arg)                         (* a method of the core trace *)
| LDuration                                    (* decorators.go:82 *)
| LErrored                                     (* decorators.go:85 *)
| LDone.                                       (* decorators.go:84-90 *)
Arguments lmicro : clear implicits.
(** decorators.go:58-76 (the four event methods), 78-91 (Finish); SetMaxEvents and Events
    are those of the core trace *)
Definition lsteps {arg} (c : lcall arg) : list (lmicro arg) :=
  match c with
  | LLog k format args => [LWrite (if is_error_kind k then "ERROR: " ++ format else format)%string args; LCore (CallLog k format args)]
  | LFinish => [LCore CallFinish; LDuration; LErrored; LDone]
  | LSetMaxEvents n => [LCore (CallSetMaxEvents n)]
  | LRead n stacks => [LCore (CallEvents n stacks)]
  end.
(** a goroutine's calls one after another, each step with the number of its call *)
Fixpoint program_steps {arg} (n : nat) (p : list (lcall arg)) : list (nat * lmicro arg) :=
  match p with
  | [] => []
  | c :: p => map (pair n) (lsteps c) ++ program_steps (S n) p
  end.

(** log.Logger.Print (log.go, Output): a header, the text, and a newline unless the text
    ends in one; decorators.go:45-48 *)
Definition logger_entry (header s : string) : string :=
  (header ++ s ++ (if HasSuffix s newline then "" else newline))%string.

Section Machine.
Context {arg world pc : Type}.
Variable Sprintf : world -> string -> list arg -> string.
Variable CallersFrames : list pc -> list rframe.
Variable str : string -> arg.
Notation env := (env arg world pc).
Notation coreTrace := (coreTrace arg pc).

(** decorators.go:93-96: the text of one Write *)
Definition log_text (w : world) (id format : string) (args : list arg) : string :=
  Sprintf w (id ++ " " ++ TrimSuffix format newline ++ newline)%string args.

(** A goroutine: what it still has to do, and what Finish has read. *)
Record lgor := MkLG { lg_todo : list (nat * lmicro arg); lg_duration : Z; lg_errored : bool }.
(** One Write to the destination: by which call (the number of the goroutine and the number
    of its call; nothing: by somebody else, or when the trace was made), and the text. *)
Record entry := MkEntry { en_call : option (nat * nat); en_text : string }.
Record lmachine := MkLM {
  lm_core : coreTrace;
  lm_gors : list lgor;
  lm_out : list entry;
  lm_calls : list (nat * nat * (env * call arg))   (* for reference, the core methods so far *)
}.
(** decorators.go:27-36: the destination when the trace has been made *)
Definition lstart (w : world) (c : coreTrace) (before : list string) (programs : list (list (lcall arg))) : lmachine :=
  MkLM c (map (fun p => MkLG (program_steps 0 p) 0 false) programs)
    (map (MkEntry None) (before ++ [log_text w (ID c) "started, source '%s', category '%s'" [str (Source c); str (Category c)]])) [].

(** One step: goroutine i at [e], or somebody else's Write. *)
Inductive event := Step (i : nat) (e : env) | Others (text : string).
Definition lstep (m : lmachine) (x : event) : lmachine :=
  match x with
  | Others text => MkLM (lm_core m) (lm_gors m) (lm_out m ++ [MkEntry None text]) (lm_calls m)
  | Step i e =>
      match nth_error (lm_gors m) i with
      | Some (MkLG ((n, o) :: todo) d b) =>
          let next := fun d b => update i (MkLG todo d b) (lm_gors m) in
          match o with
          | LWrite format args =>
              MkLM (lm_core m) (next d b) (lm_out m ++ [MkEntry (Some (i, n)) (log_text (e_world e) (ID (lm_core m)) format args)]) (lm_calls m)
          | LCore c => MkLM (do_call Sprintf CallersFrames (lm_core m) (e, c)) (next d b) (lm_out m) (lm_calls m ++ [(i, n, (e, c))])
          | LDuration => MkLM (lm_core m) (next (Duration (e_now e) (lm_core m)) b) (lm_out m) (lm_calls m)
          | LErrored => MkLM (lm_core m) (next d (Errored (lm_core m))) (lm_out m) (lm_calls m)
          | LDone =>
              let outcome := if b then "errored" else "success" in
              MkLM (lm_core m) (next d b)
                (lm_out m ++ [MkEntry (Some (i, n)) (log_text (e_world e) (ID (lm_core m)) "done, %s, %s" [str outcome; str (HumanizeDuration d)])])
                (lm_calls m)
          end
      | _ => m
      end
  end.
Definition lrun (xs : list event) (m : lmachine) : lmachine := fold_left lstep xs m.
End Machine.

(** Model of one trace used by several goroutines at once: every method of the core trace
    runs under the trace's lock (trace_core.go:153-284), so it is one step; a snapshot
    (trace_static.go:24-77) is several steps, and so is a call on a trace with a publish
    decorator (decorators.go:128-153).  Publish holds the broker's lock from before the
    snapshot until after the sends (broker.go:24-49); somebody is subscribed all the time. *)
From Verif Require Import Go M_Types S_Trace M_Trace M_Text.
Open Scope list_scope.
Open Scope Z_scope.

(** The steps of a goroutine. *)
Inductive micro {arg : Type} :=
| MCall (c : call arg)                 (* a method of the core trace *)
| MLock                                (* broker.go:25 *)
| MFinished1                           (* trace_static.go:42 *)
| MEvents                              (* trace_static.go:46-50 *)
| MDuration                            (* trace_static.go:64, 30 *)
| MFinished                            (* trace_static.go:73, 31 *)
| MErrored                             (* trace_static.go:74, 32 *)
| MSend                                (* trace_static.go:65-76, broker.go:35-48 *)
| MAllEvents                           (* trace_static.go:33 *)
| MReturn.                             (* trace_static.go:24-35 *)
Arguments micro : clear implicits.

(** broker.go:24-49 with trace_static.go:40-77 *)
Definition publish_steps {arg} : list (micro arg) := [MLock; MFinished1; MEvents; MDuration; MFinished; MErrored; MSend].
(** What a goroutine does to the trace: the event methods and Finish of a trace with the
    publish decorator, the same on the bare core trace (Events is one of these), and
    NewSearchTrace. *)
Inductive gcall {arg : Type} := GPublished (c : call arg) | GBare (c : call arg) | GSearch.
Arguments gcall : clear implicits.
(** decorators.go:130-153; trace_static.go:24-35 *)
Definition steps_of {arg} (g : gcall arg) : list (micro arg) :=
  match g with
  | GPublished c => MCall c :: publish_steps
  | GBare c => [MCall c]
  | GSearch => [MDuration; MFinished; MErrored; MAllEvents; MReturn]
  end.

Section Machine.
Context {arg world pc : Type}.
Variable Sprintf : world -> string -> list arg -> string.
Variable CallersFrames : list pc -> list rframe.
Notation env := (env arg world pc).
Notation coreTrace := (coreTrace arg pc).

(** What a goroutine has read so far. *)
Record seen := MkSeen { se_active : bool; se_events : list Event; se_duration : Z; se_finished : bool; se_errored : bool }.
Definition nothing : seen := MkSeen false [] 0 false false.
Record goroutine := MkG { g_todo : list (micro arg); g_seen : seen }.
(** The trace, the goroutine that has the broker's lock, the goroutines, what has been
    published and what searches have found; and, for reference, the calls so far. *)
Record machine := MkM {
  m_core : coreTrace;
  m_lock : option nat;
  m_goroutines : list goroutine;
  m_streamed : list StaticTrace;
  m_searched : list StaticTrace;
  m_calls : history arg env
}.
Definition start (c : coreTrace) (programs : list (list (gcall arg))) : machine :=
  MkM c None (map (fun p => MkG (flat_map steps_of p) nothing) programs) [] [] [].

(** the static trace from what was read; source, ID, category and start time never change *)
Definition assemble (c : coreTrace) (str : string) (x : seen) : StaticTrace :=
  MkStatic (Source c) (ID c) (Category c) (Started c) (se_duration x) str (se_finished x) (se_errored x) (se_events x).

(** One step of goroutine i at [e]; nothing if it is done or has to wait for the lock. *)
Definition mstep (m : machine) (x : nat * env) : machine :=
  let '(i, e) := x in
  match nth_error (m_goroutines m) i with
  | Some (MkG (o :: todo) s) =>
      let next := fun s => update i (MkG todo s) (m_goroutines m) in
      match o with
      | MCall c => MkM (do_call Sprintf CallersFrames (m_core m) (e, c)) (m_lock m) (next s) (m_streamed m) (m_searched m) (m_calls m ++ [(e, c)])
      | MLock =>
          match m_lock m with
          | Some _ => m
          | None => MkM (m_core m) (Some i) (next s) (m_streamed m) (m_searched m) (m_calls m)
          end
      | MFinished1 =>
          MkM (m_core m) (m_lock m) (next (MkSeen (negb (Finished (m_core m))) (se_events s) (se_duration s) (se_finished s) (se_errored s)))
              (m_streamed m) (m_searched m) (m_calls m)
      | MEvents =>
          let n := if se_active s then 1 else -1 in
          let '(c, evs) := EventsDetail Sprintf CallersFrames e n false (m_core m) in
          MkM c (m_lock m) (next (MkSeen (se_active s) evs (se_duration s) (se_finished s) (se_errored s))) (m_streamed m) (m_searched m)
              (m_calls m ++ [(e, CallEvents n false)])
      | MAllEvents =>
          let '(c, evs) := EventsDetail Sprintf CallersFrames e (-1) true (m_core m) in
          MkM c (m_lock m) (next (MkSeen (se_active s) evs (se_duration s) (se_finished s) (se_errored s))) (m_streamed m) (m_searched m)
              (m_calls m ++ [(e, CallEvents (-1) true)])
      | MDuration =>
          MkM (m_core m) (m_lock m) (next (MkSeen (se_active s) (se_events s) (Duration (e_now e) (m_core m)) (se_finished s) (se_errored s)))
              (m_streamed m) (m_searched m) (m_calls m)
      | MFinished =>
          MkM (m_core m) (m_lock m) (next (MkSeen (se_active s) (se_events s) (se_duration s) (Finished (m_core m)) (se_errored s)))
              (m_streamed m) (m_searched m) (m_calls m)
      | MErrored =>
          MkM (m_core m) (m_lock m) (next (MkSeen (se_active s) (se_events s) (se_duration s) (se_finished s) (Errored (m_core m))))
              (m_streamed m) (m_searched m) (m_calls m)
      | MSend => MkM (m_core m) None (next s) (m_streamed m ++ [assemble (m_core m) (DurationString (se_duration s)) s]) (m_searched m) (m_calls m)
      | MReturn => MkM (m_core m) (m_lock m) (next s) (m_streamed m) (m_searched m ++ [assemble (m_core m) "" s]) (m_calls m)
      end
  | _ => m
  end.
Definition mrun (sched : list (nat * env)) (m : machine) : machine := fold_left mstep sched m.
End Machine.
Arguments goroutine : clear implicits.
Arguments machine : clear implicits.

(** Specification of snapshots taken while other goroutines use the trace: from the calls
    on the trace in the order in which they got its lock. *)
From Verif Require Import Go M_Types S_Trace M_Trace M_Text S_TraceView M_Snapshot.
Open Scope list_scope.
Open Scope Z_scope.

Section Spec.
Context {arg world pc : Type}.
Variable Sprintf : world -> string -> list arg -> string.
Variable CallersFrames : list pc -> list rframe.
Notation env := (env arg world pc).
Notation coreTrace := (coreTrace arg pc).
Notation history := (history arg env).
Notation run := (run Sprintf CallersFrames).
Variable c0 : coreTrace.

(** The five fields are read at five moments, each later than the one before. *)
Definition streamed_from (h : history) (st : StaticTrace) : Prop :=
  exists h1 h2 h3 h4 h5 rest e (now : Z),
    let n := if Finished (run h1 c0) then -1 else 1 in
    let read := (e, CallEvents n false) in
    h = h1 ++ h2 ++ [read] ++ h3 ++ h4 ++ h5 ++ rest /\
    TraceEvents st = snd (EventsDetail Sprintf CallersFrames e n false (run (h1 ++ h2) c0)) /\
    TraceDuration st = Duration now (run (h1 ++ h2 ++ [read] ++ h3) c0) /\
    TraceFinished st = Finished (run (h1 ++ h2 ++ [read] ++ h3 ++ h4) c0) /\
    TraceErrored st = Errored (run (h1 ++ h2 ++ [read] ++ h3 ++ h4 ++ h5) c0) /\
    TraceSource st = Source c0 /\ TraceID st = ID c0 /\ TraceCategory st = Category c0 /\ TraceStarted st = Started c0.
Definition searched_from (h : history) (st : StaticTrace) : Prop :=
  exists h1 h2 h3 h4 rest (now : Z) e,
    let read := (e, CallEvents (-1) true) in
    h = h1 ++ h2 ++ h3 ++ h4 ++ [read] ++ rest /\
    TraceDuration st = Duration now (run h1 c0) /\
    TraceFinished st = Finished (run (h1 ++ h2) c0) /\
    TraceErrored st = Errored (run (h1 ++ h2 ++ h3) c0) /\
    TraceEvents st = snd (Events Sprintf CallersFrames e (run (h1 ++ h2 ++ h3 ++ h4) c0)) /\
    TraceSource st = Source c0 /\ TraceID st = ID c0 /\ TraceCategory st = Category c0 /\ TraceStarted st = Started c0.

(** An event of a trace: it was logged before the trace was finished, and its text was made
    then or, if it is lazy, by some read. *)
Definition event_of_trace (h : history) (ev : Event) : Prop :=
  exists e k f a r, In (e, CallLog k f a) (logs h) /\ In r h /\ is_read r = true /\
    When ev = e_now e /\ IsError ev = is_error_kind k /\
    What ev = Sprintf (e_world (if is_lazy_kind k then fst r else e)) f a.
Definition truncation_marker (h : history) (ev : Event) : Prop :=
  exists r n, In r h /\ is_read r = true /\ 0 < n <= zlen (logs h) /\ ev = truncated_event (e_now (fst r)) n.
End Spec.

(** Programs in which every event call and every Finish goes through the publisher. *)
Definition publishes {arg} (c : call arg) : bool := match c with CallLog _ _ _ | CallFinish => true | _ => false end.
Definition through_publisher {arg} (g : gcall arg) : bool := match g with GBare c => negb (publishes c) | _ => true end.
(** Nothing left to do. *)
Definition all_returned {arg world pc} (m : machine arg world pc) : Prop := Forall (fun g => g_todo g = []) (m_goroutines m).

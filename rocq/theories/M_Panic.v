(** What a panic inside a call leaves behind: the locks (M_Locks.v) and the trace (M_Trace.v).
    A call panics where code of the program runs inside it: a trace implementation of its own
    (NewTrace of the collector's configuration) asked by a search or a broker, a regular
    expression of a filter, a send on a closed channel, formatting. *)
From Verif Require Import Go M_Strings M_Types S_Trace M_Trace M_Locks.
Open Scope list_scope.

(** Is Unlock deferred directly after Lock?  The set of categories: ringbuffer.go:205-206, 219-220,
    236-237.  A category: ringbuffer.go:32-33, 96-97, 132-133, 157-158.  The broker: broker.go:25-26,
    62-63, 82-83, 100-101.  A trace: trace_core.go:154-155, 165-166, 181-182, 197-198, 215-216,
    233-234, 245-246, 252-253, 263-264, 289-290, 303-304. *)
Definition deferred (l : lock) : bool :=
  match l with LSet _ => true | LRing _ _ => true | LBroker _ => true | LTrace _ => true end.

(** The locks held after some actions, the last one taken first *)
Fixpoint held_after (H : list lock) (p : list action) : list lock :=
  match p with
  | [] => H
  | Acq l :: p => held_after (l :: H) p
  | Rel l :: p => held_after (remove lock_eq_dec l H) p
  end.
(** A call that panics after its first [k] actions runs the deferred Unlocks, last in, first out. *)
Definition panics_at (k : nat) (p : list action) : list action :=
  firstn k p ++ map Rel (filter deferred (held_after [] (firstn k p))).

(** A call, and after how many of its actions it panics, if it does.  The goroutine recovers
    somewhere above the call and goes on with its next one. *)
Definition attempt : Type := operation * option nat.
Definition attempt_locks (a : attempt) : list action :=
  match snd a with
  | None => locks_of (fst a)
  | Some k => panics_at k (locks_of (fst a))
  end.

(** ** Logging, when formatting may panic *)
Section Logging.
Context {arg world pc : Type}.
(** fmt.Sprintf, None: it panics *)
Variable Sprintf : world -> string -> list arg -> option string.
(** The text where there is one *)
Definition text (w : world) (format : string) (args : list arg) : string :=
  match Sprintf w format args with Some s => s | None => EmptyString end.
(** trace_core.go:172-177 and 206-211: newCoreEvent formats (359-361, 471) before append assigns
    tr.events.  The second component: the call panics. *)
Definition add_event_p (e : env arg world pc) (iserr : bool) (format : string) (args : list arg) (tr : coreTrace arg pc) : coreTrace arg pc * bool :=
  if (ct_eventsmax tr <=? zlen (ct_events tr))%Z then (add_event text e false iserr format args tr, false)
  else match Sprintf (e_world e) format args with
       | None => (tr, true)
       | Some _ => (add_event text e false iserr format args tr, false)
       end.
(** trace_core.go:164-178 *)
Definition Tracef_p (e : env arg world pc) (format : string) (args : list arg) (tr : coreTrace arg pc) : coreTrace arg pc * bool :=
  if ct_finished tr then (tr, false) else add_event_p e false format args tr.
(** trace_core.go:196-212: errored is set (204) before the event is made *)
Definition Errorf_p (e : env arg world pc) (format : string) (args : list arg) (tr : coreTrace arg pc) : coreTrace arg pc * bool :=
  if ct_finished tr then (tr, false) else add_event_p e true format args (mark_errored tr).
End Logging.

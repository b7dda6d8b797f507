(** Model of the core trace: trace_core.go. *)
From Verif Require Import Go M_Strings M_Types S_Trace.
Open Scope string_scope.
Open Scope Z_scope.

(** trace_core.go:21-25 *)
Definition traceMaxEventsMin : Z := 10.
Definition traceMaxEventsDefault : Z := 1000.
Definition traceMaxEventsMax : Z := 10000.

(** runtime.Frame: the three fields that are read *)
Record rframe := MkRFrame { rf_Function : string; rf_File : string; rf_Line : Z }.

(** trace_core.go:426-440 ignoreStackFrameFunction *)
Definition ignoreStackFrameFunction (function : string) : bool :=
  if negb (HasPrefix function "github.com/peterbourgon/trc") then false
  else if HasSuffix function "Tracef" || HasSuffix function "Errorf" then true
  else if HasPrefix function "github.com/peterbourgon/trc.Region" then true
  else if HasPrefix function "github.com/peterbourgon/trc/eztrc." then true
  else false.

Section CoreTrace.
(** [arg]: the values passed as args; they may point to things that change, so
    formatting reads a [world].  [Sprintf] is fmt.Sprintf.  [pc] is a program
    counter, [CallersFrames] what runtime.CallersFrames yields for a slice of
    them (possibly more frames than counters, because of inlining). *)
Context {arg world pc : Type}.
Variable Sprintf : world -> string -> list arg -> string.
Variable CallersFrames : list pc -> list rframe.

(** trace_core.go:453-464.  [z_str]: the atomic value; None is zeroNullString. *)
Record stringer := MkStringer { z_fmt : string; z_args : list arg; z_str : option string }.

(** trace_core.go:466-473, [z] is the object from the pool *)
Definition newNormalStringer (z : stringer) (w : world) (format : string) (args : list arg) : stringer :=
  let z := MkStringer format (z_args z) (z_str z) in
  let z := MkStringer (z_fmt z) args (z_str z) in
  MkStringer (z_fmt z) (z_args z) (Some (Sprintf w (z_fmt z) (z_args z))).

(** trace_core.go:475-482 *)
Definition newLazyStringer (z : stringer) (format : string) (args : list arg) : stringer :=
  let z := MkStringer format (z_args z) (z_str z) in
  let z := MkStringer (z_fmt z) args (z_str z) in
  MkStringer (z_fmt z) (z_args z) None.

(** trace_core.go:484-504 String, when no other goroutine is inside String of
    the same stringer (the concurrent case is M_Stringer). *)
Definition stringer_String (w : world) (z : stringer) : stringer * string :=
  match z_str z with
  | Some s => (z, s)
  | None => let s := Sprintf w (z_fmt z) (z_args z) in (MkStringer (z_fmt z) (z_args z) (Some s), s)
  end.

(** trace_core.go:334-341.  [ce_pc] is pc[:pcn]. *)
Record coreEvent := MkCE {
  ce_when : Z;
  ce_what : stringer;
  ce_pc : list pc;
  ce_stack : list Frame;
  ce_iserr : bool
}.

(** What a call takes from its environment: the clock, the argument store, the
    program counters of the caller's stack (after skipping 3), and the objects
    the pools hand out, in whatever state they are. *)
Record env := MkEnv {
  e_now : Z;
  e_world : world;
  e_pcs : list pc;
  e_cev : coreEvent;
  e_z : stringer
}.

(** trace_core.go:350-374 newCoreEvent.  [pc] is an array of 8; only pc[:pcn] is
    ever read, so the model keeps only that part. *)
Definition newCoreEvent (e : env) (lazy iserr nostack : bool) (format : string) (args : list arg) : coreEvent :=
  let cev := e_cev e in
  let cev := MkCE (e_now e) (ce_what cev) (ce_pc cev) (ce_stack cev) (ce_iserr cev) in          (* 355 *)
  let what := if lazy then newLazyStringer (e_z e) format args
              else newNormalStringer (e_z e) (e_world e) format args in                         (* 357-361 *)
  let cev := MkCE (ce_when cev) what (ce_pc cev) (ce_stack cev) (ce_iserr cev) in
  let cev := MkCE (ce_when cev) (ce_what cev) (ce_pc cev) (firstn 0 (ce_stack cev)) (ce_iserr cev) in (* 363 *)
  let cev := MkCE (ce_when cev) (ce_what cev)
                  (if nostack then [] else firstn 8 (e_pcs e)) (ce_stack cev) (ce_iserr cev) in (* 365-369 *)
  MkCE (ce_when cev) (ce_what cev) (ce_pc cev) (ce_stack cev) iserr.                            (* 371 *)

(** trace_core.go:385-395: the loop over the frames.  Next returns the first
    remaining frame and whether another one follows; the body runs only while
    another one follows. *)
Fixpoint getStack_loop (frames : list rframe) (stack : list Frame) : list Frame :=
  match frames with
  | fr :: (_ :: _) as rest =>
      getStack_loop rest
        (if negb (ignoreStackFrameFunction (rf_Function fr))
         then stack ++ [MkFrame (rf_Function fr) (rf_File fr ++ ":" ++ itoa (rf_Line fr))]
         else stack)
  | _ => stack
  end%list.

(** trace_core.go:376-398 getStack *)
Definition getStack (cev : coreEvent) : coreEvent * list Frame :=
  match ce_pc cev with
  | [] => (cev, [])                                              (* pcn <= 0 *)
  | _ =>
      match ce_stack cev with
      | _ :: _ => (cev, ce_stack cev)
      | [] =>
          let stack := getStack_loop (CallersFrames (ce_pc cev)) (ce_stack cev) in
          (MkCE (ce_when cev) (ce_what cev) (ce_pc cev) stack (ce_iserr cev), stack)
      end
  end.

(** trace_core.go:411-422: one iteration of snapshotEvents *)
Definition snapshotEvent (w : world) (cev : coreEvent) (stacks : bool) : coreEvent * Event :=
  let '(cev, stack) := if stacks then getStack cev else (cev, []) in
  let '(z, what) := stringer_String w (ce_what cev) in
  (MkCE (ce_when cev) z (ce_pc cev) (ce_stack cev) (ce_iserr cev),
   MkEvent (ce_when cev) what stack (ce_iserr cev)).

(** trace_core.go:409-424 snapshotEvents *)
Fixpoint snapshotEvents (w : world) (cevs : list coreEvent) (stacks : bool) : list coreEvent * list Event :=
  match cevs with
  | [] => ([], [])
  | cev :: cevs =>
      let '(cev, ev) := snapshotEvent w cev stacks in
      let '(cevs, evs) := snapshotEvents w cevs stacks in
      (cev :: cevs, ev :: evs)
  end.

(** trace_core.go:72-85 *)
Record coreTrace := MkCT {
  ct_source : string;
  ct_id : string;
  ct_category : string;
  ct_start : Z;
  ct_errored : bool;
  ct_finished : bool;
  ct_duration : Z;
  ct_nostack : bool;
  ct_events : list coreEvent;
  ct_eventsmax : Z;
  ct_truncated : Z
}.

(** package state: traceMaxEvents (27-31) and traceNoStacks (49) *)
Record globals := MkGlobals { g_maxEvents : Z; g_noStacks : bool }.
Definition initial_globals : globals := MkGlobals traceMaxEventsDefault false.

(** trace_core.go:39-47 *)
Definition SetTraceMaxEvents (g : globals) (n : Z) : globals :=
  let n := if n <? traceMaxEventsMin then traceMaxEventsMin else n in
  let n := if traceMaxEventsMax <? n then traceMaxEventsMax else n in
  MkGlobals n (g_noStacks g).

(** trace_core.go:58-60 *)
Definition SetTraceStacks (g : globals) (enable : bool) : globals :=
  MkGlobals (g_maxEvents g) (negb enable).

(** trace_core.go:112-128 newCoreTrace, applied to whatever object the pool
    returned ([zeroCoreTrace] if it allocated a new one).  [id] is the ULID. *)
Definition newCoreTrace (g : globals) (now : Z) (id : string) (pooled : coreTrace)
           (source category : string) : coreTrace :=
  MkCT source id category now false false 0 (g_noStacks g) (firstn 0 (ct_events pooled))
       (g_maxEvents g) 0.

(** &coreTrace{} *)
Definition zeroCoreTrace : coreTrace := MkCT "" "" "" 0 false false 0 false [] 0 0.

(** trace_core.go:137-151 *)
Definition ID (tr : coreTrace) := ct_id tr.
Definition Source (tr : coreTrace) := ct_source tr.
Definition Category (tr : coreTrace) := ct_category tr.
Definition Started (tr : coreTrace) := ct_start tr.

(** trace_core.go:153-162 *)
Definition Duration (now : Z) (tr : coreTrace) : Z :=
  if ct_finished tr then ct_duration tr else now - ct_start tr.

(** trace_core.go:172-177, 188-193, 206-211, 224-229: the switch shared by the
    four event methods *)
Definition add_event (e : env) (lazy iserr : bool) (format : string) (args : list arg) (tr : coreTrace) : coreTrace :=
  if ct_eventsmax tr <=? zlen (ct_events tr)
  then MkCT (ct_source tr) (ct_id tr) (ct_category tr) (ct_start tr) (ct_errored tr) (ct_finished tr)
            (ct_duration tr) (ct_nostack tr) (ct_events tr) (ct_eventsmax tr) (ct_truncated tr + 1)
  else MkCT (ct_source tr) (ct_id tr) (ct_category tr) (ct_start tr) (ct_errored tr) (ct_finished tr)
            (ct_duration tr) (ct_nostack tr)
            (ct_events tr ++ [newCoreEvent e lazy iserr (ct_nostack tr) format args])%list
            (ct_eventsmax tr) (ct_truncated tr).

(** tr.errored = true *)
Definition mark_errored (tr : coreTrace) : coreTrace :=
  MkCT (ct_source tr) (ct_id tr) (ct_category tr) (ct_start tr) true (ct_finished tr)
       (ct_duration tr) (ct_nostack tr) (ct_events tr) (ct_eventsmax tr) (ct_truncated tr).

(** trace_core.go:164-178 *)
Definition Tracef (e : env) (format : string) (args : list arg) (tr : coreTrace) : coreTrace :=
  if ct_finished tr then tr else add_event e false false format args tr.

(** trace_core.go:180-194 *)
Definition LazyTracef (e : env) (format : string) (args : list arg) (tr : coreTrace) : coreTrace :=
  if ct_finished tr then tr else add_event e true false format args tr.

(** trace_core.go:196-212 *)
Definition Errorf (e : env) (format : string) (args : list arg) (tr : coreTrace) : coreTrace :=
  if ct_finished tr then tr else add_event e false true format args (mark_errored tr).

(** trace_core.go:214-230 *)
Definition LazyErrorf (e : env) (format : string) (args : list arg) (tr : coreTrace) : coreTrace :=
  if ct_finished tr then tr else add_event e true true format args (mark_errored tr).

(** trace_core.go:232-242 *)
Definition Finish (now : Z) (tr : coreTrace) : coreTrace :=
  if ct_finished tr then tr
  else MkCT (ct_source tr) (ct_id tr) (ct_category tr) (ct_start tr) (ct_errored tr) true
            (now - ct_start tr) (ct_nostack tr) (ct_events tr) (ct_eventsmax tr) (ct_truncated tr).

(** trace_core.go:244-256 *)
Definition Finished (tr : coreTrace) : bool := ct_finished tr.
Definition Errored (tr : coreTrace) : bool := ct_errored tr.

(** trace_core.go:274-279 *)
Definition truncated_event (now truncated : Z) : Event :=
  MkEvent now ("(truncated event count " ++ itoa truncated ++ ")") [] false.

(** trace_core.go:262-284 EventsDetail.  Reading caches texts and stacks in the
    events, so the new trace is returned too. *)
Definition EventsDetail (e : env) (n : Z) (stacks : bool) (tr : coreTrace) : coreTrace * list Event :=
  let len := zlen (ct_events tr) in
  let n := if (n <=? 0) || (len <? n) then len else n in
  let k := Z.to_nat (len - n) in
  let '(latest, events) := snapshotEvents (e_world e) (skipn k (ct_events tr)) stacks in
  let events := if 0 <? ct_truncated tr
                then tl (events ++ [truncated_event (e_now e) (ct_truncated tr)])
                else events in
  (MkCT (ct_source tr) (ct_id tr) (ct_category tr) (ct_start tr) (ct_errored tr) (ct_finished tr)
        (ct_duration tr) (ct_nostack tr) (firstn k (ct_events tr) ++ latest) (ct_eventsmax tr) (ct_truncated tr),
   events)%list.

(** trace_core.go:258-260 *)
Definition Events (e : env) (tr : coreTrace) : coreTrace * list Event := EventsDetail e (-1) true tr.

(** trace_core.go:288-300 *)
Definition SetMaxEvents (max : Z) (tr : coreTrace) : coreTrace :=
  let m := if max <? traceMaxEventsMin then traceMaxEventsMin
           else if traceMaxEventsMax <? max then traceMaxEventsMax
           else max in
  MkCT (ct_source tr) (ct_id tr) (ct_category tr) (ct_start tr) (ct_errored tr) (ct_finished tr)
       (ct_duration tr) (ct_nostack tr) (ct_events tr) m (ct_truncated tr).

(** trace_core.go:302-318 Free: the trace after the call, and whether it was put
    into the pool. *)
Definition Free (tr : coreTrace) : coreTrace * bool :=
  if negb (ct_finished tr) then (tr, false)
  else (MkCT (ct_source tr) (ct_id tr) (ct_category tr) (ct_start tr) (ct_errored tr) (ct_finished tr)
             (ct_duration tr) (ct_nostack tr) (firstn 0 (ct_events tr)) (ct_eventsmax tr) (ct_truncated tr), true).

End CoreTrace.

Arguments stringer : clear implicits.
Arguments coreEvent : clear implicits.
Arguments coreTrace : clear implicits.
Arguments env : clear implicits.

(** The methods as a state machine over the calls of S_Trace. *)
Section Calls.
Context {arg world pc : Type}.
Variable Sprintf : world -> string -> list arg -> string.
Variable CallersFrames : list pc -> list rframe.
Notation env := (env arg world pc).
Notation coreTrace := (coreTrace arg pc).

Definition log_call (k : kind) (e : env) (format : string) (args : list arg) (tr : coreTrace) : coreTrace :=
  match k with
  | KTracef => Tracef Sprintf e format args tr
  | KLazyTracef => LazyTracef Sprintf e format args tr
  | KErrorf => Errorf Sprintf e format args tr
  | KLazyErrorf => LazyErrorf Sprintf e format args tr
  end.

Definition do_call (tr : coreTrace) (c : env * call arg) : coreTrace :=
  match snd c with
  | CallLog k format args => log_call k (fst c) format args tr
  | CallFinish => Finish (e_now (fst c)) tr
  | CallSetMaxEvents n => SetMaxEvents n tr
  | CallEvents n stacks => fst (EventsDetail Sprintf CallersFrames (fst c) n stacks tr)
  end.

Definition run (h : history arg env) (tr : coreTrace) : coreTrace := fold_left do_call h tr.
End Calls.

(** C13: a process with its package-level settings and its traces. *)
Section Process.
Context {arg pc : Type}.
Notation coreTrace := (coreTrace arg pc).

Record proc := MkProc { p_globals : globals; p_traces : list coreTrace }.

(** clock, ID and pooled object used by New *)
Variable now : nat -> Z.
Variable ids : nat -> string.
Variable pooled : nat -> coreTrace.

(** trace_core.go:39-47, 92-98 (the trace), 288-300 *)
Definition new_trace (p : proc) (source category : string) : proc :=
  let i := length (p_traces p) in
  MkProc (p_globals p)
         (p_traces p ++ [newCoreTrace (p_globals p) (now i) (ids i) (pooled i) source category])%list.
Definition set_trace_max (p : proc) (n : Z) : proc :=
  MkProc (SetTraceMaxEvents (p_globals p) n) (p_traces p).
Definition set_max (p : proc) (i : nat) (n : Z) : proc :=
  match nth_error (p_traces p) i with
  | Some tr => MkProc (p_globals p) (firstn i (p_traces p) ++ SetMaxEvents n tr :: skipn (S i) (p_traces p))%list
  | None => p
  end.
Definition initial_proc : proc := MkProc initial_globals [].

Definition proc_step (p : proc) (o : proc_op) : proc :=
  match o with
  | PSetTraceMaxEvents n => set_trace_max p n
  | PNew source category => new_trace p source category
  | PSetMaxEvents i n => set_max p i n
  end.
Definition proc_run (ops : list proc_op) : proc := fold_left proc_step ops initial_proc.
End Process.
Arguments proc : clear implicits.

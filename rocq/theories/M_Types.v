(** Event and Frame (trace.go:90-103) *)
From Verif Require Import Go.

(** trace.go:100-103 *)
Record Frame := MkFrame { Function : string; FileLine : string }.

(** trace.go:92-97.  A nil stack and an empty stack are not distinguished here
    (the JSON model distinguishes missing from present lists). *)
Record Event := MkEvent { When : Z; What : string; Stack : list Frame; IsError : bool }.

(** trace_static.go:8-19.  TraceDurationSec is the same duration as a float and is
    not modelled; TraceDurationStr is "" for search traces. *)
Record StaticTrace := MkStatic {
  TraceSource : string;
  TraceID : string;
  TraceCategory : string;
  TraceStarted : Z;
  TraceDuration : Z;
  TraceDurationStr : string;
  TraceFinished : bool;
  TraceErrored : bool;
  TraceEvents : list Event
}.

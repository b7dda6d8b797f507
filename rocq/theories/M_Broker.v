(** Model of broker.go and of NewStreamTrace (trace_static.go:40-77) on foreign traces. *)
From Verif Require Import Go M_Strings M_Types M_Filter M_Text.
Open Scope string_scope.
Open Scope list_scope.
Open Scope Z_scope.

(** broker.go:112-121 *)
Record StreamStats := MkStreamStats { Skips : Z; Sends : Z; Drops : Z }.
Definition zero_stats : StreamStats := MkStreamStats 0 0 0.

(** A Go channel of traces, as its users see it: its capacity, the values in its buffer,
    how many goroutines are blocked receiving from it, and the values handed to receivers
    so far.  Closing a channel is left out. *)
Record chan := MkChan { ch_cap : Z; ch_buffer : list StaticTrace; ch_waiting : Z; ch_received : list StaticTrace }.
Definition make_chan (cap : Z) : chan := MkChan cap [] 0 [].
(** select { case ch <- tr: ... default: ... }; None: the default branch *)
Definition try_send (c : chan) (tr : StaticTrace) : option chan :=
  if 0 <? ch_waiting c then Some (MkChan (ch_cap c) (ch_buffer c) (ch_waiting c - 1) (ch_received c ++ [tr]))
  else if zlen (ch_buffer c) <? ch_cap c then Some (MkChan (ch_cap c) (ch_buffer c ++ [tr]) (ch_waiting c) (ch_received c))
  else None.
(** <-ch by a user: takes a value or blocks *)
Definition receive (c : chan) : chan :=
  match ch_buffer c with
  | tr :: buffer => MkChan (ch_cap c) buffer (ch_waiting c) (ch_received c ++ [tr])
  | [] => MkChan (ch_cap c) [] (ch_waiting c + 1) (ch_received c)
  end.
(** a user that is blocked receiving stops waiting: another case of its select was ready *)
Definition give_up (c : chan) : chan :=
  if 0 <? ch_waiting c then MkChan (ch_cap c) (ch_buffer c) (ch_waiting c - 1) (ch_received c) else c.

Section Broker.
Context {RE : Type}.
Variable Compile : string -> RE + string.
Variable MatchString : RE -> string -> bool.
Notation Filter := (Filter RE).

(** broker.go:128-132.  The channel is the key it is stored under. *)
Record subscriber := MkSub { sub_filter : Filter; sub_stats : StreamStats }.

(** broker.go:10-13 and the world around the broker: the channels, by name (a name stands
    for the identity of a channel), and the calls of Stream that wait for their context. *)
Record bstate := MkB { b_subs : list (string * subscriber); b_chans : string -> chan; b_blocked : list string }.
Definition set_chan (chans : string -> chan) (name : string) (c : chan) : string -> chan :=
  fun n => if String.eqb n name then c else chans n.
(** delete(m, k) *)
Fixpoint map_delete {V} (k : string) (m : list (string * V)) : list (string * V) :=
  match m with
  | [] => []
  | (k', v) :: m => if String.eqb k k' then m else (k', v) :: map_delete k m
  end.

(** broker.go:36-48: the loop, for the keys in the order the run-time chose *)
Fixpoint publish_loop (names : list string) (str : StaticTrace) (s : bstate) : res bstate :=
  match names with
  | [] => Ok s
  | name :: names =>
      match map_get name (b_subs s) with
      | None => Panic
      | Some sub =>
          let '(f, allowed) := Allow Compile MatchString (sub_filter sub) str in
          let st := sub_stats sub in
          if negb allowed then
            publish_loop names str
              (MkB (map_set name (MkSub f (MkStreamStats (Skips st + 1) (Sends st) (Drops st))) (b_subs s)) (b_chans s) (b_blocked s))
          else
            match try_send (b_chans s name) str with
            | Some c =>
                publish_loop names str
                  (MkB (map_set name (MkSub f (MkStreamStats (Skips st) (Sends st + 1) (Drops st))) (b_subs s))
                       (set_chan (b_chans s) name c) (b_blocked s))
            | None =>
                publish_loop names str
                  (MkB (map_set name (MkSub f (MkStreamStats (Skips st) (Sends st) (Drops st + 1))) (b_subs s)) (b_chans s) (b_blocked s))
            end
      end
  end.

(** broker.go:24-49.  [str] is NewStreamTrace(tr), which is only computed when there is a
    subscriber, and may panic. *)
Definition Publish (order : list string -> list string) (str : res StaticTrace) (s : bstate) : res bstate :=
  if zlen (b_subs s) <=? 0 then Ok s
  else str <- str ;; publish_loop (order (map_keys (b_subs s))) str s.

(** What happens in a process with a broker. *)
Inductive bop :=
| BStream (ch : string) (f : Filter)      (* a call of Stream *)
| BDone (ch : string)                     (* the context of a call of Stream on ch is cancelled *)
| BPublish (order : list string -> list string) (str : res StaticTrace)
| BStats (ch : string)                    (* a call of StreamStats *)
| BReceive (ch : string)                  (* somebody receives from the channel *)
| BGiveUp (ch : string).                  (* somebody blocked receiving from it stops waiting *)
Inductive bresult :=
| RNone                                   (* nothing returned yet, or nothing to return *)
| RError (err : string)
| RStats (stats : StreamStats)
| RPanic.

(** broker.go:61-79: up to the wait for the context *)
Definition Stream_begin (ch : string) (f : Filter) (s : bstate) : bstate * bresult :=
  match map_get ch (b_subs s) with
  | Some _ => (s, RError "already subscribed")
  | None => (MkB (map_set ch (MkSub f zero_stats) (b_subs s)) (b_chans s) (ch :: b_blocked s), RNone)
  end.
Fixpoint remove_one (ch : string) (l : list string) : list string :=
  match l with [] => [] | x :: l => if String.eqb ch x then l else x :: remove_one ch l end.
(** broker.go:81-95: after it; the returned error ctx.Err() is left out *)
Definition Stream_end (ch : string) (s : bstate) : bstate * bresult :=
  let sub := map_get ch (b_subs s) in
  let s := MkB (map_delete ch (b_subs s)) (b_chans s) (b_blocked s) in
  match sub with
  | None => (s, RError "not subscribed (programmer error)")
  | Some sub => (s, RStats (sub_stats sub))
  end.
(** broker.go:99-109 *)
Definition StreamStats_ (ch : string) (s : bstate) : bresult :=
  match map_get ch (b_subs s) with
  | None => RError "not subscribed"
  | Some sub => RStats (sub_stats sub)
  end.

(** One step.  A context is only cancelled for a call that waits (otherwise nothing
    happens); a panic in Publish unlocks the broker and leaves it as it was. *)
Definition b_step (s : bstate) (o : bop) : bstate * bresult :=
  match o with
  | BStream ch f => Stream_begin ch f s
  | BDone ch =>
      if existsb (String.eqb ch) (b_blocked s)
      then Stream_end ch (MkB (b_subs s) (b_chans s) (remove_one ch (b_blocked s)))
      else (s, RNone)
  | BPublish order str => match Publish order str s with Ok s' => (s', RNone) | Panic => (s, RPanic) end
  | BStats ch => (s, StreamStats_ ch s)
  | BReceive ch => (MkB (b_subs s) (set_chan (b_chans s) ch (receive (b_chans s ch))) (b_blocked s), RNone)
  | BGiveUp ch => (MkB (b_subs s) (set_chan (b_chans s) ch (give_up (b_chans s ch))) (b_blocked s), RNone)
  end.
(** NewBroker (broker.go:16-20), with channels of the given capacities *)
Definition b_init (caps : string -> Z) : bstate := MkB [] (fun ch => make_chan (caps ch)) [].
Definition b_run (caps : string -> Z) (h : list bop) : bstate := fold_left (fun s o => fst (b_step s o)) h (b_init caps).
End Broker.
Arguments bop : clear implicits.
Arguments bstate : clear implicits.
Arguments subscriber : clear implicits.

(** trace_static.go:40-77 for a trace without EventsDetail whose observers return the
    fields of [tr].  The second result is the slice returned by tr.Events() afterwards: if
    the trace returned its own slice (as StaticTrace does, trace_static.go:116), that is
    what the trace now holds.  (TraceDurationSec, a float, is left out.) *)
Definition erase_stack (ev : Event) : Event := MkEvent (When ev) (What ev) [] (IsError ev).
Definition NewStreamTrace_plain (tr : StaticTrace) : res (StaticTrace * list Event) :=
  let isActive := negb (TraceFinished tr) in
  '(events, own) <-
    (if isActive then
       match rev (TraceEvents tr) with
       | [] => Panic                                  (* events[len(events)-1:] *)
       | ev :: before => Ok ([erase_stack ev], rev before ++ [erase_stack ev])
       end
     else Ok (map erase_stack (TraceEvents tr), map erase_stack (TraceEvents tr))) ;;
  Ok (MkStatic (TraceSource tr) (TraceID tr) (TraceCategory tr) (TraceStarted tr) (TraceDuration tr)
               (DurationString (TraceDuration tr)) (TraceFinished tr) (TraceErrored tr) events, own).

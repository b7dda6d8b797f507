(** Several stream connections on one server: what the handlers say because of what they are
    told.  trcweb/trace_server.go:228-364 (handleStream) logs to the trace of its own request,
    which the collector publishes (decorators.go:108-153, collector.go:123) to every stream,
    among them the one that is being served.

    M_StreamHttp.v models one connection in detail, with everything else on the broker
    arbitrary.  Here there are any number of connections, and the publishes are not
    arbitrary: the program publishes what it likes, and a handler publishes either of its own
    accord (start, init, tick, stop: the log lines at :250-267, :274, :282, :298, :306,
    :313-331, :353, :357, and those of Middleware) or because a trace it received could not be
    encoded or written (:340, :348).  Simplified: the steps of its own accord may happen at
    any time and any number of times; what is written to the client is left out. *)
From Verif Require Import Go M_Types M_Filter M_Broker S_Broker M_StreamHttp.
Open Scope string_scope.
Open Scope list_scope.
Open Scope Z_scope.

(** Why something was published. *)
Inductive cause :=
| Program                               (* by the program, about its traces *)
| Logged (conn : string)                (* by the handler of a connection, of its own accord *)
| Echo (conn : string).                 (* by the handler, because a trace was not written *)

Section Server.
Context {RE : Type}.
Variable Compile : string -> RE + string.
Variable MatchString : RE -> string -> bool.
Notation bop := (bop RE).
(** The capacities of the channels; which of them are tracec of a connection (:262), and the
    ID of the trace of its request (:231). *)
Variable caps : string -> Z.
Variable is_conn : string -> bool.
Variable own : string -> string.
Notation run := (b_run Compile MatchString caps).

Record server := MkServer {
  v_history : list bop;                 (* what happened on the broker *)
  v_handler : string -> handler;        (* of each connection *)
  v_said : list (cause * StaticTrace)   (* what was published, and why *)
}.
Definition v_chan (s : server) (c : string) : chan := b_chans (run (v_history s)) c.
Definition on (o : bop) (s : server) : server := MkServer (v_history s ++ [o]) (v_handler s) (v_said s).
Definition say (why : cause) (order : list string -> list string) (str : StaticTrace) (s : server) : server :=
  MkServer (v_history s ++ [BPublish order (Ok str)]) (v_handler s) (v_said s ++ [(why, str)]).
Definition at_ (c : string) (m : handler) (s : server) : server :=
  MkServer (v_history s) (fun x => if String.eqb x c then m else v_handler s x) (v_said s).

(** What is neither a publish nor a receive of a handler: subscriptions (:273) begin and end
    at any time; other users receive from their own channels. *)
Definition besides (o : bop) : Prop :=
  match o with
  | BPublish _ _ => False
  | BReceive c | BGiveUp c => is_conn c = false
  | BStream _ _ | BDone _ | BStats _ => True
  end.

Inductive server_step : server -> server -> Prop :=
| VBesides s o : besides o -> server_step s (on o s)
| VProgram s order str : is_order order -> server_step s (say Program order str s)
| VLogged s c order str : is_conn c = true -> is_order order -> TraceID str = own c -> server_step s (say (Logged c) order str s)
(* :290-291: at the top of the loop, for the first time or again *)
| VStart s c : is_conn c = true -> v_handler s c = HStart -> server_step s (at_ c HLoop s)
(* :291, :333: select, a trace is there *)
| VReceive s c recv buffer : is_conn c = true -> v_handler s c = HLoop -> ch_buffer (v_chan s c) = recv :: buffer ->
    server_step s (at_ c (HTrace recv) (on (BReceive c) s))
(* select blocks *)
| VBlock s c : is_conn c = true -> v_handler s c = HLoop -> ch_buffer (v_chan s c) = [] ->
    server_step s (at_ c HSelect (on (BReceive c) s))
(* a publisher put a trace into the blocked select *)
| VHanded s c before recv : is_conn c = true -> v_handler s c = HSelect -> ch_waiting (v_chan s c) = 0 ->
    ch_received (v_chan s c) = before ++ [recv] -> server_step s (at_ c (HTrace recv) s)
(* another case of the blocked select is chosen; the loop goes on *)
| VUnblock s c : is_conn c = true -> v_handler s c = HSelect -> 0 < ch_waiting (v_chan s c) ->
    server_step s (at_ c HLoop (on (BGiveUp c) s))
(* :334-336: one of our own events *)
| VOwn s c recv : is_conn c = true -> v_handler s c = HTrace recv -> TraceID recv = own c -> server_step s (at_ c HLoop s)
(* :338-350: the trace is written *)
| VWritten s c recv : is_conn c = true -> v_handler s c = HTrace recv -> TraceID recv <> own c -> server_step s (at_ c HLoop s)
(* :339-341, :347-349: it is not; the handler says so in its trace, which is not finished:
   middleware.go:27-28 finishes it when the handler has returned *)
| VFailed s c recv order str : is_conn c = true -> v_handler s c = HTrace recv -> TraceID recv <> own c ->
    is_order order -> TraceID str = own c -> TraceFinished str = false ->
    server_step s (at_ c HLoop (say (Echo c) order str s))
(* :352-359: the handler is done *)
| VReturn s c : is_conn c = true -> v_handler s c = HLoop -> server_step s (at_ c HReturned s).

Definition server_init : server := MkServer [] (fun _ => HStart) [].
Inductive server_reachable : server -> Prop :=
| VInit : server_reachable server_init
| VStep s s' : server_reachable s -> server_step s s' -> server_reachable s'.
End Server.
Arguments server : clear implicits.

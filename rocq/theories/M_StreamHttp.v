(** Model of a stream connection: TraceServer.handleStream (trcweb/trace_server.go:228-364)
    after its filter is parsed, the goroutine it starts, the connection, and the loop of
    StreamClient.Stream (:437-524), beside everything else that happens on the broker.

    Simplified: one connection (a reconnect of the event source client is a new request,
    served by another call of handleStream with another channel); events of the connection
    are read in the order they were written, and an event whose write fails is not read; the
    traces that the handler and the client record about themselves are broker operations
    like any others; the client's callback OnRead is left out. *)
From Verif Require Import Go M_Types M_Filter M_Json M_Broker S_Broker.
Open Scope string_scope.
Open Scope list_scope.
Open Scope Z_scope.
Local Notation "x <-- m ;; k" := (obind m (fun x => k)) (at level 61, m at next level, right associativity).

(** One event on the connection: its type, and its data. *)
Inductive wire_event := WInit | WStats (j : json) | WTrace (j : json).
(** broker.go:112-121 *)
Definition enc_stream_stats (st : StreamStats) : json :=
  obj [("skips", Some (JNum (Skips st))); ("sends", Some (JNum (Sends st))); ("drops", Some (JNum (Drops st)))].
Definition dec_stream_stats (j : json) : option StreamStats :=
  o <-- dec_obj j ;; skips <-- dec_num (field "skips" o) ;; sends <-- dec_num (field "sends" o) ;; drops <-- dec_num (field "drops" o) ;;
  Some (MkStreamStats skips sends drops).

(** The goroutine of handleStream (:272-276). *)
Inductive goroutine :=
| GStart                                (* before Stream *)
| GWaiting                              (* Stream waits for its context *)
| GDone.                                (* donec is closed *)
(** handleStream itself. *)
Inductive handler :=
| HStart                                (* the goroutine was started; before the event source handler *)
| HLoop                                 (* at the top of its loop *)
| HSelect                               (* blocked in select *)
| HInit                                 (* received from initc *)
| HTick                                 (* received from stats.C *)
| HTrace (recv : StaticTrace)           (* received from tracec *)
| HDeferred (started : bool)            (* in <-donec (:277-279); did the loop start *)
| HReturned.
(** StreamClient.Stream. *)
Inductive client :=
| CReading                              (* in es.Read (:488) *)
| CSending (str : StaticTrace)          (* in select (:507-510) *)
| CReturned (failed : bool).

Section Http.
Context {RE : Type}.
Variable Compile : string -> RE + string.
Variable MatchString : RE -> string -> bool.
Variable time_text : Z -> option string.
Variable parse_time : string -> option Z.
Notation bop := (bop RE).
(** The channels' capacities; the name of tracec; the filter; tr.ID(); the stats interval. *)
Variable caps : string -> Z.
Variable conn : string.
Variable f : Filter RE.
Variable own : string.
Variable interval : Z.
Notation run := (b_run Compile MatchString caps).

Record conn_state := MkConn {
  x_history : list bop;                 (* what happened on the broker *)
  x_goroutine : goroutine;
  x_handler : handler;
  x_initc : bool;                       (* initc is not empty *)
  x_request_done : bool;                (* the request's context is cancelled *)
  x_cancel : bool;                      (* cancel was called *)
  x_failed : bool;                      (* a trace could not be encoded or written *)
  x_read : list wire_event;             (* the events the client read *)
  x_wire : list wire_event;             (* the events that were written, but not read yet *)
  x_client : client;
  x_client_done : bool;                 (* the context of the client is cancelled *)
  x_got : list StaticTrace              (* the traces the client put on its channel *)
}.
(** :269: the context derived from the request's *)
Definition ctx_done (s : conn_state) : bool := x_cancel s || x_request_done s.
Definition tracec (s : conn_state) : chan := b_chans (run (x_history s)) conn.

(** an operation on the broker that is not one of this handler: tracec is its own *)
Definition elsewhere (o : bop) : Prop :=
  valid_bop o /\
  match o with
  | BStream ch _ | BDone ch | BReceive ch | BGiveUp ch => ch <> conn
  | _ => True
  end.

Definition with_history h s := MkConn h (x_goroutine s) (x_handler s) (x_initc s) (x_request_done s) (x_cancel s) (x_failed s) (x_read s) (x_wire s) (x_client s) (x_client_done s) (x_got s).
Definition with_goroutine g s := MkConn (x_history s) g (x_handler s) (x_initc s) (x_request_done s) (x_cancel s) (x_failed s) (x_read s) (x_wire s) (x_client s) (x_client_done s) (x_got s).
Definition with_handler m s := MkConn (x_history s) (x_goroutine s) m (x_initc s) (x_request_done s) (x_cancel s) (x_failed s) (x_read s) (x_wire s) (x_client s) (x_client_done s) (x_got s).
Definition with_initc b s := MkConn (x_history s) (x_goroutine s) (x_handler s) b (x_request_done s) (x_cancel s) (x_failed s) (x_read s) (x_wire s) (x_client s) (x_client_done s) (x_got s).
Definition with_request_done b s := MkConn (x_history s) (x_goroutine s) (x_handler s) (x_initc s) b (x_cancel s) (x_failed s) (x_read s) (x_wire s) (x_client s) (x_client_done s) (x_got s).
Definition with_cancel b s := MkConn (x_history s) (x_goroutine s) (x_handler s) (x_initc s) (x_request_done s) b (x_failed s) (x_read s) (x_wire s) (x_client s) (x_client_done s) (x_got s).
Definition with_failed b s := MkConn (x_history s) (x_goroutine s) (x_handler s) (x_initc s) (x_request_done s) (x_cancel s) b (x_read s) (x_wire s) (x_client s) (x_client_done s) (x_got s).
Definition with_wire r w s := MkConn (x_history s) (x_goroutine s) (x_handler s) (x_initc s) (x_request_done s) (x_cancel s) (x_failed s) r w (x_client s) (x_client_done s) (x_got s).
Definition with_client c s := MkConn (x_history s) (x_goroutine s) (x_handler s) (x_initc s) (x_request_done s) (x_cancel s) (x_failed s) (x_read s) (x_wire s) c (x_client_done s) (x_got s).
Definition with_client_done b s := MkConn (x_history s) (x_goroutine s) (x_handler s) (x_initc s) (x_request_done s) (x_cancel s) (x_failed s) (x_read s) (x_wire s) (x_client s) b (x_got s).
Definition with_got l s := MkConn (x_history s) (x_goroutine s) (x_handler s) (x_initc s) (x_request_done s) (x_cancel s) (x_failed s) (x_read s) (x_wire s) (x_client s) (x_client_done s) l.

Definition on_broker (o : bop) (s : conn_state) : conn_state := with_history (x_history s ++ [o]) s.
Definition write (e : wire_event) (s : conn_state) : conn_state := with_wire (x_read s) (x_wire s ++ [e]) s.

(** The cases of the select statement other than the receive from tracec (:291-361). *)
Inductive other_case : conn_state -> conn_state -> Prop :=
| OInit s : x_initc s = true -> other_case s (with_handler HInit (with_initc false s))
| OTick s : other_case s (with_handler HTick s)
| ODone s : ctx_done s = true -> other_case s (with_handler (HDeferred true) s)
| OStop s : other_case s (with_handler (HDeferred true) (with_cancel true s)).

Inductive conn_step : conn_state -> conn_state -> Prop :=
(* something else happens on the broker *)
| XElsewhere s o : elsewhere o -> conn_step s (on_broker o s)
(* the context of the request is cancelled: net/http does so when the client is gone *)
| XRequestDone s : conn_step s (with_request_done true s)
(* :273: Stream subscribes *)
| XSubscribe s : x_goroutine s = GStart -> conn_step s (with_goroutine GWaiting (on_broker (BStream conn f) s))
(* :273-275: the context is done, Stream returns, donec is closed *)
| XUnsubscribe s : x_goroutine s = GWaiting -> ctx_done s = true -> conn_step s (with_goroutine GDone (on_broker (BDone conn) s))
(* :281-288: the loop starts *)
| XStart s : x_handler s = HStart -> 0 < interval -> conn_step s (with_initc true (with_handler HLoop s))
(* :284: NewTicker panics *)
| XPanic s : x_handler s = HStart -> interval <= 0 -> conn_step s (with_handler (HDeferred false) s)
(* :291: select, a trace is there *)
| XReceive s recv buffer : x_handler s = HLoop -> ch_buffer (tracec s) = recv :: buffer ->
    conn_step s (with_handler (HTrace recv) (on_broker (BReceive conn) s))
(* :291: select, no trace is there and no other case is chosen: blocked *)
| XBlock s : x_handler s = HLoop -> ch_buffer (tracec s) = [] -> conn_step s (with_handler HSelect (on_broker (BReceive conn) s))
(* :291: select, another case *)
| XOther s s' : x_handler s = HLoop -> other_case s s' -> conn_step s s'
(* :291: a publisher put a trace into the blocked select *)
| XHanded s before recv : x_handler s = HSelect -> ch_waiting (tracec s) = 0 -> ch_received (tracec s) = before ++ [recv] ->
    conn_step s (with_handler (HTrace recv) s)
(* :291: another case of the blocked select is ready *)
| XUnblock s s' : x_handler s = HSelect -> 0 < ch_waiting (tracec s) -> other_case (on_broker (BGiveUp conn) s) s' -> conn_step s s'
(* :292-308: the init event; or it cannot be encoded or written *)
| XInit s : x_handler s = HInit -> conn_step s (with_handler HLoop (write WInit s))
| XInitFailed s : x_handler s = HInit -> conn_step s (with_handler HLoop s)
(* :310-331: the statistics; or there are none, or they cannot be encoded or written *)
| XTick s st : x_handler s = HTick -> StreamStats_ conn (run (x_history s)) = RStats st ->
    conn_step s (with_handler HLoop (write (WStats (enc_stream_stats st)) s))
| XTickFailed s : x_handler s = HTick -> conn_step s (with_handler HLoop s)
(* :333-336: one of our own events *)
| XOwn s recv : x_handler s = HTrace recv -> TraceID recv = own -> conn_step s (with_handler HLoop s)
(* :338-350: a trace; or it cannot be encoded or written *)
| XTrace s recv j : x_handler s = HTrace recv -> TraceID recv <> own -> enc_static time_text recv j ->
    conn_step s (with_handler HLoop (write (WTrace j) s))
| XTraceFailed s recv : x_handler s = HTrace recv -> TraceID recv <> own ->
    conn_step s (with_handler HLoop (with_failed true s))
(* :269-279: <-donec, then the deferred cancel *)
| XReturn s started : x_handler s = HDeferred started -> x_goroutine s = GDone -> conn_step s (with_handler HReturned (with_cancel true s))
(* :482-485: the context of the client is cancelled *)
| XClientDone s : conn_step s (with_client_done true s)
(* :488-494: es.Read fails; after a cancellation it is closed *)
| XClientFails s : x_client s = CReading -> conn_step s (with_client (CReturned true) s)
| XClientReturns s : x_client s = CReading -> x_client_done s = true -> conn_step s (with_client (CReturned false) s)
(* :499-500 *)
| XReadInit s wire : x_client s = CReading -> x_wire s = WInit :: wire -> conn_step s (with_wire (x_read s ++ [WInit]) wire s)
(* :512-518 *)
| XReadStats s j st wire : x_client s = CReading -> x_wire s = WStats j :: wire -> dec_stream_stats j = Some st ->
    conn_step s (with_wire (x_read s ++ [WStats j]) wire s)
| XReadBadStats s j wire : x_client s = CReading -> x_wire s = WStats j :: wire -> dec_stream_stats j = None ->
    conn_step s (with_client (CReturned true) (with_wire (x_read s ++ [WStats j]) wire s))
(* :502-506 *)
| XReadTrace s j str wire : x_client s = CReading -> x_wire s = WTrace j :: wire -> dec_static parse_time j = Some str ->
    conn_step s (with_client (CSending str) (with_wire (x_read s ++ [WTrace j]) wire s))
| XReadBadTrace s j wire : x_client s = CReading -> x_wire s = WTrace j :: wire -> dec_static parse_time j = None ->
    conn_step s (with_client (CReturned true) (with_wire (x_read s ++ [WTrace j]) wire s))
(* :507-510 *)
| XSend s str : x_client s = CSending str -> conn_step s (with_client CReading (with_got (x_got s ++ [str]) s))
| XSendNot s str : x_client s = CSending str -> x_client_done s = true -> conn_step s (with_client CReading s).

(** At the start of the goroutine, on a broker with a past in which tracec, which is new,
    does not occur. *)
Definition conn_init (past : list bop) (s : conn_state) : Prop :=
  Forall elsewhere past /\ s = MkConn past GStart HStart false false false false [] [] CReading false [].
Inductive conn_steps : conn_state -> conn_state -> Prop :=
| XNone s : conn_steps s s
| XSome s s' s'' : conn_steps s s' -> conn_step s' s'' -> conn_steps s s''.
Definition conn_reachable (s : conn_state) : Prop := exists past s0, conn_init past s0 /\ conn_steps s0 s.
End Http.
Arguments conn_state : clear implicits.

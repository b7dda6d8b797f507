(** What TraceServer.handleStream and its goroutine log to the trace of the request
    (trcweb/trace_server.go:272-364), beside what they do (M_StreamHttp.v).  Left out: the four lines
    before the goroutine is started (:251-267), which are always the same. *)
From Verif Require Import Go M_Strings M_Types M_Filter M_Json M_Broker S_Broker M_StreamHttp M_StreamClient M_SearchLog.
Open Scope string_scope.
Open Scope list_scope.
Open Scope Z_scope.

(** Who says it: handleStream, or the goroutine it starts *)
Inductive voice := Handler | Background.
Definition line : Type := voice * call.

(** :274 *)
Definition final_call (st : StreamStats) (err : string) : call := MkCall true false "%s (error: %v)" [AStr (StreamStats_String st); AErr err].
(** :282 *)
Definition started_call : call := MkCall true false "event source handler started" [].
(** :298, 306, 313, 319, 327, 340, 348 *)
Definition error_call (format err : string) : call := MkCall false true format [AErr err].
(** :331 *)
Definition stats_call (st : StreamStats) : call := MkCall false false "stats: %s" [AStr (StreamStats_String st)].
(** :353, 357 *)
Definition context_call (err : string) : call := MkCall true false "stopping: context done (%v)" [AErr err].
Definition stop_call : call := MkCall true false "stopping: stop signal (canceling context)" [].

Section Talk.
Context {RE : Type}.
Variable Compile : string -> RE + string.
Variable MatchString : RE -> string -> bool.
Variable time_text : Z -> option string.
Variable parse_time : string -> option Z.
Variable caps : string -> Z.
Variable conn : string.
Variable f : Filter RE.
Variable own : string.
Variable interval : Z.
Notation run := (b_run Compile MatchString caps).
Notation tracec := (tracec Compile MatchString caps conn).
Notation conn_state := (conn_state RE).
Notation conn_step := (conn_step Compile MatchString time_text parse_time caps conn f own interval).

(** The cases of [other_case] *)
Inductive case_talk : conn_state -> conn_state -> list line -> Prop :=
| KInit s : x_initc s = true -> case_talk s (with_handler HInit (with_initc false s)) []
| KTick s : case_talk s (with_handler HTick s) []
| KDone s err : ctx_done s = true -> case_talk s (with_handler (HDeferred true) s) [(Handler, context_call err)]
| KStop s : case_talk s (with_handler (HDeferred true) (with_cancel true s)) [(Handler, stop_call)].

(** A step of [conn_step], and what is said.  Any text can be that of an error. *)
Inductive talk : conn_state -> conn_state -> list line -> Prop :=
(* somebody else: the broker, net/http, the client *)
| TElse s s' : conn_step s s' -> x_handler s' = x_handler s -> x_goroutine s' = x_goroutine s -> talk s s' []
| TSubscribe s : x_goroutine s = GStart -> talk s (with_goroutine GWaiting (on_broker (BStream conn f) s)) []
| TUnsubscribe s st err : x_goroutine s = GWaiting -> ctx_done s = true ->
    snd (b_step Compile MatchString (run (x_history s)) (BDone conn)) = RStats st ->
    talk s (with_goroutine GDone (on_broker (BDone conn) s)) [(Background, final_call st err)]
| TStart s : x_handler s = HStart -> 0 < interval -> talk s (with_initc true (with_handler HLoop s)) [(Handler, started_call)]
| TPanic s : x_handler s = HStart -> interval <= 0 -> talk s (with_handler (HDeferred false) s) [(Handler, started_call)]
| TReceive s recv buffer : x_handler s = HLoop -> ch_buffer (tracec s) = recv :: buffer ->
    talk s (with_handler (HTrace recv) (on_broker (BReceive conn) s)) []
| TBlock s : x_handler s = HLoop -> ch_buffer (tracec s) = [] -> talk s (with_handler HSelect (on_broker (BReceive conn) s)) []
| TOther s s' said : x_handler s = HLoop -> case_talk s s' said -> talk s s' said
| THanded s before recv : x_handler s = HSelect -> ch_waiting (tracec s) = 0 -> ch_received (tracec s) = before ++ [recv] ->
    talk s (with_handler (HTrace recv) s) []
| TUnblock s s' said : x_handler s = HSelect -> 0 < ch_waiting (tracec s) -> case_talk (on_broker (BGiveUp conn) s) s' said -> talk s s' said
| TInit s : x_handler s = HInit -> talk s (with_handler HLoop (write WInit s)) []
| TInitFailed s format err : x_handler s = HInit -> In format ["JSON marshal init: %v"; "encode init: %v"] ->
    talk s (with_handler HLoop s) [(Handler, error_call format err)]
| TTick s st : x_handler s = HTick -> StreamStats_ conn (run (x_history s)) = RStats st ->
    talk s (with_handler HLoop (write (WStats (enc_stream_stats st)) s)) [(Handler, stats_call st)]
| TNoStats s err : x_handler s = HTick -> StreamStats_ conn (run (x_history s)) = M_Broker.RError err ->
    talk s (with_handler HLoop s) [(Handler, error_call "get stats: %v" err)]
| TTickFailed s st format err : x_handler s = HTick -> StreamStats_ conn (run (x_history s)) = RStats st ->
    In format ["JSON marshal stats: %v"; "encode stats: %v"] -> talk s (with_handler HLoop s) [(Handler, error_call format err)]
| TOwn s recv : x_handler s = HTrace recv -> TraceID recv = own -> talk s (with_handler HLoop s) []
| TTrace s recv j : x_handler s = HTrace recv -> TraceID recv <> own -> enc_static time_text recv j ->
    talk s (with_handler HLoop (write (WTrace j) s)) []
| TTraceFailed s recv format err : x_handler s = HTrace recv -> TraceID recv <> own -> In format ["JSON marshal trace: %v"; "encode trace: %v"] ->
    talk s (with_handler HLoop (with_failed true s)) [(Handler, error_call format err)]
| TReturn s started : x_handler s = HDeferred started -> x_goroutine s = GDone -> talk s (with_handler HReturned (with_cancel true s)) [].

(** A run, and everything that was said in it *)
Inductive talks : conn_state -> conn_state -> list line -> Prop :=
| TNone s : talks s s []
| TSome s s' s'' said more : talks s s' said -> talk s' s'' more -> talks s s'' (said ++ more).
Definition talked (s : conn_state) (said : list line) : Prop := exists past s0, conn_init conn past s0 /\ talks s0 s said.
End Talk.

(** Model of the loop of StreamClient.Stream (trcweb/trace_server.go:437-524) against any server:
    whatever es.Read (:488) returns, in whatever order.  M_StreamHttp.v has the loop together
    with a trc server.

    Simplified: the event source library is not in /repo; of it is assumed that Read fails
    with ErrClosed only after Close.  The data of an event is abstract: [text] is its bytes,
    and the two functions json.Unmarshal for the two types it is decoded to.  Logging on
    tr (:440) is the text that LazyTracef and Errorf record. *)
From Verif Require Import Go M_Types M_Strings M_Broker.
Open Scope string_scope.
Open Scope list_scope.

(** broker.go:124-126 *)
Definition StreamStats_String (st : StreamStats) : string :=
  ("skips=" ++ itoa (Skips st) ++ " sends=" ++ itoa (Sends st) ++ " drops=" ++ itoa (Drops st))%string.

Section Client.
Context {Data : Type}.
Variable text : Data -> string.
Variable quote : string -> string.                           (* the verb %q *)
Variable unmarshal_trace : Data -> StaticTrace + string.     (* the value, or the error's text *)
Variable unmarshal_stats : Data -> StreamStats + string.

(** What es.Read returns.  With an event: does the select of :507-510 take ctx.Done, if it
    comes to that. *)
Inductive read :=
| REvent (type : string) (data : Data) (given_up : bool)
| RClosed                               (* errors.Is(err, eventsource.ErrClosed) *)
| RError (err : string).
(** What Stream does that can be seen. *)
Inductive effect :=
| Called (type : string) (data : Data)  (* c.OnRead *)
| Put (str : StaticTrace)               (* ch <- &str *)
| Traced (what : string)                (* tr.LazyTracef *)
| Failed (what : string).               (* tr.Errorf *)
Inductive outcome := Running | Returned (err : option string).

(** trcweb/trace_server.go:498-522, for one event: what is done, and the error to return *)
Definition handle (type : string) (data : Data) (given_up : bool) : list effect * option string :=
  if String.eqb type "init" then ([Traced ("init: " ++ text data)%string], None)
  else if String.eqb type "trace" then
    match unmarshal_trace data with
    | inr err => ([], Some ("decode trace event: " ++ err)%string)
    | inl str => (if given_up then [] else [Put str], None)
    end
  else if String.eqb type "stats" then
    match unmarshal_stats data with
    | inl stats => ([Traced (StreamStats_String stats)], None)
    | inr err => ([], Some ("invalid stats event: " ++ err)%string)
    end
  else ([Traced ("unknown event type " ++ quote type)%string], None).
(** :487-523, for what Read returned so far *)
Fixpoint loop (reads : list read) : list effect * outcome :=
  match reads with
  | [] => ([], Running)
  | RClosed :: _ => ([], Returned None)
  | RError err :: _ => ([], Returned (Some ("read server-sent event: " ++ err)%string))
  | REvent type data given_up :: reads =>
      let '(done, err) := handle type data given_up in
      match err with
      | Some err => (Called type data :: done, Returned (Some err))
      | None => let '(rest, o) := loop reads in (Called type data :: done ++ rest, o)
      end
  end.
(** :442-446: the deferred function *)
Definition deferred (o : outcome) : list effect := match o with Returned (Some err) => [Failed ("error: " ++ err)%string] | _ => [] end.
(** :437-524.  [no_request]: url.Parse or http.NewRequest fail (:457-474). *)
Definition stream (no_request : option string) (reads : list read) : list effect * outcome :=
  let '(done, o) := match no_request with Some err => ([], Returned (Some err)) | None => loop reads end in
  (done ++ deferred o, o).

(** Stream beside its context and the goroutine of :482-485. *)
Record stream_state := MkStream { k_reads : list read; k_cancelled : bool; k_closed : bool }.
Inductive stream_step : stream_state -> stream_state -> Prop :=
| KCancel s : stream_step s (MkStream (k_reads s) true (k_closed s))
| KClose s : k_cancelled s = true -> stream_step s (MkStream (k_reads s) true true)
| KEvent s type data given_up : snd (stream None (k_reads s)) = Running -> (given_up = true -> k_cancelled s = true) ->
    stream_step s (MkStream (k_reads s ++ [REvent type data given_up]) (k_cancelled s) (k_closed s))
| KClosed s : snd (stream None (k_reads s)) = Running -> k_closed s = true ->
    stream_step s (MkStream (k_reads s ++ [RClosed]) (k_cancelled s) (k_closed s))
| KError s err : snd (stream None (k_reads s)) = Running ->
    stream_step s (MkStream (k_reads s ++ [RError err]) (k_cancelled s) (k_closed s)).
Inductive stream_reach : stream_state -> Prop :=
| KInit : stream_reach (MkStream [] false false)
| KStep s s' : stream_reach s -> stream_step s s' -> stream_reach s'.
End Client.
Arguments REvent {Data}. Arguments RClosed {Data}. Arguments RError {Data}.
Arguments Called {Data}. Arguments Put {Data}. Arguments Traced {Data}. Arguments Failed {Data}.

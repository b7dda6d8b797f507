(** Model of trcweb/middleware.go, of the request handling in trcweb/trace_server.go and
    trcweb/render.go, and of the filter the command line tool builds (cmd/trc). *)
From Verif Require Import Go M_Strings M_Types M_Frame M_Filter M_Stats M_Search M_Humanize M_Text M_Url S_Trace.
Open Scope string_scope.
Open Scope list_scope.
Open Scope Z_scope.

(** ** Middleware *)
Section Middleware.
Context {arg : Type}.
(** values passed to LazyTracef: strings and ints *)
Variable str : string -> arg.
Variable num : Z -> arg.
(** trcutil.HumanizeBytes *)
Variable HumanizeBytes : Z -> string.

(** The http.ResponseWriter given to the middleware: [W] its state; WriteHeader may panic
    (None); Write returns how many bytes it took and an error. *)
Context {W : Type}.
Variable w_WriteHeader : W -> Z -> option W.
Variable w_Write : W -> string -> W * (Z * option string).
Variable w_Flush : W -> W.

(** What a handler does (setting response headers, which the interceptor passes on, is
    left out): calls on the trace it finds in the request's context, calls on
    the response writer (going on as the result of Write tells it), and in the end it
    returns or panics. *)
Inductive handler :=
| HReturn
| HPanic
| HTrace (c : call arg) (k : handler)
| HWriteHeader (code : Z) (k : handler)
| HWrite (p : string) (k : Z * option string -> handler)
| HFlush (k : handler).

(** trcweb/middleware.go:56-62: the interceptor around the writer *)
Record interceptor := MkI { i_w : W; i_code : Z; i_n : Z }.
(** trcweb/middleware.go:64-70 *)
Definition newInterceptor (w : W) : interceptor := MkI w 0 0.
(** trcweb/middleware.go:72-77: the code is set before the call that may panic *)
Definition i_WriteHeader (i : interceptor) (code : Z) : interceptor * bool :=
  let i := if i_code i =? 0 then MkI (i_w i) code (i_n i) else i in
  match w_WriteHeader (i_w i) code with
  | Some w => (MkI w (i_code i) (i_n i), true)
  | None => (i, false)
  end.
(** trcweb/middleware.go:79-83 *)
Definition i_Write (i : interceptor) (p : string) : interceptor * (Z * option string) :=
  let '(w, r) := w_Write (i_w i) p in
  (MkI w (i_code i) (i_n i + fst r), r).
(** trcweb/middleware.go:85-90 *)
Definition i_Code (i : interceptor) : Z := if i_code i =? 0 then 200 else i_code i.
(** trcweb/middleware.go:96-98 *)
Definition i_Flush (i : interceptor) : interceptor := MkI (w_Flush (i_w i)) (i_code i) (i_n i).

(** next.ServeHTTP(iw, r): the interceptor and the calls made on the trace, and whether
    the handler returned (true) or panicked *)
Fixpoint serve (h : handler) (i : interceptor) (calls : list (call arg)) : interceptor * list (call arg) * bool :=
  match h with
  | HReturn => (i, calls, true)
  | HPanic => (i, calls, false)
  | HTrace c k => serve k i (calls ++ [c])
  | HWriteHeader code k => let '(i, ok) := i_WriteHeader i code in if ok then serve k i calls else (i, calls, false)
  | HWrite p k => let '(i, r) := i_Write i p in serve (k r) i calls
  | HFlush k => serve k (i_Flush i) calls
  end.

(** *http.Request: the parts that are recorded *)
Record request := MkRequest { r_RemoteAddr : string; r_Method : string; r_URL : string; r_Header : string -> string }.

(** trcweb/middleware.go:30-34 *)
Fixpoint header_calls (r : request) (headers : list string) : list (call arg) :=
  match headers with
  | [] => []
  | header :: headers =>
      let val := r_Header r header in
      (if negb (String.eqb val "") then [CallLog KLazyTracef "%s: %s" [str header; str val]] else [])
      ++ header_calls r headers
  end.

(** trcweb/middleware.go:25-50: the calls made on the trace, the writer, and whether the
    function returns or panics.  [took] is the text of the duration. *)
Definition Middleware (r : request) (w : W) (next : handler) (took : string) : list (call arg) * W * bool :=
  let calls := [CallLog KLazyTracef "%s %s %s" [str (r_RemoteAddr r); str (r_Method r); str (r_URL r)]] in
  let calls := calls ++ header_calls r ["User-Agent"; "Accept"; "Content-Type"] in
  let '(iw, calls, returned) := serve next (newInterceptor w) calls in
  (* the deferred calls run in both cases, last deferred first *)
  let calls := calls ++ [CallLog KLazyTracef "HTTP %d, %s, %s" [num (i_Code iw); str (HumanizeBytes (i_n iw)); str took]] in
  let calls := calls ++ [CallFinish] in
  (calls, i_w iw, returned).
End Middleware.
Arguments handler : clear implicits.
Arguments interceptor : clear implicits.

(** net/http's response: the status line sent, the informational responses sent before it,
    the body.  (Connection errors and content lengths are left out.) *)
Record response := MkResponse { p_status : option Z; p_info : list Z; p_body : string }.
Definition new_response : response := MkResponse None [] "".
(** http.(response).WriteHeader; None: panics on an invalid code *)
Definition http_WriteHeader (w : response) (code : Z) : option response :=
  match p_status w with
  | Some _ => Some w                                   (* superfluous call: logged and ignored *)
  | None =>
      if (code <? 100) || (999 <? code) then None
      else if (100 <=? code) && (code <=? 199) && negb (code =? 101)
      then Some (MkResponse None (p_info w ++ [code]) (p_body w))
      else Some (MkResponse (Some code) (p_info w) (p_body w))
  end.
Definition http_header_done (w : response) : response :=
  match p_status w with Some _ => w | None => MkResponse (Some 200) (p_info w) (p_body w) end.
(** http.(response).Write; no body for 1xx, 204, 304 *)
Definition http_Write (w : response) (p : string) : response * (Z * option string) :=
  let w := http_header_done w in
  let status := match p_status w with Some s => s | None => 200 end in
  if ((100 <=? status) && (status <=? 199)) || (status =? 204) || (status =? 304)
  then (w, (0, Some "http: request method or response status code does not allow body"))
  else (MkResponse (p_status w) (p_info w) (p_body w ++ p)%string, (Z.of_nat (String.length p), None)).
(** http.(response).FlushError, and finishRequest when the handler has returned *)
Definition http_Flush (w : response) : response := http_header_done w.
Definition received_status (w : response) : Z :=
  match p_status (http_header_done w) with Some s => s | None => 200 end.

(** ** Content negotiation *)
Section Accept.
(** mime.ParseMediaType: the media type, or None for an error; the parameters are not used *)
Variable ParseMediaType : string -> option string.

(** trcweb/render.go:93-103: the media types with entries in the map; [accept] is
    r.Header.Get("accept") *)
Fixpoint media_types (parts : list string) : list string :=
  match parts with
  | [] => []
  | a :: parts => match ParseMediaType a with Some m => m :: media_types parts | None => media_types parts end
  end.
Definition parseAcceptMediaTypes (accept : string) : list string := media_types (split_on "," accept).
(** trcweb/render.go:83-91 with one acceptable type *)
Definition requestExplicitlyAccepts (accept want : string) : bool :=
  existsb (String.eqb want) (parseAcceptMediaTypes accept).

(** trcweb/trace_server.go:87-92 *)
Definition Categorize (accept : string) : string :=
  if requestExplicitlyAccepts accept "text/event-stream" then "stream" else "traces".

Inductive rendering := RStream | RHTML | RJSON.
(** trcweb/render.go:27-43 *)
Definition renderResponse (accept raw : string) : rendering :=
  let asksForJSON := vHas (Query_of raw) "json" in
  let acceptsJSON := requestExplicitlyAccepts accept "application/json" in
  let acceptsHTML := requestExplicitlyAccepts accept "text/html" in
  let useHTML := acceptsHTML && negb asksForJSON in
  let useJSON := acceptsJSON || asksForJSON in
  if useHTML then RHTML else if useJSON then RJSON else RJSON.
(** trcweb/trace_server.go:75-84: a stream, or a search whose result is rendered *)
Definition ServeHTTP (accept raw : string) : rendering :=
  if String.eqb (Categorize accept) "stream" then RStream else renderResponse accept raw.
End Accept.

(** ** Search requests *)
Section Handler.
Context {RE : Type}.
Variable Compile : string -> RE + string.
Variable float_part : Z -> Z -> Z -> Z.
Notation SearchRequest := (@SearchRequest RE).

(** trcweb/trace_server.go:99-103 *)
Record SearchData := MkData { d_Request : SearchRequest; d_Response : SearchResponse; d_Problems : list string }.
(** the zero SearchResponse *)
Definition zero_response : SearchResponse := MkResp [] 0 0 [] None [].

(** What the client sent: query parameters, or a JSON body that decodes or does not. *)
Inductive input := IQuery (raw : string) | IJSON (decoded : SearchRequest + string).
(** What it gets back. *)
Inductive output := OBadRequest (err : string) | ORendered (data : SearchData).

(** trcweb/trace_server.go:105-154.  The searcher may change the request through the
    pointer it is given; its outcome is a response or an error. *)
Definition handleSearch (Search : SearchRequest -> res (SearchRequest * (SearchResponse + string))) (inp : input) : res output :=
  match (match inp with
         | IJSON (inr err) => inr err
         | IJSON (inl req) => inl req
         | IQuery raw => inl (search_request float_part raw)
         end) with
  | inr err => Ok (OBadRequest err)
  | inl req =>
      '(req, errs) <- Normalize Compile req ;;
      let problems := errs in
      '(req, outcome) <- Search req ;;
      let '(response, problems) :=
        match outcome with
        | inr err => (zero_response, problems ++ [("execute select request: " ++ err)%string])
        | inl resp => (resp, problems)
        end in
      let problems := problems ++ map (fun p => "response: " ++ p)%string (resp_Problems response) in
      stats <- (match resp_Stats response with Some s => Ok s | None => Panic end) ;;     (* data.Response.Stats.Categories *)
      let n := zlen (Categories stats) in
      let problems := if 100 <=? n then problems ++ [("way too many categories (" ++ itoa n ++ ")")%string] else problems in
      Ok (ORendered (MkData req response problems))
  end.
End Handler.

(** ** Rendered events *)
(** trcweb/render.go:362-372 without DeltaPercent, a float (M_Float.v) *)
Record renderEvent := MkRE {
  re_IsStart : bool; re_IsEnd : bool; re_Index : Z; re_When : Z; re_Delta : Z; re_Cumulative : Z;
  re_What : string; re_IsError : bool; re_Stack : list Frame
}.
(** trcweb/render.go:329-342 *)
Fixpoint render_loop (started : Z) (i prev : Z) (evs : list Event) (events : list renderEvent) : list renderEvent * Z :=
  match evs with
  | [] => (events, prev)
  | ev :: evs =>
      let delta := When ev - prev in
      let events := events ++ [MkRE false false i (When ev) delta (When ev - started) (What ev) (IsError ev) (Stack ev)] in
      render_loop started (i + 1) (When ev) evs events
  end.
(** trcweb/render.go:317-360 *)
Definition renderEvents (st : StaticTrace) : list renderEvent :=
  let events := [MkRE true false (-1) (TraceStarted st) 0 0 "start" false []] in
  let '(events, prev) := render_loop (TraceStarted st) 0 (TraceStarted st) (TraceEvents st) events in
  let when := TraceStarted st + TraceDuration st in
  let delta := when - prev in
  let what := if TraceFinished st then "finished" else "active..." in
  events ++ [MkRE false true (zlen (TraceEvents st)) when delta (TraceDuration st) what false []].

(** ** The command line tool *)
(** cmd/trc/trc.go: the filter flags.  [flag_duration] is None if --duration is not set. *)
Record flags := MkFlags {
  flag_sources : list string; flag_ids : list string; flag_category : string;
  flag_active : bool; flag_finished : bool; flag_duration : option Z;
  flag_success : bool; flag_errored : bool; flag_query : string
}.
Section Cli.
Context {RE : Type}.
(** cmd/trc/main.go:153-171 *)
Definition cli_filter (fl : flags) : Filter RE :=
  MkFilter (flag_sources fl) (flag_ids fl) (flag_category fl) (flag_active fl) (flag_finished fl) (flag_duration fl)
           (flag_success fl) (flag_errored fl) (flag_query fl) None.
(** cmd/trc/stream.go:46-58: the filter that is streamed *)
Definition stream_filter (fl : flags) (streamEvents : bool) : Filter RE :=
  let f := cli_filter fl in
  let f := MkFilter (Sources f) (IDs f) (FCategory f) false (IsFinished f) (MinDuration f) (IsSuccess f) (IsErrored f) (Query f) (f_regexp f) in
  if streamEvents
  then MkFilter (Sources f) (IDs f) (FCategory f) (IsActive f) false (MinDuration f) (IsSuccess f) (IsErrored f) (Query f) (f_regexp f)
  else MkFilter (Sources f) (IDs f) (FCategory f) (IsActive f) true (MinDuration f) (IsSuccess f) (IsErrored f) (Query f) (f_regexp f).
(** cmd/trc/search.go:57-65: the request of trc search *)
Definition cli_search_request (fl : flags) (limit stackDepth : Z) : @SearchRequest RE :=
  let stackDepth := if stackDepth =? 0 then -1 else stackDepth in
  MkReq [] (cli_filter fl) limit stackDepth.
End Cli.

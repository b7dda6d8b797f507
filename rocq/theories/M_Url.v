(** Model of net/url's query strings and of trcweb/util.go, and of the parts of
    trcweb/trace_server.go that build and read query strings. *)
From Verif Require Import Go M_Strings M_Types M_Frame M_Filter L_Order M_Humanize M_Text M_Search.
Open Scope string_scope.
Open Scope list_scope.
Open Scope Z_scope.

(** url.shouldEscape for a query component: letters, digits and - _ . ~ are kept *)
Definition unreserved (c : ascii) : bool :=
  let n := N_of_ascii c in
  ((97 <=? n) && (n <=? 122) || (65 <=? n) && (n <=? 90) || (48 <=? n) && (n <=? 57))%N
  || Ascii.eqb c "-" || Ascii.eqb c "_" || Ascii.eqb c "." || Ascii.eqb c "~".

(** "0123456789ABCDEF"[v] *)
Definition upperhex (v : N) : ascii :=
  if (v <? 10)%N then ascii_of_N (v + 48) else ascii_of_N (v + 55).
(** url.ishex and url.unhex *)
Definition unhex (c : ascii) : option N :=
  let n := N_of_ascii c in
  if ((48 <=? n) && (n <=? 57))%N then Some (n - 48)%N
  else if ((97 <=? n) && (n <=? 102))%N then Some (n - 87)%N
  else if ((65 <=? n) && (n <=? 70))%N then Some (n - 55)%N
  else None.

(** url.QueryEscape *)
Fixpoint QueryEscape (s : string) : string :=
  match s with
  | EmptyString => EmptyString
  | String c s =>
      if Ascii.eqb c " " then String "+" (QueryEscape s)
      else if unreserved c then String c (QueryEscape s)
      else String "%" (String (upperhex (N_of_ascii c / 16)) (String (upperhex (N_of_ascii c mod 16)) (QueryEscape s)))
  end.

(** url.QueryUnescape; None is the error *)
Fixpoint QueryUnescape (s : string) : option string :=
  match s with
  | EmptyString => Some EmptyString
  | String c r =>
      if Ascii.eqb c "%" then
        match r with
        | String a (String b r) =>
            match unhex a, unhex b with
            | Some x, Some y => option_map (String (ascii_of_N (x * 16 + y))) (QueryUnescape r)
            | _, _ => None
            end
        | _ => None
        end
      else option_map (String (if Ascii.eqb c "+" then " "%char else c)) (QueryUnescape r)
  end.

(** url.Values *)
Definition Values := list (string * list string).
(** v[k] *)
Definition values (v : Values) (k : string) : list string := match map_get k v with Some l => l | None => [] end.
(** v.Get(k), v.Has(k), v.Set(k, x), v.Add(k, x) *)
Definition vGet (v : Values) (k : string) : string := match values v k with x :: _ => x | [] => "" end.
Definition vHas (v : Values) (k : string) : bool := match map_get k v with Some _ => true | None => false end.
Definition vSet (v : Values) (k x : string) : Values := map_set k [x] v.
Definition vAdd (v : Values) (k x : string) : Values := map_set k (values v k ++ [x]) v.

(** strings.Split(s, c) *)
Fixpoint split_on (c : ascii) (s : string) : list string :=
  match s with
  | EmptyString => [EmptyString]
  | String x s =>
      if Ascii.eqb x c then EmptyString :: split_on c s
      else match split_on c s with
           | w :: ws => String x w :: ws
           | [] => [String x EmptyString]
           end
  end.
Fixpoint contains_byte (c : ascii) (s : string) : bool :=
  match s with EmptyString => false | String x s => Ascii.eqb x c || contains_byte c s end.

(** url.parseQuery's loop body; [m] is the map being filled.  The loop cuts the query at
    each '&', so it visits what Split gives. *)
Definition parse_pair (m : Values) (key : string) : Values :=
  if contains_byte ";" key then m
  else if String.eqb key "" then m
  else
    let '(k, v, _) := CutByte key "=" in
    match QueryUnescape k with
    | None => m
    | Some k => match QueryUnescape v with None => m | Some v => vAdd m k v end
    end.
(** URL.Query(): the error of ParseQuery is discarded, the good pairs are kept *)
Definition Query_of (raw : string) : Values := fold_left parse_pair (split_on "&" raw) [].

(** url.Values.Encode: for each key in order, for each value, the pair, preceded by '&'
    if the buffer is not empty *)
Definition pair_text (k v : string) : string := (QueryEscape k ++ "=" ++ QueryEscape v)%string.
Definition write_pair (k : string) (buf v : string) : string :=
  (buf ++ (if String.eqb buf "" then "" else "&") ++ pair_text k v)%string.
Definition Encode (v : Values) : string :=
  fold_left (fun buf k => fold_left (write_pair k) (values v k) buf) (sort_strings (map_keys v)) "".

Section Web.
Context {RE : Type}.
Variable float_part : Z -> Z -> Z -> Z.
Notation Filter := (@Filter RE).

(** if cond { q.Set(k, v) } *)
Definition set_if (cond : bool) (k v : string) (q : Values) : Values := if cond then vSet q k v else q.

(** trcweb/util.go:13-43.  The argument and the result are r.URL.RawQuery. *)
Definition encodeFilter (f : Filter) (raw : string) : string :=
  let q := Query_of raw in
  let q := fold_left (fun q source => vAdd q "source" source) (Sources f) q in
  let q := fold_left (fun q id => vAdd q "id" id) (IDs f) q in
  let q := set_if (negb (String.eqb (FCategory f) "")) "category" (FCategory f) q in
  let q := set_if (IsActive f) "active" "true" q in
  let q := set_if (IsFinished f) "finished" "true" q in
  let q := match MinDuration f with Some d => vSet q "min" (DurationString d) | None => q end in
  let q := set_if (IsSuccess f) "success" "true" q in
  let q := set_if (IsErrored f) "errored" "true" q in
  let q := set_if (negb (String.eqb (Query f) "")) "q" (Query f) q in
  Encode q.

(** trcweb/util.go:60-65 *)
Definition parseDefault {T} (s : string) (parse : string -> option T) (def : T) : T :=
  match parse s with Some v => v | None => def end.
(** trcweb/util.go:67-79 *)
Definition parseRange (s : string) (parse : string -> option Z) (min def max : Z) : Z :=
  match parse s with
  | None => def
  | Some v => if v <? min then min else if max <? v then max else v
  end.
(** trcweb/util.go:81-87; the pointer is an option *)
Definition parseDurationPointer (s : string) : option (option Z) := option_map Some (ParseDuration float_part s).

(** trcweb/util.go:45-58 *)
Definition parseFilter (raw : string) : Filter :=
  let urlquery := Query_of raw in
  MkFilter (values urlquery "source") (values urlquery "id") (vGet urlquery "category")
           (vHas urlquery "active") (vHas urlquery "finished")
           (parseDefault (vGet urlquery "min") parseDurationPointer None)
           (vHas urlquery "success") (vHas urlquery "errored") (vGet urlquery "q") None.

(** trcweb/util.go:96-101 *)
Fixpoint parse_all (bs : list string) : list Z :=
  match bs with
  | [] => []
  | s :: bs => match ParseDuration float_part s with Some d => d :: parse_all bs | None => parse_all bs end
  end.
(** trcweb/util.go:89-114; nil and the empty slice are both [[]] *)
Definition parseBucketing (bs : list string) : list Z :=
  match sort_durations (parse_all bs) with
  | [] => []
  | d :: ds => if d =? 0 then d :: ds else 0 :: d :: ds
  end.

(** trcweb/trace_server.go:124-131: the search request made from query parameters *)
Definition search_request (raw : string) : @SearchRequest RE :=
  let urlquery := Query_of raw in
  MkReq (parseBucketing (values urlquery "b")) (parseFilter raw)
        (parseRange (vGet urlquery "n") Atoi SearchLimitMin SearchLimitDefault SearchLimitMax)
        (parseDefault (vGet urlquery "stack") Atoi 0).

(** trcweb/trace_server.go:260-261 *)
Definition stream_stats_interval (raw : string) : Z :=
  parseDefault (vGet (Query_of raw) "stats") (ParseDuration float_part) (10 * Second).
Definition stream_send_buffer (raw : string) : Z :=
  parseRange (vGet (Query_of raw) "sendbuf") Atoi 0 100 100000.
(** time.NewTicker panics for a non-positive interval; trcweb/trace_server.go:284 *)
Definition NewTicker (d : Z) : res Z := if d <=? 0 then Panic else Ok d.
(** the set-up of handleStream, trcweb/trace_server.go:228-284: the filter, the capacity
    of the channel and the ticker's interval.  The filter comes from the query
    parameters (the JSON body is the other case); Filter.Normalize is left out. *)
Definition stream_setup (raw : string) : res (Filter * Z * Z) :=
  let sendbuf := stream_send_buffer raw in
  stats <- NewTicker (stream_stats_interval raw) ;;
  Ok (parseFilter raw, sendbuf, stats).

(** trcweb/trace_server.go:368-387.  HTTPClient and OnRead: None is nil. *)
Record StreamClient := MkStreamClient {
  c_HTTPClient : option unit;
  c_URI : string;
  c_SendBuffer : Z;
  c_OnRead : option unit;
  c_RetryInterval : Z;
  c_StatsInterval : Z
}.
(** trcweb/trace_server.go:398-402, 408-414, 416-422 *)
Definition clamp (def min max v : Z) : Z :=
  if v =? 0 then def else if v <? min then min else if max <? v then max else v.
Definition clamp_buffer (v : Z) : Z := if v <? 0 then 0 else if 100000 <? v then 100000 else v.
(** trcweb/trace_server.go:389-423 *)
Definition initialize (c : StreamClient) : StreamClient :=
  MkStreamClient (match c_HTTPClient c with None => Some tt | x => x end)
    (if negb (String.eqb (c_URI c) "") && negb (HasPrefix (c_URI c) "http") then ("http://" ++ c_URI c)%string else c_URI c)
    (clamp_buffer (c_SendBuffer c))
    (match c_OnRead c with None => Some tt | x => x end)
    (clamp (3 * Second) (1 * Second) (60 * Second) (c_RetryInterval c))
    (clamp (10 * Second) (1 * Second) (60 * Second) (c_StatsInterval c)).

(** trcweb/trace_server.go:437-480: the query string of the request Stream sends; [raw]
    is the query string of the client's URI.  (url.Parse, URL.String and
    http.NewRequest hand the query string on as it is.) *)
Definition stream_query (c : StreamClient) (f : Filter) (raw : string) : string :=
  let c := initialize c in
  let query := Query_of raw in
  let query := set_if (0 <? c_SendBuffer c) "sendbuf" (itoa (c_SendBuffer c)) query in
  let query := set_if (0 <? c_StatsInterval c) "stats" (DurationString (c_StatsInterval c)) query in
  encodeFilter f (Encode query).
End Web.

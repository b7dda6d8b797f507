(** What requests, responses and traces look like in JSON: the struct tags of
    search_types.go, filter.go, search_stats.go, trace.go, trace_static.go and
    trcweb/trace_server.go, with encoding/json's rules for omitempty, nil and missing
    fields, and the search client.  Here only the structure of JSON; its text is in
    M_JsonText.v. *)
From Verif Require Import Go M_Strings M_Types M_Filter M_Stats M_Search M_Web.
Open Scope string_scope.
Open Scope list_scope.
Open Scope Z_scope.

(** A JSON value; strings are valid UTF-8.  A number with a fraction or an exponent is kept as
    it is written. *)
Inductive json :=
| JNull
| JBool (b : bool)
| JNum (n : Z)
| JFloat (s : string)
| JStr (s : string)
| JArr (l : list json)
| JObj (l : list (string * json)).

(** *** Strings *)
Definition byte (a : ascii) : nat := nat_of_ascii a.
Definition between (lo a hi : nat) : bool := Nat.leb lo a && Nat.leb a hi.
(** Continuation bytes, and what may follow a first byte of a three or four byte sequence
    (unicode/utf8: first, acceptRanges). *)
Definition cont (a : ascii) : bool := between 128 (byte a) 191.
Definition second3 (a b : ascii) : bool :=
  if Nat.eqb (byte a) 224 then between 160 (byte b) 191
  else if Nat.eqb (byte a) 237 then between 128 (byte b) 159
  else between 225 (byte a) 239 && cont b.
Definition second4 (a b : ascii) : bool :=
  if Nat.eqb (byte a) 240 then between 144 (byte b) 191
  else if Nat.eqb (byte a) 244 then between 128 (byte b) 143
  else between 241 (byte a) 243 && cont b.
(** U+FFFD *)
Definition replacement : string := String (ascii_of_nat 239) (String (ascii_of_nat 191) (String (ascii_of_nat 189) "")).
(** encoding/json replaces every byte that is not part of valid UTF-8 by U+FFFD. *)
Fixpoint to_utf8 (s : string) : string :=
  match s with
  | "" => ""
  | String a r =>
      if Nat.ltb (byte a) 128 then String a (to_utf8 r)
      else
        match r with
        | String b r2 =>
            if between 194 (byte a) 223 && cont b then String a (String b (to_utf8 r2))
            else
              match r2 with
              | String c r3 =>
                  if second3 a b && cont c then String a (String b (String c (to_utf8 r3)))
                  else
                    match r3 with
                    | String d r4 =>
                        if second4 a b && cont c && cont d then String a (String b (String c (String d (to_utf8 r4))))
                        else replacement ++ to_utf8 r
                    | "" => replacement ++ to_utf8 r
                    end
              | "" => replacement ++ to_utf8 r
              end
        | "" => replacement ++ to_utf8 r
        end
  end.
Definition jstr (s : string) : json := JStr (to_utf8 s).

Definition is_empty (s : string) : bool := match s with "" => true | _ => false end.
(** *** Numbers (RFC 8259, section 6), as the scanner of encoding/json reads them *)
Definition json_digit (a : ascii) : bool := between 48 (byte a) 57.
(** the digits at the start, and the rest *)
Fixpoint span_digits (s : string) : string * string :=
  match s with
  | "" => ("", "")
  | String a r => if json_digit a then let '(d, r') := span_digits r in (String a d, r') else ("", s)
  end.
(** the next byte is [c] *)
Definition expect (c : ascii) (s : string) : option string := match s with String a r => if Ascii.eqb a c then Some r else None | "" => None end.
(** the sign, the integer part, the fraction and the exponent; None if a part is malformed *)
Definition scan_sign (s : string) : string * string := match expect "-" s with Some r => ("-", r) | None => ("", s) end.
Definition some_digits (s : string) : option (string * string) := let '(d, r) := span_digits s in if is_empty d then None else Some (d, r).
Definition scan_int (s : string) : option (string * string) := match expect "0" s with Some r => Some ("0", r) | None => some_digits s end.
Definition scan_frac (s : string) : option (string * string) :=
  match expect "." s with
  | Some r => match some_digits r with None => None | Some (d, r') => Some (String "." d, r') end
  | None => Some ("", s)
  end.
Definition is_e (a : ascii) : bool := Ascii.eqb a "e" || Ascii.eqb a "E".
Definition is_sign (a : ascii) : bool := Ascii.eqb a "+" || Ascii.eqb a "-".
Definition scan_exp (s : string) : option (string * string) :=
  match s with
  | String a r =>
      if is_e a then
        let '(sg, r') := match r with String b r' => if is_sign b then (String b "", r') else ("", r) | "" => ("", r) end in
        match some_digits r' with None => None | Some (d, r'') => Some (String a (sg ++ d)%string, r'') end
      else Some ("", s)
  | "" => Some ("", s)
  end.
Definition digits_value (s : string) : Z := fold_left (fun n a => n * 10 + (Z.of_nat (byte a) - 48)) (list_of_string s) 0.
Definition scan_number (s : string) : option (json * string) :=
  let '(sg, s) := scan_sign s in
  match scan_int s with
  | None => None
  | Some (ip, s) =>
      match scan_frac s with
      | None => None
      | Some (fp, s) =>
          match scan_exp s with
          | None => None
          | Some (ep, s) =>
              Some (if is_empty (fp ++ ep)%string then JNum (if is_empty sg then digits_value ip else - digits_value ip)
                    else JFloat (sg ++ ip ++ fp ++ ep)%string, s)
          end
      end
  end.
(** a number with a fraction or an exponent, and nothing else *)
Definition is_float (s : string) : bool := match scan_number s with Some (JFloat _, "") => true | _ => false end.

(** *** Encoding.  A list that is empty may be nil or not, which the other models do not
    tell apart, so encodings are relations. *)
(** the fields that are present *)
Fixpoint present (l : list (string * option json)) : list (string * json) :=
  match l with
  | [] => []
  | (k, Some j) :: l => (k, j) :: present l
  | (_, None) :: l => present l
  end.
Definition obj (l : list (string * option json)) : json := JObj (present l).
Definition omit (empty : bool) (j : json) : option json := if empty then None else Some j.
(** a slice: null if nil *)
Definition enc_slice {A} (enc : A -> json -> Prop) (l : list A) (j : json) : Prop :=
  (l = [] /\ j = JNull) \/ exists js, j = JArr js /\ Forall2 enc l js.
(** a slice with omitempty *)
Definition enc_slice_omit {A} (enc : A -> json -> Prop) (l : list A) (j : option json) : Prop :=
  (l = [] /\ j = None) \/ (l <> [] /\ exists js, j = Some (JArr js) /\ Forall2 enc l js).

Section Json.
Context {RE : Type}.
(** time.Time.MarshalJSON: RFC 3339 text; fails for years outside 0..9999 *)
Variable time_text : Z -> option string.
(** time.Time.UnmarshalJSON *)
Variable parse_time : string -> option Z.
Definition enc_time (t : Z) (j : json) : Prop := exists s, time_text t = Some s /\ j = JStr s.
Definition enc_string (s : string) (j : json) : Prop := j = jstr s.
Definition enc_num (n : Z) (j : json) : Prop := j = JNum n.

(** trace.go:100-103 *)
Definition enc_frame (f : Frame) (j : json) : Prop :=
  j = obj [("function", Some (jstr (Function f))); ("fileline", Some (jstr (FileLine f)))].
(** trace.go:92-97 *)
Definition enc_event (e : Event) (j : json) : Prop :=
  exists when stack, enc_time (When e) when /\ enc_slice_omit enc_frame (Stack e) stack /\
    j = obj [("when", Some when); ("what", Some (jstr (What e))); ("stack", stack); ("is_error", omit (negb (IsError e)) (JBool true))].
(** trace_static.go:8-19.  duration_sec is a float and its value is not modelled: it may be
    absent, or any number that can be written. *)
Definition enc_float (j : option json) : Prop :=
  match j with None => True | Some (JNum _) => True | Some (JFloat s) => is_float s = true | _ => False end.
Definition enc_static (t : StaticTrace) (j : json) : Prop :=
  exists started sec events, enc_time (TraceStarted t) started /\ enc_float sec /\ enc_slice_omit enc_event (TraceEvents t) events /\
    j = obj [("source", Some (jstr (TraceSource t))); ("id", Some (jstr (TraceID t))); ("category", Some (jstr (TraceCategory t)));
             ("started", Some started); ("duration", Some (JNum (TraceDuration t)));
             ("duration_str", omit (is_empty (TraceDurationStr t)) (jstr (TraceDurationStr t)));
             ("duration_sec", sec);
             ("finished", omit (negb (TraceFinished t)) (JBool true)); ("errored", omit (negb (TraceErrored t)) (JBool true));
             ("events", events)].
(** filter.go:12-23; regexp is not exported *)
Definition enc_filter (f : Filter RE) (j : json) : Prop :=
  exists sources ids, enc_slice_omit enc_string (Sources f) sources /\ enc_slice_omit enc_string (IDs f) ids /\
    j = obj [("sources", sources); ("ids", ids); ("category", omit (is_empty (FCategory f)) (jstr (FCategory f)));
             ("is_active", omit (negb (IsActive f)) (JBool true)); ("is_finished", omit (negb (IsFinished f)) (JBool true));
             ("min_duration", option_map JNum (MinDuration f));
             ("is_success", omit (negb (IsSuccess f)) (JBool true)); ("is_errored", omit (negb (IsErrored f)) (JBool true));
             ("query", omit (is_empty (Query f)) (jstr (Query f)))].
(** search_types.go:25-30; a struct is never empty for omitempty *)
Definition enc_request (r : SearchRequest RE) (j : json) : Prop :=
  exists bucketing filter, enc_slice_omit enc_num (req_Bucketing r) bucketing /\ enc_filter (req_Filter r) filter /\
    j = obj [("bucketing", bucketing); ("filter", Some filter); ("limit", omit (req_Limit r =? 0) (JNum (req_Limit r)));
             ("stack_depth", omit (req_StackDepth r =? 0) (JNum (req_StackDepth r)))].
(** search_stats.go:137-148 *)
Definition enc_category_stats (c : CategoryStats) (j : json) : Prop :=
  exists counts oldest newest, enc_slice enc_num (BucketCounts c) counts /\ enc_time (Oldest c) oldest /\ enc_time (Newest c) newest /\
    j = obj [("category", Some (jstr (cs_Category c))); ("event_count", Some (JNum (EventCount c))); ("active_count", Some (JNum (ActiveCount c)));
             ("bucket_counts", Some counts); ("errored_count", Some (JNum (ErroredCount c))); ("oldest", Some oldest); ("newest", Some newest)].
(** search_stats.go:11-14.  encoding/json writes the keys in order; here in any order.  A nil
    map is null. *)
Definition enc_categories (m : list (string * CategoryStats)) (j : json) : Prop :=
  (m = [] /\ j = JNull) \/
  exists m' js, Permutation m m' /\ Forall2 (fun kc kj => fst kj = to_utf8 (fst kc) /\ enc_category_stats (snd kc) (snd kj)) m' js /\ j = JObj js.
Definition enc_stats (s : SearchStats) (j : json) : Prop :=
  exists bucketing categories, enc_slice enc_num (Bucketing s) bucketing /\ enc_categories (Categories s) categories /\
    j = obj [("bucketing", Some bucketing); ("categories", Some categories)].
(** search_types.go:115-124, with the fields that M_Search leaves out *)
Record wire_response := MkWire { wr_Request : option (SearchRequest RE); wr_Response : SearchResponse; wr_Duration : Z }.
Definition enc_option {A} (enc : A -> json -> Prop) (o : option A) (j : option json) : Prop :=
  match o with None => j = None | Some x => exists j', j = Some j' /\ enc x j' end.
Definition enc_response (w : wire_response) (j : json) : Prop :=
  let r := wr_Response w in
  exists request sources traces stats problems,
    enc_option enc_request (wr_Request w) request /\ enc_slice enc_string (resp_Sources r) sources /\
    enc_slice enc_static (resp_Traces r) traces /\ enc_option enc_stats (resp_Stats r) stats /\ enc_slice_omit enc_string (resp_Problems r) problems /\
    j = obj [("request", request); ("sources", Some sources); ("total_count", Some (JNum (resp_TotalCount r))); ("match_count", Some (JNum (resp_MatchCount r)));
             ("traces", Some traces); ("stats", stats); ("problems", problems); ("duration", Some (JNum (wr_Duration w)))].
(** trcweb/trace_server.go:99-103; Problems is not transmitted *)
Definition enc_data (req : SearchRequest RE) (w : wire_response) (j : json) : Prop :=
  exists request response, enc_request req request /\ enc_response w response /\ j = obj [("request", Some request); ("response", Some response)].

(** *** Decoding: a missing field and null leave the zero value; None is an error. *)
(** the last value for a key wins; encoding/json also accepts keys in other case, which
    encoders do not write *)
Fixpoint field (k : string) (l : list (string * json)) : json :=
  match l with
  | [] => JNull
  | (k', j) :: l => match field k l with JNull => if String.eqb k k' then j else JNull | j' => j' end
  end.
Definition obind {A B} (o : option A) (f : A -> option B) : option B := match o with Some x => f x | None => None end.
Notation "x <-- m ;; k" := (obind m (fun x => k)) (at level 100, m at next level, right associativity).
Definition dec_obj (j : json) : option (list (string * json)) := match j with JNull => Some [] | JObj l => Some l | _ => None end.
Definition dec_string (j : json) : option string := match j with JNull => Some "" | JStr s => Some s | _ => None end.
Definition dec_num (j : json) : option Z := match j with JNull => Some 0 | JNum n => Some n | _ => None end.
Definition dec_bool (j : json) : option bool := match j with JNull => Some false | JBool b => Some b | _ => None end.
Definition dec_time (j : json) : option Z := match j with JNull => Some 0 | JStr s => parse_time s | _ => None end.
Definition dec_pointer {A} (dec : json -> option A) (j : json) : option (option A) := match j with JNull => Some None | _ => option_map Some (dec j) end.
Fixpoint dec_all {A} (dec : json -> option A) (l : list json) : option (list A) :=
  match l with [] => Some [] | j :: l => x <-- dec j ;; xs <-- dec_all dec l ;; Some (x :: xs) end.
Definition dec_slice {A} (dec : json -> option A) (j : json) : option (list A) := match j with JNull => Some [] | JArr l => dec_all dec l | _ => None end.
Fixpoint dec_pairs {A} (dec : json -> option A) (l : list (string * json)) (m : list (string * A)) : option (list (string * A)) :=
  match l with [] => Some m | (k, j) :: l => x <-- dec j ;; dec_pairs dec l (map_set k x m) end.
Definition dec_map {A} (dec : json -> option A) (j : json) : option (list (string * A)) := o <-- dec_obj j ;; dec_pairs dec o [].

Definition dec_frame (j : json) : option Frame :=
  o <-- dec_obj j ;; fn <-- dec_string (field "function" o) ;; fl <-- dec_string (field "fileline" o) ;; Some (MkFrame fn fl).
Definition dec_event (j : json) : option Event :=
  o <-- dec_obj j ;; when <-- dec_time (field "when" o) ;; what <-- dec_string (field "what" o) ;;
  stack <-- dec_slice dec_frame (field "stack" o) ;; e <-- dec_bool (field "is_error" o) ;; Some (MkEvent when what stack e).
Definition dec_static (j : json) : option StaticTrace :=
  o <-- dec_obj j ;; source <-- dec_string (field "source" o) ;; id <-- dec_string (field "id" o) ;; category <-- dec_string (field "category" o) ;;
  started <-- dec_time (field "started" o) ;; duration <-- dec_num (field "duration" o) ;; str <-- dec_string (field "duration_str" o) ;;
  finished <-- dec_bool (field "finished" o) ;; errored <-- dec_bool (field "errored" o) ;; events <-- dec_slice dec_event (field "events" o) ;;
  Some (MkStatic source id category started duration str finished errored events).
Definition dec_filter (j : json) : option (Filter RE) :=
  o <-- dec_obj j ;; sources <-- dec_slice dec_string (field "sources" o) ;; ids <-- dec_slice dec_string (field "ids" o) ;;
  category <-- dec_string (field "category" o) ;; active <-- dec_bool (field "is_active" o) ;; finished <-- dec_bool (field "is_finished" o) ;;
  min <-- dec_pointer dec_num (field "min_duration" o) ;; success <-- dec_bool (field "is_success" o) ;; errored <-- dec_bool (field "is_errored" o) ;;
  query <-- dec_string (field "query" o) ;; Some (MkFilter sources ids category active finished min success errored query None).
Definition dec_request (j : json) : option (SearchRequest RE) :=
  o <-- dec_obj j ;; bucketing <-- dec_slice dec_num (field "bucketing" o) ;; filter <-- dec_filter (field "filter" o) ;;
  limit <-- dec_num (field "limit" o) ;; depth <-- dec_num (field "stack_depth" o) ;; Some (MkReq bucketing filter limit depth).
Definition dec_category_stats (j : json) : option CategoryStats :=
  o <-- dec_obj j ;; category <-- dec_string (field "category" o) ;; events <-- dec_num (field "event_count" o) ;; active <-- dec_num (field "active_count" o) ;;
  counts <-- dec_slice dec_num (field "bucket_counts" o) ;; errored <-- dec_num (field "errored_count" o) ;;
  oldest <-- dec_time (field "oldest" o) ;; newest <-- dec_time (field "newest" o) ;; Some (MkCS category events active counts errored oldest newest).
Definition dec_stats (j : json) : option SearchStats :=
  o <-- dec_obj j ;; bucketing <-- dec_slice dec_num (field "bucketing" o) ;; categories <-- dec_map dec_category_stats (field "categories" o) ;;
  Some (MkSS bucketing categories).
Definition dec_response (j : json) : option wire_response :=
  o <-- dec_obj j ;; request <-- dec_pointer dec_request (field "request" o) ;; sources <-- dec_slice dec_string (field "sources" o) ;;
  total <-- dec_num (field "total_count" o) ;; matched <-- dec_num (field "match_count" o) ;; traces <-- dec_slice dec_static (field "traces" o) ;;
  stats <-- dec_pointer dec_stats (field "stats" o) ;; problems <-- dec_slice dec_string (field "problems" o) ;; duration <-- dec_num (field "duration" o) ;;
  Some (MkWire request (MkResp sources total matched traces stats problems) duration).
Definition dec_data (j : json) : option wire_response :=
  o <-- dec_obj j ;; _ <-- dec_request (field "request" o) ;; dec_response (field "response" o).

(** *** A search through the client *)
Variable Compile : string -> RE + string.
Variable float_part : Z -> Z -> Z -> Z.
(** trcweb/trace_server.go:179-222 on the client, 105-154 on the server, trcweb/render.go:61-81.
    [remote Search req w]: some exchange in which client and server encode and decode ends
    with the client returning w.  The body is at most 1 MB; HTTP itself is not modelled. *)
Definition remote (Search : SearchRequest RE -> res (SearchRequest RE * (SearchResponse + string))) (req : SearchRequest RE) (w : wire_response) : Prop :=
  exists body req' data duration answer,
    enc_request req body /\ dec_request body = Some req' /\
    handleSearch Compile float_part Search (IJSON (inl req')) = Ok (ORendered data) /\
    enc_data (d_Request data) (MkWire (Some (d_Request data)) (d_Response data) duration) answer /\
    dec_data answer = Some w.
End Json.
Arguments wire_response : clear implicits.

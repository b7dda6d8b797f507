(** The flags of the command line tool (cmd/trc/trc.go:39-56, cmd/trc/search.go:25-30, cmd/trc/stream.go:31-37). *)
From Verif Require Import Go M_Types M_Filter M_Humanize M_Web.
Open Scope string_scope.
Open Scope list_scope.
Open Scope Z_scope.

(** The fields that flags point to, and whether --duration is set (cmd/trc/main.go:155). *)
Record config := MkConfig {
  c_uris : list string; c_uriPath : string; c_logLevel : string; c_output : string;
  c_sources : list string; c_ids : list string; c_category : string; c_query : string; c_isActive : bool; c_isFinished : bool;
  c_minDuration : Z; c_durationIsSet : bool; c_isSuccess : bool; c_isErrored : bool;
  c_limit : Z; c_stackDepth : Z; c_includeRequest : bool; c_includeStats : bool;
  c_streamEvents : bool; c_sendBuf : Z; c_recvBuf : Z; c_statsInterval : Z; c_retryInterval : Z }.

Section Flags.
(** How package ffval reads the values of the types: strconv and time. *)
Variable parse_bool : string -> option bool.
Variable parse_int : string -> option Z.
Variable parse_duration : string -> option Z.

(** ffval: setting a flag to a value, through its pointer; None is an error. *)
Definition setter := string -> config -> option config.
Definition option_of {A} (parse : string -> option A) (store : A -> config -> config) : setter :=
  fun v c => match parse v with Some a => Some (store a c) | None => None end.
(** ffval.NewValue, ffval.NewValueDefault for a string *)
Definition text (store : string -> config -> config) : setter := fun v c => Some (store v c).
(** ffval.NewUniqueList: values that are there already are not added *)
Definition add_unique (l : list string) (v : string) : list string := if existsb (String.eqb v) l then l else l ++ [v].
(** ffval.NewEnum *)
Definition enum (valid : list string) (store : string -> config -> config) : setter :=
  fun v c => if existsb (String.eqb v) valid then Some (store v c) else None.

(** storing through a pointer to a field *)
Definition set_uris (v : list string) (c : config) : config :=
  MkConfig v (c_uriPath c) (c_logLevel c) (c_output c) (c_sources c) (c_ids c) (c_category c) (c_query c) (c_isActive c) (c_isFinished c) (c_minDuration c) (c_durationIsSet c) (c_isSuccess c) (c_isErrored c) (c_limit c) (c_stackDepth c) (c_includeRequest c) (c_includeStats c) (c_streamEvents c) (c_sendBuf c) (c_recvBuf c) (c_statsInterval c) (c_retryInterval c).
Definition set_uriPath (v : string) (c : config) : config :=
  MkConfig (c_uris c) v (c_logLevel c) (c_output c) (c_sources c) (c_ids c) (c_category c) (c_query c) (c_isActive c) (c_isFinished c) (c_minDuration c) (c_durationIsSet c) (c_isSuccess c) (c_isErrored c) (c_limit c) (c_stackDepth c) (c_includeRequest c) (c_includeStats c) (c_streamEvents c) (c_sendBuf c) (c_recvBuf c) (c_statsInterval c) (c_retryInterval c).
Definition set_logLevel (v : string) (c : config) : config :=
  MkConfig (c_uris c) (c_uriPath c) v (c_output c) (c_sources c) (c_ids c) (c_category c) (c_query c) (c_isActive c) (c_isFinished c) (c_minDuration c) (c_durationIsSet c) (c_isSuccess c) (c_isErrored c) (c_limit c) (c_stackDepth c) (c_includeRequest c) (c_includeStats c) (c_streamEvents c) (c_sendBuf c) (c_recvBuf c) (c_statsInterval c) (c_retryInterval c).
Definition set_output (v : string) (c : config) : config :=
  MkConfig (c_uris c) (c_uriPath c) (c_logLevel c) v (c_sources c) (c_ids c) (c_category c) (c_query c) (c_isActive c) (c_isFinished c) (c_minDuration c) (c_durationIsSet c) (c_isSuccess c) (c_isErrored c) (c_limit c) (c_stackDepth c) (c_includeRequest c) (c_includeStats c) (c_streamEvents c) (c_sendBuf c) (c_recvBuf c) (c_statsInterval c) (c_retryInterval c).
Definition set_sources (v : list string) (c : config) : config :=
  MkConfig (c_uris c) (c_uriPath c) (c_logLevel c) (c_output c) v (c_ids c) (c_category c) (c_query c) (c_isActive c) (c_isFinished c) (c_minDuration c) (c_durationIsSet c) (c_isSuccess c) (c_isErrored c) (c_limit c) (c_stackDepth c) (c_includeRequest c) (c_includeStats c) (c_streamEvents c) (c_sendBuf c) (c_recvBuf c) (c_statsInterval c) (c_retryInterval c).
Definition set_ids (v : list string) (c : config) : config :=
  MkConfig (c_uris c) (c_uriPath c) (c_logLevel c) (c_output c) (c_sources c) v (c_category c) (c_query c) (c_isActive c) (c_isFinished c) (c_minDuration c) (c_durationIsSet c) (c_isSuccess c) (c_isErrored c) (c_limit c) (c_stackDepth c) (c_includeRequest c) (c_includeStats c) (c_streamEvents c) (c_sendBuf c) (c_recvBuf c) (c_statsInterval c) (c_retryInterval c).
Definition set_category (v : string) (c : config) : config :=
  MkConfig (c_uris c) (c_uriPath c) (c_logLevel c) (c_output c) (c_sources c) (c_ids c) v (c_query c) (c_isActive c) (c_isFinished c) (c_minDuration c) (c_durationIsSet c) (c_isSuccess c) (c_isErrored c) (c_limit c) (c_stackDepth c) (c_includeRequest c) (c_includeStats c) (c_streamEvents c) (c_sendBuf c) (c_recvBuf c) (c_statsInterval c) (c_retryInterval c).
Definition set_query (v : string) (c : config) : config :=
  MkConfig (c_uris c) (c_uriPath c) (c_logLevel c) (c_output c) (c_sources c) (c_ids c) (c_category c) v (c_isActive c) (c_isFinished c) (c_minDuration c) (c_durationIsSet c) (c_isSuccess c) (c_isErrored c) (c_limit c) (c_stackDepth c) (c_includeRequest c) (c_includeStats c) (c_streamEvents c) (c_sendBuf c) (c_recvBuf c) (c_statsInterval c) (c_retryInterval c).
Definition set_isActive (v : bool) (c : config) : config :=
  MkConfig (c_uris c) (c_uriPath c) (c_logLevel c) (c_output c) (c_sources c) (c_ids c) (c_category c) (c_query c) v (c_isFinished c) (c_minDuration c) (c_durationIsSet c) (c_isSuccess c) (c_isErrored c) (c_limit c) (c_stackDepth c) (c_includeRequest c) (c_includeStats c) (c_streamEvents c) (c_sendBuf c) (c_recvBuf c) (c_statsInterval c) (c_retryInterval c).
Definition set_isFinished (v : bool) (c : config) : config :=
  MkConfig (c_uris c) (c_uriPath c) (c_logLevel c) (c_output c) (c_sources c) (c_ids c) (c_category c) (c_query c) (c_isActive c) v (c_minDuration c) (c_durationIsSet c) (c_isSuccess c) (c_isErrored c) (c_limit c) (c_stackDepth c) (c_includeRequest c) (c_includeStats c) (c_streamEvents c) (c_sendBuf c) (c_recvBuf c) (c_statsInterval c) (c_retryInterval c).
Definition set_minDuration (v : Z) (c : config) : config :=
  MkConfig (c_uris c) (c_uriPath c) (c_logLevel c) (c_output c) (c_sources c) (c_ids c) (c_category c) (c_query c) (c_isActive c) (c_isFinished c) v (c_durationIsSet c) (c_isSuccess c) (c_isErrored c) (c_limit c) (c_stackDepth c) (c_includeRequest c) (c_includeStats c) (c_streamEvents c) (c_sendBuf c) (c_recvBuf c) (c_statsInterval c) (c_retryInterval c).
Definition set_durationIsSet (v : bool) (c : config) : config :=
  MkConfig (c_uris c) (c_uriPath c) (c_logLevel c) (c_output c) (c_sources c) (c_ids c) (c_category c) (c_query c) (c_isActive c) (c_isFinished c) (c_minDuration c) v (c_isSuccess c) (c_isErrored c) (c_limit c) (c_stackDepth c) (c_includeRequest c) (c_includeStats c) (c_streamEvents c) (c_sendBuf c) (c_recvBuf c) (c_statsInterval c) (c_retryInterval c).
Definition set_isSuccess (v : bool) (c : config) : config :=
  MkConfig (c_uris c) (c_uriPath c) (c_logLevel c) (c_output c) (c_sources c) (c_ids c) (c_category c) (c_query c) (c_isActive c) (c_isFinished c) (c_minDuration c) (c_durationIsSet c) v (c_isErrored c) (c_limit c) (c_stackDepth c) (c_includeRequest c) (c_includeStats c) (c_streamEvents c) (c_sendBuf c) (c_recvBuf c) (c_statsInterval c) (c_retryInterval c).
Definition set_isErrored (v : bool) (c : config) : config :=
  MkConfig (c_uris c) (c_uriPath c) (c_logLevel c) (c_output c) (c_sources c) (c_ids c) (c_category c) (c_query c) (c_isActive c) (c_isFinished c) (c_minDuration c) (c_durationIsSet c) (c_isSuccess c) v (c_limit c) (c_stackDepth c) (c_includeRequest c) (c_includeStats c) (c_streamEvents c) (c_sendBuf c) (c_recvBuf c) (c_statsInterval c) (c_retryInterval c).
Definition set_limit (v : Z) (c : config) : config :=
  MkConfig (c_uris c) (c_uriPath c) (c_logLevel c) (c_output c) (c_sources c) (c_ids c) (c_category c) (c_query c) (c_isActive c) (c_isFinished c) (c_minDuration c) (c_durationIsSet c) (c_isSuccess c) (c_isErrored c) v (c_stackDepth c) (c_includeRequest c) (c_includeStats c) (c_streamEvents c) (c_sendBuf c) (c_recvBuf c) (c_statsInterval c) (c_retryInterval c).
Definition set_stackDepth (v : Z) (c : config) : config :=
  MkConfig (c_uris c) (c_uriPath c) (c_logLevel c) (c_output c) (c_sources c) (c_ids c) (c_category c) (c_query c) (c_isActive c) (c_isFinished c) (c_minDuration c) (c_durationIsSet c) (c_isSuccess c) (c_isErrored c) (c_limit c) v (c_includeRequest c) (c_includeStats c) (c_streamEvents c) (c_sendBuf c) (c_recvBuf c) (c_statsInterval c) (c_retryInterval c).
Definition set_includeRequest (v : bool) (c : config) : config :=
  MkConfig (c_uris c) (c_uriPath c) (c_logLevel c) (c_output c) (c_sources c) (c_ids c) (c_category c) (c_query c) (c_isActive c) (c_isFinished c) (c_minDuration c) (c_durationIsSet c) (c_isSuccess c) (c_isErrored c) (c_limit c) (c_stackDepth c) v (c_includeStats c) (c_streamEvents c) (c_sendBuf c) (c_recvBuf c) (c_statsInterval c) (c_retryInterval c).
Definition set_includeStats (v : bool) (c : config) : config :=
  MkConfig (c_uris c) (c_uriPath c) (c_logLevel c) (c_output c) (c_sources c) (c_ids c) (c_category c) (c_query c) (c_isActive c) (c_isFinished c) (c_minDuration c) (c_durationIsSet c) (c_isSuccess c) (c_isErrored c) (c_limit c) (c_stackDepth c) (c_includeRequest c) v (c_streamEvents c) (c_sendBuf c) (c_recvBuf c) (c_statsInterval c) (c_retryInterval c).
Definition set_streamEvents (v : bool) (c : config) : config :=
  MkConfig (c_uris c) (c_uriPath c) (c_logLevel c) (c_output c) (c_sources c) (c_ids c) (c_category c) (c_query c) (c_isActive c) (c_isFinished c) (c_minDuration c) (c_durationIsSet c) (c_isSuccess c) (c_isErrored c) (c_limit c) (c_stackDepth c) (c_includeRequest c) (c_includeStats c) v (c_sendBuf c) (c_recvBuf c) (c_statsInterval c) (c_retryInterval c).
Definition set_sendBuf (v : Z) (c : config) : config :=
  MkConfig (c_uris c) (c_uriPath c) (c_logLevel c) (c_output c) (c_sources c) (c_ids c) (c_category c) (c_query c) (c_isActive c) (c_isFinished c) (c_minDuration c) (c_durationIsSet c) (c_isSuccess c) (c_isErrored c) (c_limit c) (c_stackDepth c) (c_includeRequest c) (c_includeStats c) (c_streamEvents c) v (c_recvBuf c) (c_statsInterval c) (c_retryInterval c).
Definition set_recvBuf (v : Z) (c : config) : config :=
  MkConfig (c_uris c) (c_uriPath c) (c_logLevel c) (c_output c) (c_sources c) (c_ids c) (c_category c) (c_query c) (c_isActive c) (c_isFinished c) (c_minDuration c) (c_durationIsSet c) (c_isSuccess c) (c_isErrored c) (c_limit c) (c_stackDepth c) (c_includeRequest c) (c_includeStats c) (c_streamEvents c) (c_sendBuf c) v (c_statsInterval c) (c_retryInterval c).
Definition set_statsInterval (v : Z) (c : config) : config :=
  MkConfig (c_uris c) (c_uriPath c) (c_logLevel c) (c_output c) (c_sources c) (c_ids c) (c_category c) (c_query c) (c_isActive c) (c_isFinished c) (c_minDuration c) (c_durationIsSet c) (c_isSuccess c) (c_isErrored c) (c_limit c) (c_stackDepth c) (c_includeRequest c) (c_includeStats c) (c_streamEvents c) (c_sendBuf c) (c_recvBuf c) v (c_retryInterval c).
Definition set_retryInterval (v : Z) (c : config) : config :=
  MkConfig (c_uris c) (c_uriPath c) (c_logLevel c) (c_output c) (c_sources c) (c_ids c) (c_category c) (c_query c) (c_isActive c) (c_isFinished c) (c_minDuration c) (c_durationIsSet c) (c_isSuccess c) (c_isErrored c) (c_limit c) (c_stackDepth c) (c_includeRequest c) (c_includeStats c) (c_streamEvents c) (c_sendBuf c) (c_recvBuf c) (c_statsInterval c) v.

Record flag := MkFlag { fl_short : option ascii; fl_long : string; fl_set : setter }.
(** cmd/trc/trc.go:40-43 *)
Definition base_flags : list flag := [
  MkFlag (Some "u"%char) "uri" (fun v c => Some (set_uris (add_unique (c_uris c) v) c));
  MkFlag None "uri-path" (text set_uriPath);
  MkFlag (Some "l"%char) "log" (enum ["info"; "i"; "debug"; "d"; "trace"; "t"; "none"; "n"] set_logLevel);
  MkFlag (Some "o"%char) "output" (enum ["ndjson"; "prettyjson"] set_output)].
(** cmd/trc/trc.go:47-55 *)
Definition filter_flags : list flag := [
  MkFlag None "source" (fun v c => Some (set_sources (add_unique (c_sources c) v) c));
  MkFlag (Some "i"%char) "id" (fun v c => Some (set_ids (add_unique (c_ids c) v) c));
  MkFlag (Some "c"%char) "category" (text set_category);
  MkFlag (Some "q"%char) "query" (text set_query);
  MkFlag (Some "a"%char) "active" (option_of parse_bool set_isActive);
  MkFlag (Some "f"%char) "finished" (option_of parse_bool set_isFinished);
  MkFlag (Some "d"%char) "duration" (option_of parse_duration (fun d c => set_durationIsSet true (set_minDuration d c)));
  MkFlag None "success" (option_of parse_bool set_isSuccess);
  MkFlag None "errored" (option_of parse_bool set_isErrored)].
(** cmd/trc/search.go:26-29 *)
Definition search_flags : list flag := [
  MkFlag (Some "n"%char) "limit" (option_of parse_int set_limit);
  MkFlag None "stack-depth" (option_of parse_int set_stackDepth);
  MkFlag None "include-request" (option_of parse_bool set_includeRequest);
  MkFlag None "include-stats" (option_of parse_bool set_includeStats)].
(** cmd/trc/stream.go:32-36 *)
Definition stream_flags : list flag := [
  MkFlag (Some "e"%char) "events" (option_of parse_bool set_streamEvents);
  MkFlag None "send-buffer" (option_of parse_int set_sendBuf);
  MkFlag None "recv-buffer" (option_of parse_int set_recvBuf);
  MkFlag None "stats-interval" (option_of parse_duration set_statsInterval);
  MkFlag None "retry-interval" (option_of parse_duration set_retryInterval)].
(** cmd/trc/main.go:47-53, 59-60, 72-73: the flags of the parents come after a command's own *)
Definition trc_flags : list flag := filter_flags ++ base_flags.
Inductive command := Csearch | Cstream.
Definition command_flags (cmd : command) : list flag :=
  match cmd with Csearch => search_flags | Cstream => stream_flags end ++ trc_flags.

(** The default values: of ffval.NewValueDefault and ffval.NewEnum, and Go's for the others. *)
Definition default_config : config :=
  MkConfig [] "" "info" "ndjson" [] [] "" "" false false 0 false false false 10 0 false false false 100 100 (10 * Second) (1 * Second).

(** A flag on the command line, as -x or as --name, and its value ("true" for a flag without one). *)
Inductive name := Short (c : ascii) | Long (s : string).
Definition named (n : name) (f : flag) : bool :=
  match n with
  | Short c => match fl_short f with Some d => Ascii.eqb c d | None => false end
  | Long s => String.eqb s (fl_long f)
  end.
(** ff.FlagSet.Parse: each flag in the order given; an unknown flag or a wrong value is an error *)
Definition give (flags : list flag) (g : name * string) (c : config) : option config :=
  match find (named (fst g)) flags with Some f => fl_set f (snd g) c | None => None end.
Fixpoint parse (flags : list flag) (l : list (name * string)) (c : config) : option config :=
  match l with
  | [] => Some c
  | g :: l => match give flags g c with Some c => parse flags l c | None => None end
  end.
Definition configure (cmd : command) (l : list (name * string)) : option config := parse (command_flags cmd) l default_config.

(** cmd/trc/main.go:154-171 *)
Definition flags_of (c : config) : flags :=
  MkFlags (c_sources c) (c_ids c) (c_category c) (c_isActive c) (c_isFinished c)
          (if c_durationIsSet c then Some (c_minDuration c) else None) (c_isSuccess c) (c_isErrored c) (c_query c).
End Flags.

(** The command line tool as a process: what it writes where, and its exit status
    (cmd/trc/main.go:21-178, cmd/trc/util.go:20-25).  Parsing the arguments (package ff), and what
    the commands do, are arbitrary. *)
From Verif Require Import Go M_Strings M_Types M_Frame M_Filter M_Stats M_Search M_Decor M_Web M_Json M_Cli.
Open Scope string_scope.
Open Scope list_scope.
Open Scope Z_scope.

Definition nl : string := String (ascii_of_nat 10) EmptyString.
(** An error: its text, and the well-known errors it wraps (errors.Is, errors.As) *)
Inductive known := ErrHelp | ErrNoExec | Canceled | SignalError.
Definition known_eqb (a b : known) : bool :=
  match a, b with ErrHelp, ErrHelp | ErrNoExec, ErrNoExec | Canceled, Canceled | SignalError, SignalError => true | _, _ => false end.
Record error := MkErr { e_text : string; e_wraps : list known }.
Definition errors_is (e : error) (k : known) : bool := existsb (known_eqb k) (e_wraps e).

(** A write to one of the streams of the process *)
Inductive stream := Stdout | Stderr.
Definition write := (stream * string)%type.
(** What a command does, as far as it can be seen from outside: a line on one of the three loggers,
    or a write to the standard output *)
Inductive action := Info (line : string) | Debug (line : string) | Trace (line : string) | Print (text : string).

(** log.Logger.Output: the prefix and the text, with a newline if it has none *)
Definition log_line (prefix line : string) : string :=
  if HasSuffix line nl then (prefix ++ line)%string else (prefix ++ line ++ nl)%string.
(** cmd/trc/main.go:106-118: which loggers go to stderr; the others go nowhere.  None: invalid *)
Record loggers := MkLoggers { l_info : bool; l_debug : bool; l_trace : bool }.
Definition log_level (level : string) : option loggers :=
  if String.eqb level "n" || String.eqb level "none" then Some (MkLoggers false false false)
  else if String.eqb level "i" || String.eqb level "info" then Some (MkLoggers true false false)
  else if String.eqb level "d" || String.eqb level "debug" then Some (MkLoggers true true false)
  else if String.eqb level "t" || String.eqb level "trace" then Some (MkLoggers true true true)
  else None.
(** cmd/trc/main.go:119-121; cmd/trc/util.go:22-25 for the events of the command's own trace *)
Definition perform (l : loggers) (a : action) : list write :=
  match a with
  | Info line => if l_info l then [(Stderr, log_line "" line)] else []
  | Debug line => if l_debug l then [(Stderr, log_line "[DEBUG] " line)] else []
  | Trace line => if l_trace l then [(Stderr, log_line "[TRACE] " line)] else []
  | Print text => [(Stdout, text)]
  end.
Definition perform_all (l : loggers) (actions : list action) : list write := flat_map (perform l) actions.

Section Main.
Context {URL C : Type}.
(** net/url: the address, or the text of an error *)
Variable ParseRequestURI : string -> URL + string.
Variable with_path : URL -> string -> URL.
Variable url_string : URL -> string.
(** ff.Command.Parse, with the environment, and what is configured for the rest *)
Record config := MkConfig { c_level : string; c_uris : list string; c_uriPath : string; c_duration : option string; c_rest : C }.
Variable Parse : list string -> config + error.
(** ff.Command.Run: the chosen command, with the addresses *)
Variable Run : C -> list string -> list action * option error.
(** ffhelp.Command, fmt's %q *)
Variable help : string.
Variable quote : string -> string.

(** cmd/trc/main.go:128-151: the addresses, or an error; and the lines logged on the way *)
Fixpoint exec_uris (uriPath : string) (uris : list string) : list action * (list string + error) :=
  match uris with
  | [] => ([], inl [])
  | uri0 :: uris =>
      let uri := TrimSpace uri0 in
      if String.eqb uri "" then
        let '(lines, r) := exec_uris uriPath uris in
        (lines, match r with inl us => inl (uri0 :: us) | inr e => inr e end)
      else
        let uri := if negb (HasPrefix uri "http") then ("http://" ++ uri)%string else uri in
        match ParseRequestURI uri with
        | inr err => ([], inr (MkErr (uri ++ ": invalid: " ++ err)%string []))
        | inl u =>
            let u := if negb (String.eqb uriPath "") then with_path u uriPath else u in
            let uri := url_string u in
            let '(lines, r) := exec_uris uriPath uris in
            (Debug ("URI: " ++ uri)%string :: lines, match r with inl us => inl (uri :: us) | inr e => inr e end)
        end
  end.
(** cmd/trc/main.go:99-178 without the deferred function: the writes, the error, and whether help
    is to be shown in any case *)
Definition exec_body (args : list string) : list write * option error * bool :=
  match Parse args with
  | inr err => ([], Some err, true)
  | inl cfg =>
      match log_level (c_level cfg) with
      | None => ([], Some (MkErr ("invalid log level " ++ quote (c_level cfg))%string []), true)
      | Some l =>
          if zlen (c_uris cfg) <=? 0 then ([], Some (MkErr "at least one URI is required" []), true)
          else
            let '(lines, r) := exec_uris (c_uriPath cfg) (c_uris cfg) in
            match r with
            | inr err => (perform_all l lines, Some err, true)
            | inl uris =>
                let lines := lines ++ match c_duration cfg with Some d => [Debug ("using --duration " ++ d)%string] | None => [] end in
                let '(actions, err) := Run (c_rest cfg) uris in
                (perform_all l lines ++ perform_all l actions, err, false)
            end
      end
  end.
(** cmd/trc/main.go:87-97, the deferred function *)
Definition exec (args : list string) : list write * option error :=
  let '(writes, err, showHelp) := exec_body args in
  let errHelp := match err with Some e => errors_is e ErrHelp || errors_is e ErrNoExec | None => false end in
  (writes ++ (if showHelp || errHelp then [(Stderr, (nl ++ help ++ nl)%string)] else []),
   if errHelp then None else err).
(** cmd/trc/main.go:21-37: the writes and the exit status *)
Definition main (args : list string) : list write * Z :=
  let '(writes, err) := exec args in
  match err with
  | None => (writes, 0)
  | Some e =>
      if errors_is e Canceled || errors_is e SignalError then (writes, 0)
      else (writes ++ [(Stderr, ("error: " ++ e_text e ++ nl)%string)], 1)
  end.
End Main.

(** cmd/trc/search.go:48-97, 32-46: what trc search does after the servers have been asked: lines for
    the debug log ([lines]) and the result, encoded, on standard output *)
Definition search_exec {RE} (Compile : string -> RE + string) (encode : wire_response RE -> string + error) (lines : list string)
           (sort : list StaticTrace -> list StaticTrace) (orders : nat -> list string -> list string)
           (arrivals : list (@tuple)) (duration : Z) (cfg : search_config) : res (list action * option error) :=
  out <- cli_search Compile sort orders arrivals duration cfg ;;
  Ok (match encode out with
      | inl text => (map Debug lines ++ [Print text], None)
      | inr err => (map Debug lines, Some (MkErr ("marshal response: " ++ e_text err)%string (e_wraps err)))
      end).

(** Specification for C98: what is on a stream, which lines a log level lets through, and when a
    command is run at all. *)
From Verif Require Import Go M_Strings M_Types M_Cli M_Main.
Open Scope string_scope.
Open Scope Z_scope.

Definition same_stream (a b : stream) : bool := match a, b with Stdout, Stdout | Stderr, Stderr => true | _, _ => false end.
(** everything written to a stream *)
Definition text_on (s : stream) (writes : list write) : string := String.concat "" (map snd (filter (fun w => same_stream s (fst w)) writes)).
(** what a command prints *)
Definition printed (actions : list action) : string := String.concat "" (flat_map (fun a => match a with Print t => [t] | _ => [] end) actions).

(** The levels, from quiet to chatty, under both of their names. *)
Definition level_of (name : string) : option Z :=
  map_get name [("none", 0); ("n", 0); ("info", 1); ("i", 1); ("debug", 2); ("d", 2); ("trace", 3); ("t", 3)].
(** A text as a line of its own: with a newline at the end, unless it has one. *)
Definition end_of_line : ascii := "010"%char.
Fixpoint as_line (text : string) : string :=
  match text with
  | EmptyString => String end_of_line EmptyString
  | String c EmptyString => if Ascii.eqb c end_of_line then text else String c (String end_of_line EmptyString)
  | String c rest => String c (as_line rest)
  end.
(** the lines that a level lets through, as they are shown: a level shows its own and all lower ones *)
Definition shown_line (level : Z) (a : action) : string :=
  match a with
  | Info l => if 1 <=? level then as_line l else ""
  | Debug l => if 2 <=? level then "[DEBUG] " ++ as_line l else ""
  | Trace l => if 3 <=? level then "[TRACE] " ++ as_line l else ""
  | Print _ => ""
  end.
Definition shown_lines (level : Z) (actions : list action) : string := String.concat "" (map (shown_line level) actions).

(** How the process ends after an error, or none: the last things on stderr, and the exit status.
    An error that wraps one of the known ones is none for the caller. *)
Definition asks_for_help (e : error) : bool := existsb (fun k => match k with ErrHelp | ErrNoExec => true | _ => false end) (e_wraps e).
Definition last_words (help : string) (always_help : bool) (err : option error) : string :=
  match err with
  | None => if always_help then as_line "" ++ help ++ as_line "" else ""
  | Some e =>
      (if always_help || asks_for_help e then as_line "" ++ help ++ as_line "" else "") ++
      match e_wraps e with [] => "error: " ++ e_text e ++ as_line "" | _ => "" end
  end.
Definition status (err : option error) : Z :=
  match err with None => 0 | Some e => match e_wraps e with [] => 1 | _ => 0 end end.
(** Everything is in order, so that the command is run with these addresses. *)
Definition in_order {URL C} (ParseRequestURI : string -> URL + string) (with_path : URL -> string -> URL) (url_string : URL -> string)
           (Parse : list string -> @config C + error) (args : list string) (cfg : @config C) (level : Z) (uris : list string) : Prop :=
  Parse args = inl cfg /\ level_of (c_level cfg) = Some level /\
  prepare_uris (fun u => match ParseRequestURI u with inl x => Some x | inr _ => None end) with_path url_string (c_uriPath cfg) (c_uris cfg) = Some uris.
Definition is_debug (a : action) : Prop := exists l, a = Debug l.

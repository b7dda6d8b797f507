(** What the flags of a command line say. *)
From Verif Require Import Go M_Types M_Filter M_Flags S_Filter.
Open Scope string_scope.
Open Scope list_scope.
Open Scope Z_scope.

(** The values given to a flag, in order. *)
Definition is_named (short : option ascii) (long : string) (n : name) : bool :=
  match n, short with
  | Short c, Some d => Ascii.eqb c d
  | Short _, None => false
  | Long s, _ => String.eqb s long
  end.
Definition values_of (l : list (name * string)) (short : option ascii) (long : string) : list string :=
  map snd (filter (fun g => is_named short long (fst g)) l).
(** The value that counts is the last. *)
Definition last_of (l : list (name * string)) (short : option ascii) (long : string) : option string :=
  match rev (values_of l short long) with [] => None | v :: _ => Some v end.

Section Wanted.
Context {RE : Type}.
Variable Compile : string -> RE + string.
Variable MatchString : RE -> string -> bool.
Variable parse_bool : string -> option bool.
Variable parse_int : string -> option Z.
Variable parse_duration : string -> option Z.
Variable l : list (name * string).

(** A flag without a value is "true". *)
Definition switched_on (short : option ascii) (long : string) : Prop :=
  exists v, last_of l short long = Some v /\ parse_bool v = Some true.
Definition number (short : option ascii) (long : string) (default n : Z) : Prop :=
  match last_of l short long with Some v => parse_int v = Some n | None => n = default end.
Definition duration (short : option ascii) (long : string) (default d : Z) : Prop :=
  match last_of l short long with Some v => parse_duration v = Some d | None => d = default end.

(** The conditions besides --active and --finished: "trace source (repeatable)", "trace ID (repeatable)", "trace category",
    "query expression", "only finished traces of at least this duration", "only successful (non-errored) traces" and
    "only errored traces". *)
Definition wanted (tr : StaticTrace) : Prop :=
  (values_of l None "source" = [] \/ In (TraceSource tr) (values_of l None "source")) /\
  (values_of l (Some "i"%char) "id" = [] \/ In (TraceID tr) (values_of l (Some "i"%char) "id")) /\
  (forall v, last_of l (Some "c"%char) "category" = Some v -> v = "" \/ TraceCategory tr = v) /\
  (forall v, last_of l (Some "q"%char) "query" = Some v -> query_condition Compile MatchString v tr) /\
  (forall v d, last_of l (Some "d"%char) "duration" = Some v -> parse_duration v = Some d -> TraceFinished tr = true /\ d <= TraceDuration tr) /\
  (switched_on None "success" -> TraceErrored tr = false) /\
  (switched_on None "errored" -> TraceErrored tr = true).
End Wanted.

(** The flags of the commands and the values they take. *)
Inductive kind := Any | One_of (l : list string) | Switch | Number | Length.
Definition common_kinds : list (option ascii * string * kind) := [
  (Some "u"%char, "uri", Any); (None, "uri-path", Any); (Some "l"%char, "log", One_of ["i"; "info"; "d"; "debug"; "t"; "trace"; "n"; "none"]);
  (Some "o"%char, "output", One_of ["ndjson"; "prettyjson"]);
  (None, "source", Any); (Some "i"%char, "id", Any); (Some "c"%char, "category", Any); (Some "q"%char, "query", Any);
  (Some "a"%char, "active", Switch); (Some "f"%char, "finished", Switch); (Some "d"%char, "duration", Length);
  (None, "success", Switch); (None, "errored", Switch)].
Definition kinds (cmd : command) : list (option ascii * string * kind) :=
  common_kinds ++
  match cmd with
  | Csearch => [(Some "n"%char, "limit", Number); (None, "stack-depth", Number); (None, "include-request", Switch); (None, "include-stats", Switch)]
  | Cstream => [(Some "e"%char, "events", Switch); (None, "send-buffer", Number); (None, "recv-buffer", Number);
                (None, "stats-interval", Length); (None, "retry-interval", Length)]
  end.
Section Acceptable.
Variable parse_bool : string -> option bool.
Variable parse_int : string -> option Z.
Variable parse_duration : string -> option Z.
Definition valid (k : kind) (v : string) : Prop :=
  match k with
  | Any => True
  | One_of l => In v l
  | Switch => parse_bool v <> None
  | Number => parse_int v <> None
  | Length => parse_duration v <> None
  end.
Definition acceptable (cmd : command) (g : name * string) : Prop :=
  exists short long k, In (short, long, k) (kinds cmd) /\ is_named short long (fst g) = true /\ valid k (snd g).
End Acceptable.

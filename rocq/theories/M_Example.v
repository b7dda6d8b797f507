(** The key-value service of the examples (_examples/trc-basic, _examples/trc-complex; lines of trc-complex/kv.go). *)
From Verif Require Import Go.
Open Scope list_scope.
Open Scope string_scope.
Open Scope Z_scope.

(** A request: its body, or None where reading it fails. *)
Record request := MkReq { r_method : string; r_path : string; r_body : option string }.
(** What a handler does: the status and the text it writes (net/http writes status 200 where a handler names none, and
    http.Error writes the text and a new line), and the events it adds to the trace of the request, with whether they are errors. *)
Record answer := MkAns { a_status : Z; a_text : string; a_events : list (bool * string) }.
Definition newline : string := String "010"%char "".
Definition Error (status : Z) (text : string) (events : list (bool * string)) : answer := MkAns status (text ++ newline) events.

(** kv.go:165-198; a store is a map *)
Definition Store := list (string * string).
Definition Set_ (key val : string) (s : Store) : Store := map_set key val s.
Definition Get (key : string) (s : Store) : option string := map_get key s.
Definition Del (key : string) (s : Store) : Store * bool :=
  (filter (fun x => negb (String.eqb (fst x) key)) s, match map_get key s with Some _ => true | None => false end).

(** kv.go:133-135 *)
Definition getKey (path : string) : string := match path with String "/"%char rest => rest | _ => path end.
(** kv.go:17-28 *)
Definition apiCategory (r : request) : string :=
  if String.eqb (r_method r) "DELETE" then "KV Del"
  else if String.eqb (r_method r) "GET" then "KV Get"
  else if String.eqb (r_method r) "PUT" then "KV Set"
  else "KV " ++ r_method r.

Section KV.
(** strings.TrimSpace and the verb %q, which are not modelled *)
Variables TrimSpace quote : string -> string.

(** kv.go:52-80 *)
Definition handleSet (s : Store) (r : request) : Store * answer :=
  let key := getKey (r_path r) in
  if String.eqb key "" then (s, Error 400 "key required" [])
  else
    let e1 := (false, "key " ++ quote key) in
    match r_body r with
    | None => (s, Error 400 "couldn't read body" [e1])
    | Some valbuf =>
        let val := TrimSpace valbuf in
        if String.eqb val "" then (s, Error 400 "val required" [e1])
        else (Set_ key val s, MkAns 200 "" [e1; (false, "val " ++ quote val)])
    end.
(** kv.go:82-105 *)
Definition handleGet (s : Store) (r : request) : Store * answer :=
  let key := getKey (r_path r) in
  if String.eqb key "" then (s, Error 400 "key required" [(true, "key not provided")])
  else
    let e1 := (false, "key " ++ quote key) in
    match Get key s with
    | None => (s, Error 204 "not found" [e1; (true, "key not found")])
    | Some val => (s, MkAns 200 (val ++ newline) [e1; (false, "val " ++ quote val)])
    end.
(** kv.go:107-127 *)
Definition handleDel (s : Store) (r : request) : Store * answer :=
  let key := getKey (r_path r) in
  if String.eqb key "" then (s, Error 400 "key required" [(true, "key not provided")])
  else
    let e1 := (false, "key " ++ quote key) in
    let '(s, ok) := Del key s in
    if ok then (s, MkAns 200 "" [e1]) else (s, Error 204 "not found" [e1; (true, "key not found")]).
(** kv.go:38-50; [strict]: whether a method that is not allowed is an error (trc-complex, kv.go:47) or an event (trc-basic, kv.go:47) *)
Definition ServeHTTP (strict : bool) (s : Store) (r : request) : Store * answer :=
  if String.eqb (r_method r) "GET" then handleGet s r
  else if String.eqb (r_method r) "PUT" then handleSet s r
  else if String.eqb (r_method r) "DELETE" then handleDel s r
  else (s, Error 405 "method must be GET, PUT, or DELETE" [(strict, "method " ++ r_method r ++ " not allowed")]).
(** Requests one after the other, in the order in which they lock the store: a handler locks it at most once, and nothing else is
    shared. *)
Fixpoint serve (strict : bool) (s : Store) (l : list request) : Store :=
  match l with [] => s | r :: l => serve strict (fst (ServeHTTP strict s r)) l end.

(** _examples/trc-basic/main.go:47-49: the pattern /api has no slash at its end, so that a ServeMux takes it for this path alone;
    http.StripPrefix cuts it off.  The rest of the paths belongs to /traces or to nobody: None. *)
Definition mux_api (strict : bool) (s : Store) (r : request) : option (Store * answer) :=
  if String.eqb (r_path r) "/api" then Some (ServeHTTP strict s (MkReq (r_method r) "" (r_body r))) else None.
Fixpoint mux_serve (strict : bool) (s : Store) (l : list request) : Store :=
  match l with [] => s | r :: l => mux_serve strict (match mux_api strict s r with Some (s, _) => s | None => s end) l end.
End KV.

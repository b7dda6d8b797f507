(** The lines that are recorded of a request, and what a reader sees of them: spec for C113. *)
From Verif Require Import Go M_Strings M_Trace S_Trace M_Web S_Web.
Open Scope string_scope.
Open Scope list_scope.

Section Lines.
Context {arg World PC : Type}.
Variable str : string -> arg.
Variable num : Z -> arg.
Variable HumanizeBytes : Z -> string.
Variable Sprintf : World -> string -> list arg -> string.
Notation env := (env arg World PC).

(** The lines of a request.  A call of a handler is one of the four event calls. *)
Definition is_line (c : call arg) : bool := match c with CallLog _ _ _ => true | _ => false end.
Definition request_line (r : request) : call arg := CallLog KLazyTracef "%s %s %s" [str (r_RemoteAddr r); str (r_Method r); str (r_URL r)].
Definition header_lines (r : request) : list (call arg) :=
  map (fun name => CallLog KLazyTracef "%s: %s" [str name; str (r_Header r name)])
      (filter (fun h => negb (String.eqb (r_Header r h) "")) ["User-Agent"; "Accept"; "Content-Type"]).
Definition status_line (ops : list wop) (took : string) : call arg :=
  CallLog KLazyTracef "HTTP %d, %s, %s" [num (first_code ops); str (HumanizeBytes (bytes_taken ops)); str took].

(** What a read at [e] shows of a call made at [fst c] *)
Definition text (e : env) (c : env * call arg) : string :=
  match snd c with
  | CallLog k f a => Sprintf (e_world (if is_lazy_kind k then e else fst c)) f a
  | _ => ""
  end.

End Lines.

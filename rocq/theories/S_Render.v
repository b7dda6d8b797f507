(** Specification for C97: what the receiver of a page sees, and which file a template comes from. *)
From Verif Require Import Go M_Types M_Web M_Render S_Trace.
Open Scope string_scope.
Open Scope Z_scope.

(** What a client gets, and whether the trace of the request shows an error. *)
Record answer := MkAnswer { a_status : Z; a_type : string; a_body : string; a_returned : bool; a_errored : bool }.
Definition is_error {arg} (c : call arg) : bool := match c with CallLog k _ _ => is_error_kind k | _ => false end.
(** A rendering handler served by net/http through the middleware. *)
Definition answer_of {arg} (str : string -> arg) (num : Z -> arg) (HumanizeBytes : Z -> string) (r : request) (took : string) (h : handler arg * string) : answer :=
  let '(calls, w, returned) := Middleware str num HumanizeBytes http_WriteHeader http_Write http_Flush r new_response (fst h) took in
  MkAnswer (received_status w) (snd h) (p_body w) returned (existsb is_error calls).

Definition error_page (err : string) : string := ("<html><body><h1>Error</h1><p>" ++ err ++ "</p>")%string.

(** The file a template comes from: the one in the directory, if there is one, instead of the
    embedded one. *)
Definition used {F} (disk : string -> string -> option F) (dir : string) (embedded : list (string * F)) (name : string) : option F :=
  match map_get name embedded with
  | None => None
  | Some f => match disk dir name with Some f' => Some f' | None => Some f end
  end.
(** Two ways of executing templates that differ only in what they write before they fail. *)
Definition same_pages {T D} (e1 e2 : list (string * T) -> T -> D -> string * outcome unit) : Prop :=
  forall set t d, snd (e1 set t d) = snd (e2 set t d) /\ (snd (e1 set t d) = Done tt -> fst (e1 set t d) = fst (e2 set t d)).
(** What the lines of a trace with this format were given. *)
Definition lines_with {arg} (format : string) (calls : list (call arg)) : list (list arg) :=
  flat_map (fun c => match c with CallLog _ f a => if String.eqb f format then [a] else [] | _ => [] end) calls.

(** What a key-value service should answer. *)
From Verif Require Import Go M_Example.
Open Scope string_scope.
Open Scope list_scope.

(** The key of a request: its path, without one slash at the front. *)
Definition has_key (r : request) (k : string) : Prop :=
  r_path r = ("/" ++ k)%string \/ (r_path r = k /\ forall rest, k <> ("/" ++ rest)%string).
Definition stores (trim : string -> string) (r : request) (k v : string) : Prop :=
  r_method r = "PUT" /\ has_key r k /\ k <> "" /\ v <> "" /\ exists body, r_body r = Some body /\ trim body = v.
Definition deletes (r : request) (k : string) : Prop := r_method r = "DELETE" /\ has_key r k.
(** k was given the value v, and since then no other value, and was not deleted. *)
Definition holds (trim : string -> string) (h : list request) (k v : string) : Prop :=
  exists h1 r h2, h = h1 ++ r :: h2 /\ stores trim r k v /\
    forall r', In r' h2 -> ~ deletes r' k /\ forall v', ~ stores trim r' k v'.
Definition is_error_event (e : bool * string) : Prop := fst e = true.
Definition errored (a : answer) : Prop := Exists is_error_event (a_events a).

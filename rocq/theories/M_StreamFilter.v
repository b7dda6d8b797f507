(** How TraceServer.handleStream finds the filter of a stream (trcweb/trace_server.go:228-249): from the body of the
    request or from its URL; and encoding/json decoding into a struct that goes on after a value that does not fit
    its field ("Unmarshal skips that field and completes the unmarshaling as best it can").

    Simplified: the keys of the object are those of the fields, in the same case, or match none; the body is
    not longer than the limit (M_Body.v has the limit). *)
From Verif Require Import Go M_Strings M_Types M_Filter M_Json M_JsonText M_Url.
Open Scope string_scope.
Open Scope list_scope.
Open Scope Z_scope.

(** Storing a value into a field that holds [old]: the new value, and whether it did not fit *)
Definition into_string (j : json) (old : string) : string * bool :=
  match j with JNull => (old, false) | JStr s => (s, false) | _ => (old, true) end.
Definition into_bool (j : json) (old : bool) : bool * bool :=
  match j with JNull => (old, false) | JBool b => (b, false) | _ => (old, true) end.
Definition int64 (n : Z) : bool := (- 2 ^ 63 <=? n) && (n <? 2 ^ 63).
(** a pointer to an int64: null makes it nil; for anything else a new int64 is allocated first, if it is nil *)
Definition into_duration (j : json) (old : option Z) : option Z * bool :=
  let current := match old with None => 0 | Some n => n end in
  match j with
  | JNull => (None, false)
  | JNum n => if int64 n then (Some n, false) else (Some current, true)
  | _ => (Some current, true)
  end.
(** a slice of strings: null makes it nil; the elements start empty *)
Fixpoint into_elements (l : list json) : list string * bool :=
  match l with
  | [] => ([], false)
  | j :: l =>
      let '(s, bad) := into_string j "" in
      let '(rest, bad') := into_elements l in (s :: rest, bad || bad')
  end.
Definition into_strings (j : json) (old : list string) : list string * bool :=
  match j with JNull => ([], false) | JArr l => into_elements l | _ => (old, true) end.

Section Filter.
Context {RE : Type}.
Notation Filter := (Filter RE).
(** the zero Filter (:234) *)
Definition no_filter : Filter := MkFilter [] [] "" false false None false false "" None.

(** filter.go:12-23: one member of the object *)
Definition into_field (k : string) (j : json) (f : Filter) : Filter * bool :=
  if String.eqb k "sources" then
    let '(x, bad) := into_strings j (Sources f) in (MkFilter x (IDs f) (FCategory f) (IsActive f) (IsFinished f) (MinDuration f) (IsSuccess f) (IsErrored f) (Query f) (f_regexp f), bad)
  else if String.eqb k "ids" then
    let '(x, bad) := into_strings j (IDs f) in (MkFilter (Sources f) x (FCategory f) (IsActive f) (IsFinished f) (MinDuration f) (IsSuccess f) (IsErrored f) (Query f) (f_regexp f), bad)
  else if String.eqb k "category" then
    let '(x, bad) := into_string j (FCategory f) in (MkFilter (Sources f) (IDs f) x (IsActive f) (IsFinished f) (MinDuration f) (IsSuccess f) (IsErrored f) (Query f) (f_regexp f), bad)
  else if String.eqb k "is_active" then
    let '(x, bad) := into_bool j (IsActive f) in (MkFilter (Sources f) (IDs f) (FCategory f) x (IsFinished f) (MinDuration f) (IsSuccess f) (IsErrored f) (Query f) (f_regexp f), bad)
  else if String.eqb k "is_finished" then
    let '(x, bad) := into_bool j (IsFinished f) in (MkFilter (Sources f) (IDs f) (FCategory f) (IsActive f) x (MinDuration f) (IsSuccess f) (IsErrored f) (Query f) (f_regexp f), bad)
  else if String.eqb k "min_duration" then
    let '(x, bad) := into_duration j (MinDuration f) in (MkFilter (Sources f) (IDs f) (FCategory f) (IsActive f) (IsFinished f) x (IsSuccess f) (IsErrored f) (Query f) (f_regexp f), bad)
  else if String.eqb k "is_success" then
    let '(x, bad) := into_bool j (IsSuccess f) in (MkFilter (Sources f) (IDs f) (FCategory f) (IsActive f) (IsFinished f) (MinDuration f) x (IsErrored f) (Query f) (f_regexp f), bad)
  else if String.eqb k "is_errored" then
    let '(x, bad) := into_bool j (IsErrored f) in (MkFilter (Sources f) (IDs f) (FCategory f) (IsActive f) (IsFinished f) (MinDuration f) (IsSuccess f) x (Query f) (f_regexp f), bad)
  else if String.eqb k "query" then
    let '(x, bad) := into_string j (Query f) in (MkFilter (Sources f) (IDs f) (FCategory f) (IsActive f) (IsFinished f) (MinDuration f) (IsSuccess f) (IsErrored f) x (f_regexp f), bad)
  else (f, false).
Fixpoint into_fields (l : list (string * json)) (f : Filter) : Filter * bool :=
  match l with
  | [] => (f, false)
  | (k, j) :: l =>
      let '(f, bad) := into_field k j f in
      let '(f, bad') := into_fields l f in (f, bad || bad')
  end.
Definition into_filter (j : json) (f : Filter) : Filter * bool :=
  match j with JNull => (f, false) | JObj l => into_fields l f | _ => (f, true) end.

(** :234-242: the filter, and whether an error is logged *)
Definition body_filter (body : string) : Filter * bool :=
  match decode body with
  | None => (no_filter, true)         (* the value is scanned to its end before anything is stored *)
  | Some (j, _) => into_filter j no_filter
  end.
Inductive stream_request := SQuery (raw : string) | SBody (body : string).
Variable float_part : Z -> Z -> Z -> Z.
Definition request_filter (r : stream_request) : Filter * bool :=
  match r with SBody body => body_filter body | SQuery raw => (parseFilter float_part raw, false) end.

(** :244-249: the filter that is subscribed with, or the text of a 400 *)
Variable Compile : string -> RE + string.
Definition stream_filter (r : stream_request) : Filter + string :=
  let '(f, errs) := FilterNormalize Compile (fst (request_filter r)) in
  match errs with
  | [] => inl f
  | _ => inr ("bad request: " ++ String.concat "; " errs)%string
  end.
End Filter.

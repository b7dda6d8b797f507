(** The limit on the size of request bodies: http.MaxBytesReader around the body, and a
    json.Decoder that reads one value from it (trcweb/util.go:11, trcweb/trace_server.go:115-122
    and 234-242). *)
From Verif Require Import Go M_Strings M_Types M_Filter M_Search M_Web M_Json M_JsonText M_StreamFilter.
Open Scope string_scope.
Open Scope list_scope.
Open Scope Z_scope.

(** trcweb/util.go:11 *)
Definition maxRequestBodySizeBytes : Z := 1 * 1024 * 1024.
Definition slen (s : string) : Z := Z.of_nat (String.length s).
(** http.MaxBytesReader: the bytes that can be read, and whether reading ends with an error
    rather than with the end of the body *)
Definition MaxBytesReader (body : string) (limit : Z) : string * bool :=
  if slen body <=? limit then (body, false) else (substring 0 (Z.to_nat limit) body, true).
(** Decoder.readValue: the end of an array or object is seen at its last byte; the end of any
    other value only at the next byte or at the end of the body. *)
Definition closed (j : json) : bool := match j with JArr _ | JObj _ => true | _ => false end.
Definition decode_body (limit : Z) (body : string) : option json :=
  let '(bytes, cut) := MaxBytesReader body limit in
  match decode bytes with
  | None => None
  | Some (j, rest) => if cut && negb (closed j) && is_empty rest then None else Some j
  end.

(** trcweb/trace_server.go:115-122; [err] is the text of the error *)
Definition body_request {RE} (err : string) (limit : Z) (body : string) : SearchRequest RE + string :=
  match decode_body limit body with
  | None => inr err
  | Some j => match dec_request j with Some req => inl req | None => inr err end
  end.
(** trcweb/trace_server.go:234-242, as [body_filter] *)
Definition limited_filter {RE} (limit : Z) (body : string) : Filter RE * bool :=
  match decode_body limit body with
  | None => (no_filter, true)
  | Some j => into_filter j no_filter
  end.

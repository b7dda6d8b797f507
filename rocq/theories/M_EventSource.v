(** The text of an event stream, as trcweb/trace_server.go:301-345 has it written and :488 has
    it read: the encoder and the decoder of github.com/bernerdschaefer/eventsource (go.mod:6),
    which follow the event stream format of the HTML standard.  The package is not in the
    repository; this is from its documentation and source.  The fields id and retry, which
    trc does not send, are read and have no effect here. *)
From Verif Require Import Go M_Strings M_Types M_Filter M_Broker M_Json M_JsonText M_StreamHttp.
Open Scope list_scope.
Open Scope string_scope.

Record message := MkMsg { m_type : string; m_data : string }.

(** *** Writing *)
(** bytes.Split(value, "\n") *)
Fixpoint split_nl (s : string) : list string :=
  match s with
  | "" => [""]
  | String a r =>
      if Ascii.eqb a newline then "" :: split_nl r
      else match split_nl r with [] => [String a ""] | l :: ls => String a l :: ls end
  end.
(** utf8.Valid *)
Definition valid (s : string) : bool := String.eqb (to_utf8 s) s.
(** Encoder.writeField *)
Definition write_line (field v : string) : string := field ++ (if is_empty v then "" else ": " ++ v) ++ String newline "".
(** Encoder.WriteField: what is written, and whether there was no error *)
Definition write_field (field v : string) : string * bool :=
  if valid field && valid v then (String.concat "" (map (write_line field) (split_nl v)), true) else ("", false).
Definition and_then (a b : string * bool) : string * bool := if snd a then (fst a ++ fst b, snd b) else a.
(** Encoder.Encode *)
Definition send (e : message) : string * bool :=
  and_then (if is_empty (m_type e) then ("", true) else write_field "event" (m_type e))
  (and_then (write_field "data" (m_data e)) (String newline "", true)).
(** messages one after another; one that fails does not stop the others (:301-345) *)
Fixpoint stream_text (es : list message) : string := match es with [] => "" | e :: es => fst (send e) ++ stream_text es end.

(** *** Reading *)
(** what ends in a newline, and what is left at the end *)
Fixpoint raw_lines (s : string) : list (string * bool) :=
  match s with
  | "" => []
  | String a r =>
      if Ascii.eqb a newline then ("", true) :: raw_lines r
      else match raw_lines r with [] => [(String a "", false)] | (l, c) :: ls => (String a l, c) :: ls end
  end.
Fixpoint drop_cr (l : string) : string :=
  match l with
  | "" => ""
  | String a "" => if Nat.eqb (byte a) 13 then "" else l
  | String a r => String a (drop_cr r)
  end.
(** bufio.Reader.ReadLine, until the end of the text *)
Definition read_lines (s : string) : list string := map (fun lc => if snd lc : bool then drop_cr (fst lc) else fst lc) (raw_lines s).
Fixpoint split_colon (l : string) : string * string :=
  match l with
  | "" => ("", "")
  | String a r => if Ascii.eqb a ":" then ("", r) else let '(f, v) := split_colon r in (String a f, v)
  end.
Definition drop_space (v : string) : string := match v with String a r => if Nat.eqb (byte a) 32 then r else v | "" => "" end.
(** Decoder.ReadField *)
Definition read_field (l : string) : string * string := let '(f, v) := split_colon l in (f, drop_space v).
(** what Decoder.Decode has of a message: its type, and its data if there was any *)
Record partial := MkPartial { p_type : string; p_data : option string }.
Definition start : partial := MkPartial "message" None.
(** EventSource.Read: a message without data is left out *)
Definition complete (p : partial) : list message :=
  match p_data p with None | Some "" => [] | Some d => [MkMsg (p_type p) d] end.
(** Decoder.Decode and EventSource.Read: the next line.  After an error in the encoding of a
    line, Read starts to decode again. *)
Definition read_step (st : partial * list message) (l : string) : partial * list message :=
  let '(p, out) := st in
  let '(f, v) := read_field l in
  if negb (valid f && valid v) then (start, out)
  else if is_empty f && is_empty v then (start, (out ++ complete p)%list)
  else if String.eqb f "event" then (MkPartial v (p_data p), out)
  else if String.eqb f "data" then
    (MkPartial (p_type p) (Some (match p_data p with None => v | Some d => d ++ String newline v end)), out)
  else (p, out).
(** The messages Read returns before the text ends; then the connection is made again. *)
Definition messages (s : string) : list message := snd (fold_left read_step (read_lines s) (start, [])).

(** *** What is sent (trcweb/trace_server.go:292-345) *)
(** The JSON of an init event: the filter and the size of the buffer. *)
Definition init_data {RE} (f : Filter RE) (sendbuf : Z) (j : json) : Prop :=
  exists filter, enc_filter f filter /\ j = obj [("filter", Some filter); ("sendbuf", Some (JNum sendbuf))].
Definition message_of (short : bool) (init : json) (e : wire_event) : message :=
  match e with
  | WInit => MkMsg "init" (text short None init)
  | WStats j => MkMsg "stats" (text short None j)
  | WTrace j => MkMsg "trace" (text short None j)
  end.
(** What StreamClient.Stream makes of a message (:498-520), before it decodes the JSON;
    json.Unmarshal accepts white space after a value.  None: an unknown type, or an error. *)
Definition whole (s : string) : option json := match decode s with Some (j, r) => if is_empty (skip r) then Some j else None | None => None end.
Definition wire_of (m : message) : option wire_event :=
  if String.eqb (m_type m) "init" then Some WInit
  else if String.eqb (m_type m) "trace" then option_map WTrace (whole (m_data m))
  else if String.eqb (m_type m) "stats" then option_map WStats (whole (m_data m))
  else None.

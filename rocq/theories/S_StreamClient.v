(** What a user of a StreamClient can see, and what a server may send. *)
From Verif Require Import Go M_Types M_Strings M_Broker M_StreamClient.
Open Scope string_scope.
Open Scope list_scope.

Section Spec.
Context {Data : Type}.
Variable unmarshal_trace : Data -> StaticTrace + string.
Variable unmarshal_stats : Data -> StreamStats + string.

(** The calls of OnRead; the traces on the channel; what the own trace says, errors apart. *)
Definition calls (l : list (effect (Data := Data))) : list (string * Data) := flat_map (fun e => match e with Called type data => [(type, data)] | _ => [] end) l.
Definition puts (l : list (effect (Data := Data))) : list StaticTrace := flat_map (fun e => match e with Put str => [str] | _ => [] end) l.
Definition notes (l : list (effect (Data := Data))) : list string := flat_map (fun e => match e with Traced what => [what] | _ => [] end) l.
Definition failures (l : list (effect (Data := Data))) : list string := flat_map (fun e => match e with Failed what => [what] | _ => [] end) l.

(** The events among what was read. *)
Definition events (l : list (read (Data := Data))) : list (string * Data) := flat_map (fun r => match r with REvent type data _ => [(type, data)] | _ => [] end) l.
(** An event that does not end the stream: traces and statistics that can be decoded, and
    everything else. *)
Definition usable (e : string * Data) : Prop :=
  (fst e = "trace" -> exists str, unmarshal_trace (snd e) = inl str) /\
  (fst e = "stats" -> exists st, unmarshal_stats (snd e) = inl st).
(** The traces in events. *)
Definition traces_in (l : list (string * Data)) : list StaticTrace :=
  flat_map (fun e => if String.eqb (fst e) "trace" then match unmarshal_trace (snd e) with inl str => [str] | inr _ => [] end else []) l.
(** What the own trace says about an event. *)
Definition note (text : Data -> string) (quote : string -> string) (e : string * Data) : list string :=
  if String.eqb (fst e) "init" then [("init: " ++ text (snd e))%string]
  else if String.eqb (fst e) "trace" then []
  else if String.eqb (fst e) "stats" then
    match unmarshal_stats (snd e) with
    | inl st => [("skips=" ++ itoa (Skips st) ++ " sends=" ++ itoa (Sends st) ++ " drops=" ++ itoa (Drops st))%string]
    | inr _ => []
    end
  else [("unknown event type " ++ quote (fst e))%string].
(** An event that this client does not know. *)
Definition unknown (type : string) : Prop := type <> "init" /\ type <> "trace" /\ type <> "stats".
(** No trace was given up. *)
Definition nothing_given_up (l : list (read (Data := Data))) : Prop :=
  forall type data, ~ In (REvent type data true) l.
End Spec.

(** What a remote subscriber can see. *)
From Verif Require Import Go M_Types M_Json S_Json M_Broker M_StreamHttp.
Open Scope list_scope.
Open Scope Z_scope.

(** What a client is to see of traces: not those of the request itself, and as JSON leaves
    them (C56). *)
Definition visible (own : string) (l : list StaticTrace) : list StaticTrace :=
  map sent_trace (filter (fun tr => negb (String.eqb (TraceID tr) own)) l).
(** The traces that are on their way: in the client; written but not read; in the handler. *)
Definition in_client (c : client) : list StaticTrace := match c with CSending str => [str] | _ => [] end.
Definition on_wire (parse_time : string -> option Z) (w : list wire_event) : list StaticTrace :=
  flat_map (fun e => match e with WTrace j => match dec_static parse_time j with Some t => [t] | None => [] end | _ => [] end) w.
Definition in_handler (m : handler) (c : chan) : list StaticTrace :=
  match m with
  | HTrace recv => [recv]
  | HSelect => if ch_waiting c =? 0 then match rev (ch_received c) with v :: _ => [v] | [] => [] end else []
  | _ => []
  end.
(** The handler's loop runs and has nothing to do, or is about to look. *)
Definition idle (m : handler) (c : chan) : Prop := m = HLoop \/ m = HSelect /\ 0 < ch_waiting c.
Definition looping (m : handler) : Prop := match m with HLoop | HSelect | HInit | HTick | HTrace _ => True | _ => False end.
(** A connection on which nothing is on its way. *)
Definition settled {RE} (s : conn_state RE) (c : chan) : Prop :=
  x_client s = CReading /\ x_wire s = [] /\ idle (x_handler s) c /\ ch_buffer c = [].

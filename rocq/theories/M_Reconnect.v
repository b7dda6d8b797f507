(** Model of what StreamClient.Stream (trcweb/trace_server.go:437-524) gets over several
    connections.  Its event source (:481) sends the same request (:470-478) again whenever a
    connection breaks, inside of es.Read (:488), so the loop (:487-523) goes on as if nothing
    had happened; for the server each connection is another call of handleStream
    (:228-364), with another trace and another channel.

    Simplified: what M_StreamHttp.v leaves out; the events have no ID (:302-305, :323-326,
    :344-347), so a new connection does not tell the server where the last one ended; the
    request is served by one server, as long as that runs. *)
From Verif Require Import Go M_Types M_Filter M_Json M_Broker S_Broker M_StreamHttp.
Open Scope string_scope.
Open Scope list_scope.
Open Scope Z_scope.

(** One connection: the channel of its handler (:265), the ID of its handler's trace, what
    had happened on the broker when its handler started the goroutine, and the state in
    which the client left it. *)
Record leg (RE : Type) := MkLeg { leg_channel : string; leg_request : string; leg_past : list (bop RE); leg_end : conn_state RE }.
Arguments MkLeg {RE}. Arguments leg_channel {RE}. Arguments leg_request {RE}. Arguments leg_past {RE}. Arguments leg_end {RE}.

Section Reconnect.
Context {RE : Type}.
Variable Compile : string -> RE + string.
Variable MatchString : RE -> string -> bool.
Variable time_text : Z -> option string.
Variable parse_time : string -> option Z.
Variable caps : string -> Z.
Variable f : Filter RE.
Variable interval : Z.

Definition leg_runs (l : leg RE) : Prop :=
  exists s0, conn_init (leg_channel l) (leg_past l) s0 /\
    conn_steps Compile MatchString time_text parse_time caps (leg_channel l) f (leg_request l) interval s0 (leg_end l).

(** The connections of one call of Stream.  The client leaves a connection in es.Read;
    whatever then happens on the broker, by the handler that it left too, comes before the
    next handler or is something else that happens meanwhile. *)
Inductive session : list (leg RE) -> Prop :=
| SFirst l : leg_runs l -> session [l]
| SAgain ls l meanwhile l' : session (ls ++ [l]) -> x_client (leg_end l) = CReading ->
    leg_past l' = x_history (leg_end l) ++ meanwhile -> leg_runs l' -> session ((ls ++ [l]) ++ [l']).

(** The traces on the client's channel (:507-510), from all connections. *)
Definition session_got (ls : list (leg RE)) : list StaticTrace := flat_map (fun l => x_got (leg_end l)) ls.
End Reconnect.

(** Specification of trc search: servers with collectors, and what they answer over HTTP. *)
From Verif Require Import Go M_Types M_Filter M_Stats M_Search M_RingBufs S_Order S_Search S_Multi S_Collector M_Json S_Json M_Web P_Web.
Open Scope string_scope.
Open Scope list_scope.
Open Scope Z_scope.

(** A server: the source and the history of its collector, the order in which maps list their
    keys there and its sorting algorithm. *)
Record server (T : Type) := MkServer {
  srv_source : string; srv_ops : list (coll_op T);
  srv_sort : list StaticTrace -> list StaticTrace; srv_order : list string -> list string
}.
Arguments MkServer {T}. Arguments srv_source {T}. Arguments srv_ops {T}. Arguments srv_sort {T}. Arguments srv_order {T}.

(** Its strings are valid, and traces were added to each category in the order they started. *)
Definition good_server {T} (view : T -> StaticTrace) (srv : server T) : Prop :=
  Forall valid_op (srv_ops srv) /\ is_sort Less (srv_sort srv) /\ is_order (srv_order srv) /\ utf8 (srv_source srv) /\
  (forall t, In t (all_held (srv_ops srv)) -> valid_trace (view t)) /\ added_in_order newer view (srv_ops srv).

Section Answers.
Context {RE T : Type}.
Variable Compile : string -> RE + string.
Variable MatchString : RE -> string -> bool.
Variable float_part : Z -> Z -> Z -> Z.
Variable time_text : Z -> option string.
Variable parse_time : string -> option Z.
Variable zero : T.
Variable view : T -> StaticTrace.
(** An exchange in which the server answers the client's request ... *)
Definition server_answers (req : SearchRequest RE) (srv : server T) (r : SearchResponse) : Prop :=
  exists s freed w,
    coll_run zero new_collector_storage (srv_ops srv) = Ok (s, freed) /\
    remote time_text parse_time Compile float_part (collector_searcher Compile MatchString view (srv_sort srv) (srv_order srv) (srv_source srv) s) req w /\
    r = wr_Response w.
(** ... or the client returns an error: whatever else can happen. *)
Definition exchange (req : SearchRequest RE) (srv : server T) (o : outcome) : Prop :=
  match o with
  | (Some r, None) => server_answers req srv r
  | (None, Some _) => True
  | _ => False
  end.
End Answers.

(** The servers that answered, and the errors of the others. *)
Fixpoint answering {T} (servers : list (server T)) (outcomes : list outcome) : list (server T) :=
  match servers, outcomes with
  | srv :: servers, (Some _, _) :: outcomes => srv :: answering servers outcomes
  | _ :: servers, (None, _) :: outcomes => answering servers outcomes
  | _, _ => []
  end.
Definition failures (outcomes : list outcome) : list string :=
  flat_map (fun o => match o with (None, Some err) => [err] | _ => [] end) outcomes.
Definition held_by {T} (servers : list (server T)) : list T := flat_map (fun srv => all_held (srv_ops srv)) servers.

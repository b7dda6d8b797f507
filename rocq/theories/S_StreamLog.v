(** What the trace of a stream request is to say: spec for C115. *)
From Verif Require Import Go M_Strings M_Types M_Json M_Broker M_StreamHttp M_StreamClient M_SearchLog M_StreamLog.
Open Scope string_scope.
Open Scope list_scope.
Open Scope Z_scope.

Definition by_handler (said : list line) : list call := map snd (filter (fun l => match fst l with Handler => true | Background => false end) said).
Definition by_goroutine (said : list line) : list call := map snd (filter (fun l => match fst l with Handler => false | Background => true end) said).

(** A stats line, an error line *)
Definition is_stats (c : call) : bool := String.eqb (c_format c) "stats: %s".
Definition about (what : string) (c : call) : bool :=
  c_err c && (String.eqb (c_format c) ("JSON marshal " ++ what ++ ": %v") || String.eqb (c_format c) ("encode " ++ what ++ ": %v")).
Definition no_stats (c : call) : bool := c_err c && String.eqb (c_format c) "get stats: %v".
(** What is said between the start and the end *)
Definition is_report (c : call) : Prop := is_stats c = true /\ c_err c = false \/ about "init" c = true \/ about "stats" c = true \/ about "trace" c = true \/ no_stats c = true.
(** Why it ended *)
Definition is_reason (c : call) : Prop :=
  c_err c = false /\ (c_format c = "stopping: context done (%v)" \/ c_format c = "stopping: stop signal (canceling context)").
Definition started : call := MkCall true false "event source handler started" [].

(** The statistics that are written to the connection *)
Definition stats_sent (w : list wire_event) : list json := flat_map (fun e => match e with WStats j => [j] | _ => [] end) w.
Definition inits_sent (w : list wire_event) : nat := length (filter (fun e => match e with WInit => true | _ => false end) w).
(** A stats line shows the statistics that are in an event *)
Definition matching (c : call) (j : json) : Prop := exists st, dec_stream_stats j = Some st /\ c_args c = [AStr (StreamStats_String st)].

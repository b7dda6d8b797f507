(** Model of which Searcher and Streamer a TraceServer uses (trcweb/trace_server.go:44-85,
    :138, :273, :311).  Each request runs [initialize] on the shared server, without a lock.

    An interface value has two words, its type and its data (a pointer); Go does not promise
    that they are stored, or loaded, together or in a certain order, so both are steps of
    their own and every goroutine may use either order.  Simplified: the memory is
    sequentially consistent word by word; a comparison with nil looks at the type word. *)
From Verif Require Import Go.
Open Scope list_scope.
Open Scope nat_scope.

(** The type word: no type (a nil interface), *trc.Collector, or a type of the user's. *)
Inductive itype := TNil | TCollector | TUser (n : nat).
Definition is_nil (t : itype) : bool := match t with TNil => true | _ => false end.
(** An interface value: type word and data word ([None] is the nil pointer). *)
Record iface := MkIface { i_type : itype; i_data : option nat }.
Definition nil_iface : iface := MkIface TNil None.
(** trace_server.go:67, :70: the conversion of a *trc.Collector, which may be nil *)
Definition of_collector (c : option nat) : iface := MkIface TCollector c.

(** trace_server.go:44-54 *)
Record server := MkServer { s_Collector : option nat; s_Searcher : iface; s_Streamer : iface }.

(** trace_server.go:65-72, run alone *)
Definition initialize (s : server) : server :=
  let s := if is_nil (i_type (s_Searcher s)) then MkServer (s_Collector s) (of_collector (s_Collector s)) (s_Streamer s) else s in
  if is_nil (i_type (s_Streamer s)) then MkServer (s_Collector s) (s_Searcher s) (of_collector (s_Collector s)) else s.
(** trace_server.go:57-63 *)
Definition NewTraceServer (c : option nat) : server := initialize (MkServer c nil_iface nil_iface).

(** * Concurrent requests *)
Inductive fieldname := FSearcher | FStreamer.
Definition get (f : fieldname) (s : server) : iface := match f with FSearcher => s_Searcher s | FStreamer => s_Streamer s end.
Definition put (f : fieldname) (v : iface) (s : server) : server :=
  match f with FSearcher => MkServer (s_Collector s) v (s_Streamer s) | FStreamer => MkServer (s_Collector s) (s_Searcher s) v end.
Definition store_type (f : fieldname) (t : itype) (s : server) : server := put f (MkIface t (i_data (get f s))) s.
Definition store_data (f : fieldname) (d : option nat) (s : server) : server := put f (MkIface (i_type (get f s)) d) s.

(** Where a request is. *)
Inductive place :=
| PCheck (f : fieldname)                        (* before the comparison of the field with nil *)
| PLoadCollector (f : fieldname)                (* it was nil: before the load of s.Collector *)
| PStore1 (f : fieldname) (c : option nat)      (* before the first store *)
| PStore2 (f : fieldname) (c : option nat)      (* between the two stores *)
| PServe                                        (* initialize has returned (:77-84) *)
| PType (t : itype)                             (* a call of a method: the type word is loaded *)
| PData (d : option nat).                       (* a call of a method: the data word is loaded *)
Record request := MkRequest {
  q_field : fieldname;                          (* what Categorize says (:79-84): a stream needs the Streamer *)
  q_type_first_store : bool;                    (* the orders of stores and loads *)
  q_type_first_load : bool;
  q_calls : nat;                                (* the calls of methods still to come: at most one of Search (:138); any number of Stream and StreamStats (:273, :311) *)
  q_place : place;
  q_served : list iface                         (* the values on which methods were called, newest first *)
}.
Definition at_place (q : request) (p : place) : request := MkRequest (q_field q) (q_type_first_store q) (q_type_first_load q) (q_calls q) p (q_served q).
Definition after_check (f : fieldname) : place := match f with FSearcher => PCheck FStreamer | FStreamer => PServe end.
Definition arrived (f : fieldname) (so lo : bool) (calls : nat) : request := MkRequest f so lo calls (PCheck FSearcher) [].

Definition step_request (q : request) (s : server) : request * server :=
  match q_place q with
  | PCheck f => (at_place q (if is_nil (i_type (get f s)) then PLoadCollector f else after_check f), s)      (* :66, :69 *)
  | PLoadCollector f => (at_place q (PStore1 f (s_Collector s)), s)                                          (* :67, :70 *)
  | PStore1 f c => (at_place q (PStore2 f c), if q_type_first_store q then store_type f TCollector s else store_data f c s)
  | PStore2 f c => (at_place q (after_check f), if q_type_first_store q then store_data f c s else store_type f TCollector s)
  | PServe =>
      match q_calls q with
      | O => (q, s)                                                                                          (* nothing left to do *)
      | S _ => (at_place q (if q_type_first_load q then PType (i_type (get (q_field q) s)) else PData (i_data (get (q_field q) s))), s)
      end
  | PType t => (MkRequest (q_field q) (q_type_first_store q) (q_type_first_load q) (pred (q_calls q)) PServe (MkIface t (i_data (get (q_field q) s)) :: q_served q), s)
  | PData d => (MkRequest (q_field q) (q_type_first_store q) (q_type_first_load q) (pred (q_calls q)) PServe (MkIface (i_type (get (q_field q) s)) d :: q_served q), s)
  end.

Record world := MkWorld { w_server : server; w_requests : list request }.
Fixpoint replace (i : nat) (q : request) (l : list request) : list request :=
  match l, i with [], _ => [] | _ :: l, O => q :: l | p :: l, S i => p :: replace i q l end.
Definition step (w : world) (i : nat) : world :=
  match nth_error (w_requests w) i with
  | None => w
  | Some q => let '(q, s) := step_request q (w_server w) in MkWorld s (replace i q (w_requests w))
  end.
Definition run (sched : list nat) (w : world) : world := fold_left step sched w.
(** Requests arrive at any time: one that has not arrived yet has made no step. *)
Definition serving (s : server) (l : list (fieldname * (bool * bool) * nat)) : world :=
  MkWorld s (map (fun '(f, (so, lo), n) => arrived f so lo n) l).

(** The words of the memory, and the next access of a request: the word, and whether it is a
    store. *)
Inductive word := WCollector | WType (f : fieldname) | WData (f : fieldname).
Definition next_access (q : request) : option (word * bool) :=
  match q_place q with
  | PCheck f => Some (WType f, false)
  | PLoadCollector _ => Some (WCollector, false)
  | PStore1 f _ => Some (if q_type_first_store q then WType f else WData f, true)
  | PStore2 f _ => Some (if q_type_first_store q then WData f else WType f, true)
  | PServe => match q_calls q with O => None | S _ => Some (if q_type_first_load q then WType (q_field q) else WData (q_field q), false) end
  | PType _ => Some (WData (q_field q), false)
  | PData _ => Some (WType (q_field q), false)
  end.

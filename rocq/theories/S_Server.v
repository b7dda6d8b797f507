(** Which searcher and streamer a server should use, and what a data race is. *)
From Verif Require Import Go M_Server.
Open Scope list_scope.
Open Scope nat_scope.

(** "If not provided, the Collector will be used." *)
Definition provided (v : iface) : Prop := i_type v <> TNil.
Definition should_use (s : server) (f : fieldname) (v : iface) : Prop :=
  (provided (get f s) /\ v = get f s) \/ (~ provided (get f s) /\ v = MkIface TCollector (s_Collector s)).
(** A method call panics on a nil interface and, as Search, Stream and StreamStats use
    the collector's fields, on a nil collector. *)
Definition panics (v : iface) : Prop := i_type v = TNil \/ v = MkIface TCollector None.
(** Two requests whose next accesses are to the same word, and at least one stores. *)
Definition race (w : world) : Prop :=
  exists i j p q x a b, i <> j /\ nth_error (w_requests w) i = Some p /\ nth_error (w_requests w) j = Some q /\
    next_access p = Some (x, a) /\ next_access q = Some (x, b) /\ (a || b)%bool = true.
(** Nobody is inside of initialize's assignment of the field. *)
Definition assigning (f : fieldname) (q : request) : Prop := exists c, q_place q = PStore2 f c.
(** A request that has run initialize. *)
Definition initialized (q : request) : Prop := match q_place q with PServe | PType _ | PData _ => True | _ => False end.
(** All accesses to a value are made at once: the scheduler takes a request again while it is
    between two words. *)
Definition between (q : request) : bool := match q_place q with PStore2 _ _ | PType _ | PData _ => true | _ => false end.
Definition whole_step (w : world) (i : nat) : world :=
  let w := step w i in
  match nth_error (w_requests w) i with Some q => if between q then step w i else w | None => w end.

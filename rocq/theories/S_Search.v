(** Specification of searches. *)
From Verif Require Import Go M_Types M_Filter S_Filter S_Collector S_Order M_Search.
Open Scope Z_scope.

(** Newer: started later, or at the same time with a greater ID. *)
Definition newer (a b : StaticTrace) : bool :=
  (TraceStarted b <? TraceStarted a) || ((TraceStarted a =? TraceStarted b) && String.ltb (TraceID b) (TraceID a)).
Definition started_later (a b : StaticTrace) : bool := TraceStarted b <? TraceStarted a.

(** The stack of an event in a response to a request with the given stack depth. *)
Definition keep_frames (depth : Z) (stack : list Frame) : list Frame :=
  if depth =? 0 then stack else firstn (Z.to_nat depth) stack.
(** What a response shows of a trace. *)
Definition shown (depth : Z) (tr : StaticTrace) : StaticTrace :=
  MkStatic (TraceSource tr) (TraceID tr) (TraceCategory tr) (TraceStarted tr) (TraceDuration tr) EmptyString
           (TraceFinished tr) (TraceErrored tr)
           (map (fun ev => MkEvent (When ev) (What ev) (keep_frames depth (Stack ev)) (IsError ev)) (TraceEvents tr)).

(** The limit a request asks for: 10 unless it is between 1 and 250, at most 250. *)
Definition effective_limit (limit : Z) : Z := if limit <=? 0 then 10 else Z.min limit 250.

(** The categories a history mentions, each once, and everything the collector holds. *)
Definition categories {T} (ops : list (coll_op T)) : list string :=
  nodup string_dec (flat_map (fun o => match o with CNew c _ => [c] | CSize _ _ => [] end) ops).
Definition all_held {T} (ops : list (coll_op T)) : list T := flat_map (fun c => held c ops) (categories ops).

(** [acc] says which traces the filter of a request accepts. *)
Definition decides {RE} (Compile : string -> RE + string) (MatchString : RE -> string -> bool) (f : Filter RE)
           (acc : StaticTrace -> bool) : Prop :=
  forall tr, acc tr = true <-> accepts Compile MatchString f tr.

(** The matching traces of a list, as a response shows them. *)
Definition matching {T} (view : T -> StaticTrace) (depth : Z) (acc : StaticTrace -> bool) (l : list T) : list StaticTrace :=
  map (fun t => shown depth (view t)) (filter (fun t => acc (view t)) l).

(** In every category, no trace was added after one that comes before it in [above]. *)
Definition added_in_order {T} (above : StaticTrace -> StaticTrace -> bool) (view : T -> StaticTrace) (ops : list (coll_op T)) : Prop :=
  forall c, in_order above (map view (held c ops)).

(** No two traces of a list have the same start and ID. *)
Definition distinct_keys (l : list StaticTrace) : Prop :=
  NoDup (map (fun tr => (TraceStarted tr, TraceID tr)) l).

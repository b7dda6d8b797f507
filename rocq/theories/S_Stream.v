(** Specification of what a subscriber should see of a trace used by one goroutine. *)
From Verif Require Import Go M_Types M_Text S_Trace M_Trace M_Filter M_Broker S_Broker M_Decor S_Decor.
Open Scope string_scope.
Open Scope list_scope.
Open Scope Z_scope.

Section Spec.
Context {arg world pc RE : Type}.
Variable Sprintf : world -> string -> list arg -> string.
Notation trace := (trace arg).
Notation denv := (denv arg world pc).
Notation ucall := (ucall arg world pc RE).

(** The trace, seen as having logged [count] events of which those in [kept] are stored. *)
Record progress := MkProgress { pr_count : Z; pr_kept : list Event; pr_errored : bool; pr_finished : option Z }.

(** The source, ID, category, start time and event limit of the trace. *)
Record identity := MkIdentity { i_source : string; i_id : string; i_category : string; i_start : Z; i_limit : Z }.

(** The environment in which the publish decorator takes its snapshot: the decorator is
    directly on the core trace. *)
Definition publishing (t : trace) (es : nat -> denv) : denv := es (Nat.pred (depth t)).

(** The event a call logs: eager texts are made at once, lazy ones when the event is
    published. *)
Definition logged (t : trace) (k : kind) (f : string) (a : list arg) (es : nat -> denv) : Event :=
  MkEvent (e_now (d_env (es (depth t))))
          (Sprintf (e_world (d_env (if is_lazy_kind k then publishing t es else es (depth t)))) (prefix_format t ++ f)%string (prefix_args t ++ a))
          [] (is_error_kind k).

(** The complete list of events, as it is shown: if some were truncated, the marker takes
    the place of the oldest one. *)
Definition complete (i : identity) (now : Z) (p : progress) : list Event :=
  if pr_count p <=? i_limit i then pr_kept p else tl (pr_kept p) ++ [truncated_event now (pr_count p - i_limit i)].

(** A trace still active, and a finished one. *)
Definition active_view (i : identity) (d : denv) (p : progress) (evs : list Event) : StaticTrace :=
  let duration := e_now (d_later d) - i_start i in
  MkStatic (i_source i) (i_id i) (i_category i) (i_start i) duration (DurationString duration) false (pr_errored p) evs.
Definition finished_view (i : identity) (d : denv) (p : progress) (at_ : Z) : StaticTrace :=
  let duration := at_ - i_start i in
  MkStatic (i_source i) (i_id i) (i_category i) (i_start i) duration (DurationString duration) true (pr_errored p)
           (complete i (e_now (d_env d)) p).

(** What one call publishes, and the trace afterwards. *)
Definition streamed1 (t : trace) (i : identity) (p : progress) (u : ucall) : progress * list StaticTrace :=
  match u with
  | ULog k f a es =>
      match pr_finished p with
      | Some at_ => (p, [finished_view i (publishing t es) p at_])
      | None =>
          let room := pr_count p <? i_limit i in
          let ev := logged t k f a es in
          let p := MkProgress (pr_count p + 1) (if room then pr_kept p ++ [ev] else pr_kept p) (pr_errored p || is_error_kind k) None in
          let d := publishing t es in
          (p, [active_view i d p [if room then ev else truncated_event (e_now (d_env d)) (pr_count p - i_limit i)]])
      end
  | UFinish es =>
      let at_ := match pr_finished p with Some at_ => at_ | None => e_now (d_env (es (depth t))) end in
      let p := MkProgress (pr_count p) (pr_kept p) (pr_errored p) (Some at_) in
      (p, [finished_view i (publishing t es) p at_])
  | URead _ => (p, [])
  | UBroker o => (p, published1 o)
  end.
Fixpoint streamed (t : trace) (i : identity) (p : progress) (us : list ucall) : progress * list StaticTrace :=
  match us with
  | [] => (p, [])
  | u :: us =>
      let '(p, out) := streamed1 t i p u in
      let '(p, out') := streamed t i p us in
      (p, out ++ out')
  end.

(** Nothing happened yet. *)
Definition at_creation : progress := MkProgress 0 [] false None.

(** The calls are possible, and none of them cancels the subscription on the channel. *)
Definition orders (u : ucall) : Prop :=
  match u with ULog _ _ _ es | UFinish es => forall n, is_order (d_order (es n)) | UBroker o => valid_bop o | URead _ => True end.
Definition keeps_subscription (ch : string) (u : ucall) : Prop :=
  orders u /\ match u with UBroker o => cancels ch o = false | _ => True end.

(** An event call. *)
Definition is_event_call (u : ucall) : bool := match u with ULog _ _ _ _ => true | _ => false end.
Definition is_finish_call (u : ucall) : bool := match u with UFinish _ => true | _ => false end.
Definition is_trace_call (u : ucall) : bool := is_event_call u || is_finish_call u.
(** The calls from the first Finish on. *)
Fixpoint from_finish (us : list ucall) : list ucall :=
  match us with [] => [] | u :: us => if is_finish_call u then u :: us else from_finish us end.
End Spec.

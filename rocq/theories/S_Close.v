(** Closing the channel of a subscription, from the history alone. *)
From Verif Require Import Go M_Types M_Filter M_Broker S_Broker M_Close.
Open Scope list_scope.

Section Spec.
Context {RE : Type}.
Notation cop := (cop RE).

(** The history without the closings. *)
Definition ops (h : list cop) : list (bop RE) := flat_map (fun o => match o with COp o => [o] | CClose _ => [] end) h.
Definition valid_cop (o : cop) : Prop := match o with COp o => valid_bop o | CClose _ => True end.

(** A channel is closed at most once, after the last Stream on it has returned (as in
    broker_test.go:22-25 and benchmark_test.go:207-211). *)
Definition polite (h : list cop) : Prop :=
  forall h1 ch h2, h = h1 ++ CClose ch :: h2 ->
    subscription ch (ops h1) = None /\ ~ In (CClose ch) h1 /\ forall f, ~ In (COp (BStream ch f)) h2.
End Spec.

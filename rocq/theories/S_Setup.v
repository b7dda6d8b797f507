(** What the settings of a collector should be once it is set up. *)
From Verif Require Import Go M_Setup.
Open Scope list_scope.

Definition is_setter (o : op) : Prop := match o with SetSourceName _ | SetNewTrace _ | SetDecorators _ => True | _ => False end.
Definition is_use (o : op) : Prop := match o with NewTrace | Search => True | _ => False end.
(** x is given last by the calls of one setter in l, or is the value from the start if there is none. *)
Definition final {A} (setter : A -> op) (start : A) (l : list op) (x : A) : Prop :=
  (exists l1 l2, l = l1 ++ setter x :: l2 /\ forall y, ~ In (setter y) l2) \/ (x = start /\ forall y, ~ In (setter y) l).
(** What a collector starts with: the configuration, or "default" and New for what it lacks. *)
Definition initial_source (cfg : settings) : string := if String.eqb (s_source cfg) "" then "default"%string else s_source cfg.
Definition initial_newTrace (cfg : settings) : option nat := match s_newTrace cfg with None => Some 0%nat | f => f end.
(** A goroutine sets the collector up, tells the others, and uses it; the others wait before they use it. *)
Definition orderly (setup : list op) (mine : list op) (others : list (list op)) : list (list op) :=
  (setup ++ Signal :: mine) :: map (cons Await) others.
(** What is seen agrees with the settings. *)
Definition agrees (source : string) (f : option nat) (ds : list nat) (o : outcome) : Prop :=
  match o with
  | Made f' source' ds' => f = Some f' /\ source' = source /\ ds' = ds
  | Panicked => f = None
  | Searched source' => source' = source
  end.

(** Specification of subscriptions, from the history alone. *)
From Verif Require Import Go M_Types M_Filter M_Broker S_TraceView.
Open Scope list_scope.
Open Scope Z_scope.

Section Spec.
Context {RE : Type}.
Variable Compile : string -> RE + string.
Variable MatchString : RE -> string -> bool.
Notation bop := (bop RE).

Definition valid_bop (o : bop) : Prop := match o with BPublish order _ => is_order order | _ => True end.

(** The filter of the subscription on a channel, if there is one: the first Stream counts
    until its context is cancelled. *)
Definition sub_after (ch : string) (cur : option (Filter RE)) (o : bop) : option (Filter RE) :=
  match o with
  | BStream c f => if String.eqb c ch then match cur with None => Some f | Some _ => cur end else cur
  | BDone c => if String.eqb c ch then None else cur
  | _ => cur
  end.
Definition subscription (ch : string) (h : list bop) : option (Filter RE) := fold_left (sub_after ch) h None.

(** What is published: the traces that could be snapshotted. *)
Definition published1 (o : bop) : list StaticTrace := match o with BPublish _ (Ok str) => [str] | _ => [] end.
Definition published (h : list bop) : list StaticTrace := flat_map published1 h.

(** Does a filter accept a trace (what this means is C19). *)
Definition matches (f : Filter RE) (tr : StaticTrace) : bool := snd (Allow Compile MatchString f tr).

(** The traces published while a subscription on the channel with a matching filter was
    active, in order. *)
Fixpoint wanted_from (ch : string) (cur : option (Filter RE)) (h : list bop) : list StaticTrace :=
  match h with
  | [] => []
  | o :: h =>
      match cur with
      | Some f => filter (matches f) (published1 o)
      | None => []
      end ++ wanted_from ch (sub_after ch cur o) h
  end.
Definition wanted (ch : string) (h : list bop) : list StaticTrace := wanted_from ch None h.

(** How often somebody receives from a channel without giving up again. *)
Fixpoint receives (ch : string) (h : list bop) : Z :=
  match h with
  | [] => 0
  | BReceive c :: h => (if String.eqb c ch then 1 else 0) + receives ch h
  | BGiveUp c :: h => (if String.eqb c ch then -1 else 0) + receives ch h
  | _ :: h => receives ch h
  end.

(** Everything that was put on a channel: what was received and what waits. *)
Definition delivered (c : chan) : list StaticTrace := ch_received c ++ ch_buffer c.

(** The part of a history that concerns a channel: publishes, and what happens on it. *)
Inductive own := OwnStream (f : Filter RE) | OwnDone | OwnPublish (str : StaticTrace) | OwnReceive | OwnGiveUp.
Definition own1 (ch : string) (o : bop) : list own :=
  match o with
  | BStream c f => if String.eqb c ch then [OwnStream f] else []
  | BDone c => if String.eqb c ch then [OwnDone] else []
  | BPublish _ (Ok str) => [OwnPublish str]
  | BPublish _ Panic => []
  | BStats _ => []
  | BReceive c => if String.eqb c ch then [OwnReceive] else []
  | BGiveUp c => if String.eqb c ch then [OwnGiveUp] else []
  end.
Definition concerning (ch : string) (h : list bop) : list own := flat_map (own1 ch) h.

(** Does an operation cancel the subscription on the channel / ask for one. *)
Definition cancels (ch : string) (o : bop) : bool := match o with BDone c => String.eqb c ch | _ => false end.
Definition subscribes (ch : string) (o : bop) : bool := match o with BStream c _ => String.eqb c ch | _ => false end.
End Spec.

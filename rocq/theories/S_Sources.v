(** What a response says about the sources of its traces. *)
From Verif Require Import Go M_Types M_Search M_Easy.
Open Scope list_scope.

(** The source of each trace is among the sources that the response lists. *)
Definition names_its_sources (resp : SearchResponse) : Prop :=
  forall tr, In tr (resp_Traces resp) -> In (TraceSource tr) (resp_Sources resp).

Section Spec.
Context {arg world pc : Type}.
Notation eop := (eop arg world pc).
Definition makes_trace (o : eop) : Prop := match o with ENew _ _ _ _ _ => True | _ => False end.
Definition renames (o : eop) : Prop := match o with ESource _ => True | _ => False end.
(** The program sets the source name of its collector only before it makes traces. *)
Definition named_first (ops : list eop) : Prop :=
  exists before after, ops = before ++ after /\ Forall (fun o => ~ makes_trace o) before /\ Forall (fun o => ~ renames o) after.
End Spec.

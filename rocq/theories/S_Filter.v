(** Specification of filters: the conditions, one by one. *)
From Verif Require Import Go M_Types M_Frame M_Filter.
Open Scope string_scope.
Open Scope Z_scope.

Section Spec.
Context {RE : Type}.
Variable Compile : string -> RE + string.
Variable MatchString : RE -> string -> bool.

(** What the texts of a trace are that a query is matched against. *)
Definition frame_text (fr : Frame) (s : string) : Prop :=
  s = Function fr \/ CompactFileLine fr = Ok s.
Definition trace_text (tr : StaticTrace) (s : string) : Prop :=
  exists ev, In ev (TraceEvents tr) /\ (s = What ev \/ exists fr, In fr (Stack ev) /\ frame_text fr s).

(** The conditions that depend only on the public fields other than Query. *)
Definition field_conditions (f : Filter RE) (tr : StaticTrace) : Prop :=
  (Sources f <> [] -> In (TraceSource tr) (Sources f)) /\
  (IDs f <> [] -> In (TraceID tr) (IDs f)) /\
  (FCategory f <> "" -> TraceCategory tr = FCategory f) /\
  (IsActive f = true -> TraceFinished tr = false) /\
  (IsFinished f = true -> TraceFinished tr = true) /\
  (forall d, MinDuration f = Some d -> TraceFinished tr = true /\ d <= TraceDuration tr) /\
  (IsSuccess f = true -> TraceErrored tr = false) /\
  (IsErrored f = true -> TraceErrored tr = true).

Definition re_condition (re : option RE) (tr : StaticTrace) : Prop :=
  match re with
  | None => True
  | Some re => exists s, trace_text tr s /\ MatchString re s = true
  end.

(** The query condition: none if there is no query or it is not valid. *)
Definition query_condition (q : string) (tr : StaticTrace) : Prop :=
  match Compile q with
  | inl re => q <> "" -> re_condition (Some re) tr
  | inr _ => True
  end.

(** What the filter should accept, from its public fields. *)
Definition accepts (f : Filter RE) (tr : StaticTrace) : Prop :=
  field_conditions f tr /\ query_condition (Query f) tr.

(** The public fields are the same. *)
Definition same_fields (f g : Filter RE) : Prop :=
  Sources f = Sources g /\ IDs f = IDs g /\ FCategory f = FCategory g /\ IsActive f = IsActive g /\
  IsFinished f = IsFinished g /\ MinDuration f = MinDuration g /\ IsSuccess f = IsSuccess g /\ IsErrored f = IsErrored g.

(** A filter as a user builds it or gets it from JSON: nothing compiled yet. *)
Definition unused (f : Filter RE) : Prop := f_regexp f = None.
End Spec.

(** [weaker g f]: each condition of g is unset or the same as in f. *)
Definition weaker {RE} (g f : Filter RE) : Prop :=
  (Sources g = [] \/ Sources g = Sources f) /\ (IDs g = [] \/ IDs g = IDs f) /\
  (FCategory g = "" \/ FCategory g = FCategory f) /\ (IsActive g = false \/ IsActive g = IsActive f) /\
  (IsFinished g = false \/ IsFinished g = IsFinished f) /\ (MinDuration g = None \/ MinDuration g = MinDuration f) /\
  (IsSuccess g = false \/ IsSuccess g = IsSuccess f) /\ (IsErrored g = false \/ IsErrored g = IsErrored f) /\
  (Query g = "" \/ Query g = Query f).

(** The ways a filter is used. *)
Inductive use := UNormalize | UAllow (tr : StaticTrace).

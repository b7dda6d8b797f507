(** Specification of multi-searches: what a list of searcher outcomes amounts to. *)
From Verif Require Import Go M_Strings M_Types M_Stats M_Search.
Open Scope string_scope.
Open Scope list_scope.
Open Scope Z_scope.

(** What a searcher returned: a response, an error, both, or neither. *)
Definition outcome : Type := option SearchResponse * option string.

(** The responses among the outcomes. *)
Definition answers (outcomes : list outcome) : list SearchResponse :=
  flat_map (fun o => match fst o with Some r => [r] | None => [] end) outcomes.

(** The problems searcher number i contributes. *)
Definition problems_of (i : Z) (o : outcome) : list string :=
  match o with
  | (Some r, None) => resp_Problems r
  | (Some r, Some err) => resp_Problems r ++ ["got valid search response with error (" ++ err ++ ") -- weird"]%string
  | (None, Some err) => [err]
  | (None, None) => [itoa i ++ ": weird: empty response"]%string
  end.
Fixpoint all_problems (i : Z) (outcomes : list outcome) : list string :=
  match outcomes with [] => [] | o :: outcomes => problems_of i o ++ all_problems (i + 1) outcomes end.

(** Alphabetical order without repetition. *)
Definition alphabetical (l : list string) : Prop :=
  forall i j x y, (i < j)%nat -> nth_error l i = Some x -> nth_error l j = Some y -> String.ltb x y = true.

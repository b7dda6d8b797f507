(** Specification of the summary table of the search page. *)
From Verif Require Import Go M_Types S_Stats M_Search M_Page M_Summary.
From Coq Require Import Sorted.
Open Scope string_scope.
Open Scope list_scope.
Open Scope Z_scope.

(** [p] is [n] of [total] in whole percent, rounded down *)
Definition is_percent (p n total : Z) : Prop := p * total <= 100 * n < (p + 1) * total.

Definition cells (r : row) : list cell := row_active r :: row_errored r :: row_buckets r.

(** The row shows the numbers of the traces [mine]; [b] are the durations of the header. *)
Definition row_shows (b : list Z) (r : row) (mine : list StaticTrace) : Prop :=
  c_count (row_active r) = count active mine /\
  c_count (row_errored r) = count failed mine /\
  map c_count (row_buckets r) = map (fun d => count (fun tr => succeeded tr && (d <=? TraceDuration tr)) mine) b /\
  row_total r = zlen mine /\
  (mine <> [] -> forall c, In c (cells r) -> 0 <= c_percent c <= 100 /\ is_percent (c_percent c) (c_count c) (zlen mine)) /\
  row_oldest r = (if earliest (map TraceStarted mine) =? 0 then None else Some (earliest (map TraceStarted mine))) /\
  row_newest r = (if latest (map TraceStarted mine) =? 0 then None else Some (latest (map TraceStarted mine))).

(** The traces a row's links search among: all of them for the row of all traces, but also
    for a category of that name and for the empty category. *)
Definition link_scope (name : string) (trs : list StaticTrace) : list StaticTrace :=
  if String.eqb name "overall" || String.eqb name "" then trs else of_category name trs.

(** The row's links are those of its category (C69 says what they select). *)
Definition links_of {RE} (req : SearchRequest RE) (r : row) : Prop :=
  row_href r = href_category req (row_name r) /\ c_href (row_active r) = href_active req (row_name r) /\
  c_href (row_errored r) = href_errored req (row_name r) /\
  map c_href (row_buckets r) = map (href_min req (row_name r)) (req_Bucketing req).

(** Model of the summary table of the search page: search_stats.go:118-131, the function
    PercentInt of trcweb/render.go:206 and trcweb/assets/traces.html:126-233. *)
From Verif Require Import Go M_Types M_Stats M_Filter M_Search M_Page.
Open Scope string_scope.
Open Scope list_scope.
Open Scope Z_scope.

(** search_stats.go:121-123: for _, cs := range ss.Categories, in the order [names] *)
Fixpoint category_values (names : list string) (cats : list (string * CategoryStats)) : list CategoryStats :=
  match names with
  | [] => []
  | n :: names =>
      match map_get n cats with
      | Some cs => cs :: category_values names cats
      | None => category_values names cats
      end
  end.

(** search_stats.go:124-126: the comparison given to sort.Slice *)
Definition name_less (a b : CategoryStats) : bool := String.ltb (cs_Category a) (cs_Category b).

(** search_stats.go:118-131.  [sort] is what sort.Slice does with that comparison;
    [order] and [order'] are the orders of the two loops over the map. *)
Definition AllCategories (sort : list CategoryStats -> list CategoryStats) (order order' : list string -> list string)
    (ss : SearchStats) : res (list CategoryStats) :=
  let slice := category_values (order (map_keys (Categories ss))) (Categories ss) in
  let slice := sort slice in
  overall <- Overall order' ss ;;
  Ok (slice ++ [overall]).

(** trcweb/render.go:206: int(100 * float64(n) / float64(d)).  The quotient is taken
    exactly, which is what float64 gives after truncation while 100*n and d are below
    2^46.  Division by 0 gives NaN or an infinity, and Go leaves the conversion of these to
    int to the implementation: [odd]. *)
Definition PercentInt (odd : Z -> Z) (n d : Z) : Z := if d =? 0 then odd n else Z.quot (100 * n) d.

(** A cell with a number, the percentage in its title and the height of its bar, and a link *)
Record cell := MkCell { c_count : Z; c_percent : Z; c_href : string }.
(** A row.  The times are None where n/a is written; the age that is written otherwise
    (HumanizeDuration of TimeSince) and the rates are left out. *)
Record row := MkRow {
  row_name : string; row_href : string;
  row_active : cell; row_buckets : list cell; row_errored : cell; row_total : Z;
  row_oldest : option Z; row_newest : option Z }.

Section Table.
Context {RE : Type}.
Notation SearchRequest := (@SearchRequest RE).
Variable odd : Z -> Z.

(** traces.html:191-198: range $i, $n := .BucketCounts.  [index] fails, and with it the
    template, if the request's bucketing is too short: None. *)
Fixpoint bucket_cells (req : SearchRequest) (category : string) (total : Z) (bucketing counts : list Z) : option (list cell) :=
  match counts, bucketing with
  | [], _ => Some []
  | n :: counts, min :: bucketing =>
      match bucket_cells req category total bucketing counts with
      | Some cells => Some (MkCell n (PercentInt odd n total) (href_min req category min) :: cells)
      | None => None
      end
  | _ :: _, [] => None
  end.

(** traces.html:214-228 *)
Definition shown_time (t : Z) : option Z := if t =? 0 then None else Some t.

(** traces.html:166-232 *)
Definition table_row (req : SearchRequest) (cs : CategoryStats) : option row :=
  let category := cs_Category cs in
  let total := TotalCount cs in
  match bucket_cells req category total (req_Bucketing req) (BucketCounts cs) with
  | Some buckets =>
      Some (MkRow category (href_category req category)
                  (MkCell (ActiveCount cs) (PercentInt odd (ActiveCount cs) total) (href_active req category))
                  buckets
                  (MkCell (ErroredCount cs) (PercentInt odd (ErroredCount cs) total) (href_errored req category))
                  total (shown_time (Oldest cs)) (shown_time (Newest cs)))
  | None => None
  end.
Fixpoint table_rows (req : SearchRequest) (css : list CategoryStats) : option (list row) :=
  match css with
  | [] => Some []
  | cs :: css =>
      match table_row req cs, table_rows req css with
      | Some r, Some rs => Some (r :: rs)
      | _, _ => None
      end
  end.

(** traces.html:126-235, the rows under the header *)
Definition summary_table (sort : list CategoryStats -> list CategoryStats) (order order' : list string -> list string)
    (req : SearchRequest) (ss : SearchStats) : res (option (list row)) :=
  css <- AllCategories sort order order' ss ;;
  Ok (table_rows req css).
End Table.

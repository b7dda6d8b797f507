(** How the statistics theorems look at the statistics the code returns. *)
From Verif Require Import Go M_Types M_Stats S_Stats.
Open Scope Z_scope.

(** Everything in a category's statistics except its name and event count. *)
Definition cs_counts (cs : CategoryStats) : Z * list Z * Z * Z * Z :=
  (ActiveCount cs, BucketCounts cs, ErroredCount cs, Oldest cs, Newest cs).

(** The same bucketing, the same categories, and for each the same counts. *)
Definition same_counts (ss ss' : SearchStats) : Prop :=
  Bucketing ss = Bucketing ss' /\
  forall c, option_map (fun cs => (cs_Category cs, cs_counts cs)) (map_get c (Categories ss)) =
            option_map (fun cs => (cs_Category cs, cs_counts cs)) (map_get c (Categories ss')).

(** [cs] counts exactly the traces [mine] *)
Definition counts_exactly (b : list Z) (cs : CategoryStats) (mine : list StaticTrace) : Prop :=
  ActiveCount cs = count active mine /\
  ErroredCount cs = count failed mine /\
  length (BucketCounts cs) = length b /\
  (forall i n, nth_error (BucketCounts cs) i = Some n -> n = count (in_bucket b i) mine) /\
  Oldest cs = earliest (map TraceStarted mine) /\
  Newest cs = latest (map TraceStarted mine).

(** Any way of combining observed trace lists by merging: [Obs l] is fresh
    statistics that observed l, [Mrg order a b] is a.Merge(b) under the map iteration
    order [order]. *)
Inductive merge_tree :=
| Obs (trs : list StaticTrace)
| Mrg (order : list string -> list string) (a b : merge_tree).

Fixpoint tree_stats (b : list Z) (t : merge_tree) : res SearchStats :=
  match t with
  | Obs trs => Observe (NewSearchStats b) trs
  | Mrg order x y =>
      sx <- tree_stats b x ;;
      sy <- tree_stats b y ;;
      ss_Merge order sx (Some sy)
  end.
Fixpoint tree_traces (t : merge_tree) : list StaticTrace :=
  match t with Obs trs => trs | Mrg _ x y => (tree_traces x ++ tree_traces y)%list end.
Fixpoint tree_ok (t : merge_tree) : Prop :=
  match t with Obs _ => True | Mrg order x y => is_order order /\ tree_ok x /\ tree_ok y end.

(** [ss] are the statistics of exactly the traces [trs], each category having an entry. *)
Definition describes (b : list Z) (ss : SearchStats) (trs : list StaticTrace) : Prop :=
  Bucketing ss = b /\ NoDup (map_keys (Categories ss)) /\
  forall c, match map_get c (Categories ss) with
            | None => of_category c trs = []
            | Some cs => of_category c trs <> [] /\ cs_Category cs = c /\ counts_exactly b cs (of_category c trs)
            end.

(** Specification for C28: which statistics objects are separate from each other. *)
From Verif Require Import Go M_Types M_Stats M_StatsHeap.
Open Scope string_scope.
Open Scope Z_scope.

(** The object of category c in the statistics at address a. *)
Definition category_at (h : heap) (a : nat) (c : string) : option nat := map_get c (maps h (h_Categories (stats h a))).

(** Everything but the bucket counts. *)
Definition scalars (cs : CategoryStats) := (cs_Category cs, EventCount cs, ActiveCount cs, ErroredCount cs, Oldest cs, Newest cs).

(** Statistics as a searcher would return them: buckets, a map with distinct keys, and one
    object with its own array per category, of which at least one trace was observed. *)
Definition well_formed (h : heap) (a : nat) : Prop :=
  h_Bucketing (stats h a) <> [] /\ NoDup (map_keys (maps h (h_Categories (stats h a)))) /\
  (forall c o, category_at h a c = Some o -> (o < next h)%nat /\ (o_Category (cats h o) <> "" \/ o_Oldest (cats h o) <> 0)) /\
  (forall c c' o o', category_at h a c = Some o -> category_at h a c' = Some o' -> c <> c' ->
     o <> o' /\ o_BucketCounts (cats h o) <> o_BucketCounts (cats h o')).

(** Statistics that share nothing. *)
Definition share_nothing (h : heap) (a b : nat) : Prop :=
  h_Categories (stats h a) <> h_Categories (stats h b) /\
  forall c c' o o', category_at h a c = Some o -> category_at h b c' = Some o' ->
    o <> o' /\ o_BucketCounts (cats h o) <> o_BucketCounts (cats h o').

Definition separate (h : heap) (l : list nat) : Prop :=
  Forall (well_formed h) l /\
  forall i j a b, i <> j -> nth_error l i = Some a -> nth_error l j = Some b -> share_nothing h a b.

(** Fresh statistics, as made by NewSearchStats, with a map that is nobody else's. *)
Definition fresh (h : heap) (a : nat) (l : list nat) : Prop :=
  h_Bucketing (stats h a) <> [] /\ maps h (h_Categories (stats h a)) = [] /\
  forall b, In b l -> h_Categories (stats h a) <> h_Categories (stats h b).

(** The same merges on values. *)
Fixpoint merge_all (orders : nat -> list string -> list string) (n : nat) (ss : SearchStats) (others : list SearchStats) : res SearchStats :=
  match others with
  | [] => Ok ss
  | o :: others => ss <- ss_Merge (orders n) ss (Some o) ;; merge_all orders (S n) ss others
  end.

(** At least two of the statistics have category c. *)
Definition shared_category (h : heap) (l : list nat) (c : string) : Prop :=
  exists i j a b, (i < j)%nat /\ nth_error l i = Some a /\ nth_error l j = Some b /\ category_at h a c <> None /\ category_at h b c <> None.

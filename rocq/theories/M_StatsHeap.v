(** search_stats.go again, with pointers: which statistics objects share memory.
    M_Stats.v models the same functions on values; L_StatsHeap.v relates the two. *)
From Verif Require Import Go M_Types M_Stats.
Open Scope string_scope.
Open Scope Z_scope.

(** search_stats.go:137-148: a CategoryStats object; [o_BucketCounts] is the address of
    the array its slice points to.  Simplified: the slice always covers its whole array
    (search_stats.go:155 makes it so and nothing reslices it), and rates are left out. *)
Record hcat := MkHCat {
  o_Category : string; o_EventCount : Z; o_ActiveCount : Z; o_BucketCounts : nat;
  o_ErroredCount : Z; o_Oldest : Z; o_Newest : Z }.

(** search_stats.go:11-14: a SearchStats object; [h_Categories] is the address of the map.
    The bucketing is never written after normalization, so it is kept as a value. *)
Record hstats := MkHStats { h_Bucketing : list Z; h_Categories : nat }.

(** The memory; addresses of different kinds of objects are in different spaces. *)
Record heap := MkHeap {
  arrs : nat -> list Z;                  (* []int backing arrays *)
  cats : nat -> hcat;                    (* CategoryStats *)
  maps : nat -> list (string * nat);     (* map[string]*CategoryStats *)
  stats : nat -> hstats;                 (* SearchStats *)
  next : nat                             (* the next free CategoryStats address *) }.

Definition upd {V} (f : nat -> V) (a : nat) (v : V) (x : nat) : V := if Nat.eqb x a then v else f x.
Definition set_arr h a v := MkHeap (upd (arrs h) a v) (cats h) (maps h) (stats h) (next h).
Definition set_cat h a v := MkHeap (arrs h) (upd (cats h) a v) (maps h) (stats h) (next h).
Definition set_map h a v := MkHeap (arrs h) (cats h) (upd (maps h) a v) (stats h) (next h).
Definition set_stats h a v := MkHeap (arrs h) (cats h) (maps h) (upd (stats h) a v) (next h).

(** What a caller sees through the pointers. *)
Definition view_cat (h : heap) (a : nat) : CategoryStats :=
  let o := cats h a in
  MkCS (o_Category o) (o_EventCount o) (o_ActiveCount o) (arrs h (o_BucketCounts o)) (o_ErroredCount o) (o_Oldest o) (o_Newest o).
Definition view_map (h : heap) (m : list (string * nat)) : list (string * CategoryStats) :=
  map (fun ko => (fst ko, view_cat h (snd ko))) m.
Definition view (h : heap) (a : nat) : SearchStats :=
  MkSS (h_Bucketing (stats h a)) (view_map h (maps h (h_Categories (stats h a)))).

(** search_stats.go:265-267: for i := range cs.BucketCounts { cs.BucketCounts[i] += other.BucketCounts[i] } *)
Fixpoint hadd (h : heap) (dst src : nat) (i : Z) (n : nat) : res heap :=
  match n with
  | O => Ok h
  | S n =>
      x <- slice_get (arrs h dst) i ;;
      y <- slice_get (arrs h src) i ;;
      l <- slice_set (arrs h dst) i (x + y) ;;
      hadd (set_arr h dst l) dst src (i + 1) n
  end.

(** search_stats.go:246-276, without the rates *)
Definition hcat_Merge (h : heap) (cs other : nat) : res heap :=
  if cs_IsZero (view_cat h other) then Ok h
  else if cs_IsZero (view_cat h cs) then Ok (set_cat h cs (cats h other))
  else if negb (zlen (BucketCounts (view_cat h cs)) =? zlen (BucketCounts (view_cat h other))) then Panic
  else
    let o := cats h cs in
    let h := set_cat h cs (MkHCat (o_Category o) (o_EventCount o) (o_ActiveCount o + o_ActiveCount (cats h other)) (o_BucketCounts o) (o_ErroredCount o) (o_Oldest o) (o_Newest o)) in
    h <- hadd h (o_BucketCounts (cats h cs)) (o_BucketCounts (cats h other)) 0 (length (arrs h (o_BucketCounts (cats h cs)))) ;;
    let o := cats h cs in
    let h := set_cat h cs (MkHCat (o_Category o) (o_EventCount o) (o_ActiveCount o) (o_BucketCounts o) (o_ErroredCount o + o_ErroredCount (cats h other)) (o_Oldest o) (o_Newest o)) in
    let o := cats h cs in
    let h := set_cat h cs (MkHCat (o_Category o) (o_EventCount o) (o_ActiveCount o) (o_BucketCounts o) (o_ErroredCount o) (olderOf (o_Oldest o) (o_Oldest (cats h other))) (o_Newest o)) in
    let o := cats h cs in
    Ok (set_cat h cs (MkHCat (o_Category o) (o_EventCount o) (o_ActiveCount o) (o_BucketCounts o) (o_ErroredCount o) (o_Oldest o) (newerOf (o_Newest o) (o_Newest (cats h other))))).

(** search_stats.go:93-101: [names] is the order in which the range visits the keys *)
Fixpoint hmerge_loop (h : heap) (ss other : nat) (names : list string) : res heap :=
  match names with
  | [] => Ok h
  | category :: names =>
      match map_get category (maps h (h_Categories (stats h other))) with
      | None => Panic
      | Some theirs =>
          match map_get category (maps h (h_Categories (stats h ss))) with
          | None =>
              (* cp := *theirs; ss.Categories[category] = &cp *)
              let cp := next h in
              let h := MkHeap (arrs h) (upd (cats h) cp (cats h theirs)) (maps h) (stats h) (S cp) in
              hmerge_loop (set_map h (h_Categories (stats h ss)) (map_set category cp (maps h (h_Categories (stats h ss))))) ss other names
          | Some ours => h <- hcat_Merge h ours theirs ;; hmerge_loop h ss other names
          end
      end
  end.

(** search_stats.go:79-102 *)
Definition hMerge (order : list string -> list string) (h : heap) (ss other : nat) : res heap :=
  if ss_IsZero (Some (view h other)) then Ok h
  else if ss_IsZero (Some (view h ss)) then Ok (set_stats h ss (stats h other))
  else if negb (zlen (Bucketing (view h ss)) =? zlen (Bucketing (view h other))) then Panic
  else hmerge_loop h ss other (order (map_keys (maps h (h_Categories (stats h other))))).

(** What MultiSearcher.Search does with the answers (search_types.go:168-195): merge them
    one after the other. *)
Fixpoint hmerge_all (orders : nat -> list string -> list string) (n : nat) (h : heap) (ss : nat) (others : list nat) : res heap :=
  match others with
  | [] => Ok h
  | o :: others => h <- hMerge (orders n) h ss o ;; hmerge_all orders (S n) h ss others
  end.

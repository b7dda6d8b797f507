(** Model of search_stats.go.  Values only: sharing of arrays and maps is the
    subject of M_StatsHeap, the cached rates (tracerate, eventrate) of M_Rates.
    Time is Z, 0 is the zero time. *)
From Verif Require Import Go M_Strings M_Types.
Open Scope string_scope.
Open Scope Z_scope.

(** search_stats.go:137-148 *)
Record CategoryStats := MkCS {
  cs_Category : string;
  EventCount : Z;
  ActiveCount : Z;
  BucketCounts : list Z;
  ErroredCount : Z;
  Oldest : Z;
  Newest : Z
}.

(** search_stats.go:11-14; a nil *SearchStats is None where it can occur. *)
Record SearchStats := MkSS {
  Bucketing : list Z;
  Categories : list (string * CategoryStats)
}.

(** search_stats.go:18-23 *)
Definition NewSearchStats (bucketing : list Z) : SearchStats := MkSS bucketing [].

(** search_stats.go:26-36 *)
Definition ss_IsZero (ss : option SearchStats) : bool :=
  match ss with
  | None => true
  | Some ss => if zlen (Bucketing ss) <=? 0 then true else false
  end.

(** search_stats.go:152-157 *)
Definition NewCategoryStats (category : string) (bucketing : list Z) : CategoryStats :=
  MkCS category 0 0 (repeat 0 (length bucketing)) 0 0 0.

(** search_stats.go:282-298 *)
Definition olderOf (a b : Z) : Z :=
  if negb (a =? 0) && negb (b =? 0) then (if a <? b then a else b)
  else if negb (a =? 0) && (b =? 0) then a
  else if (a =? 0) && negb (b =? 0) then b
  else 0.

(** search_stats.go:300-316 *)
Definition newerOf (a b : Z) : Z :=
  if negb (a =? 0) && negb (b =? 0) then (if b <? a then a else b)
  else if negb (a =? 0) && (b =? 0) then a
  else if (a =? 0) && negb (b =? 0) then b
  else 0.

(** search_stats.go:63-68: i counts up from the position of the first remaining
    bucket *)
Fixpoint bump_buckets (bucketing : list Z) (i : Z) (duration : Z) (counts : list Z) : res (list Z) :=
  match bucketing with
  | [] => Ok counts
  | bucket :: bucketing =>
      if duration <? bucket then Ok counts
      else
        c <- slice_get counts i ;;
        counts <- slice_set counts i (c + 1) ;;
        bump_buckets bucketing (i + 1) duration counts
  end.

(** search_stats.go:40-75: one iteration *)
Definition observe1 (ss : SearchStats) (tr : StaticTrace) : res SearchStats :=
  let category := TraceCategory tr in
  let cs := match map_get category (Categories ss) with
            | Some cs => cs
            | None => NewCategoryStats category (Bucketing ss)
            end in
  let cs := MkCS (cs_Category cs) (EventCount cs + zlen (TraceEvents tr)) (ActiveCount cs) (BucketCounts cs)
                 (ErroredCount cs) (Oldest cs) (Newest cs) in
  let isActive := negb (TraceFinished tr) in
  let isBucket := TraceFinished tr && negb (TraceErrored tr) in
  let isErrored := TraceFinished tr && TraceErrored tr in
  cs <- (if isActive then
           Ok (MkCS (cs_Category cs) (EventCount cs) (ActiveCount cs + 1) (BucketCounts cs)
                    (ErroredCount cs) (Oldest cs) (Newest cs))
         else if isBucket then
           counts <- bump_buckets (Bucketing ss) 0 (TraceDuration tr) (BucketCounts cs) ;;
           Ok (MkCS (cs_Category cs) (EventCount cs) (ActiveCount cs) counts
                    (ErroredCount cs) (Oldest cs) (Newest cs))
         else if isErrored then
           Ok (MkCS (cs_Category cs) (EventCount cs) (ActiveCount cs) (BucketCounts cs)
                    (ErroredCount cs + 1) (Oldest cs) (Newest cs))
         else Ok cs) ;;
  let cs := MkCS (cs_Category cs) (EventCount cs) (ActiveCount cs) (BucketCounts cs) (ErroredCount cs)
                 (olderOf (Oldest cs) (TraceStarted tr)) (newerOf (Newest cs) (TraceStarted tr)) in
  Ok (MkSS (Bucketing ss) (map_set category cs (Categories ss))).

(** search_stats.go:39-76 *)
Fixpoint Observe (ss : SearchStats) (trs : list StaticTrace) : res SearchStats :=
  match trs with
  | [] => Ok ss
  | tr :: trs => ss <- observe1 ss tr ;; Observe ss trs
  end.

(** search_stats.go:160-180 (a nil receiver cannot occur here) *)
Definition cs_IsZero (cs : CategoryStats) : bool :=
  let bucketCounts := fold_left Z.add (BucketCounts cs) 0 in
  String.eqb (cs_Category cs) "" && (ActiveCount cs =? 0) && (bucketCounts =? 0) && (ErroredCount cs =? 0) &&
  (Oldest cs =? 0) && (Newest cs =? 0).

(** search_stats.go:183-191 *)
Definition TotalCount (cs : CategoryStats) : Z :=
  ActiveCount cs + (match BucketCounts cs with b :: _ => b | [] => 0 end) + ErroredCount cs.

(** search_stats.go:265-267: for i := range cs.BucketCounts *)
Fixpoint add_buckets (ours theirs : list Z) : res (list Z) :=
  match ours, theirs with
  | [], _ => Ok []
  | o :: ours, t :: theirs => rest <- add_buckets ours theirs ;; Ok ((o + t) :: rest)
  | _ :: _, [] => Panic
  end.

(** search_stats.go:246-276, without the rates *)
Definition cs_Merge (cs other : CategoryStats) : res CategoryStats :=
  if cs_IsZero other then Ok cs
  else if cs_IsZero cs then Ok other
  else if negb (zlen (BucketCounts cs) =? zlen (BucketCounts other)) then Panic
  else
    buckets <- add_buckets (BucketCounts cs) (BucketCounts other) ;;
    Ok (MkCS (cs_Category cs) (EventCount cs) (ActiveCount cs + ActiveCount other) buckets
             (ErroredCount cs + ErroredCount other)
             (olderOf (Oldest cs) (Oldest other)) (newerOf (Newest cs) (Newest other))).

(** search_stats.go:93-101: range over other.Categories in the order [names] *)
Fixpoint merge_categories (names : list string) (other ours : list (string * CategoryStats))
  : res (list (string * CategoryStats)) :=
  match names with
  | [] => Ok ours
  | category :: names =>
      match map_get category other with
      | None => Panic
      | Some theirs =>
          match map_get category ours with
          | None => merge_categories names other (map_set category theirs ours)
          | Some cs => cs <- cs_Merge cs theirs ;; merge_categories names other (map_set category cs ours)
          end
      end
  end.

(** search_stats.go:79-102 *)
Definition ss_Merge (order : list string -> list string) (ss : SearchStats) (other : option SearchStats) : res SearchStats :=
  match other with
  | None => Ok ss
  | Some o =>
      if ss_IsZero other then Ok ss
      else if ss_IsZero (Some ss) then Ok o
      else if negb (zlen (Bucketing ss) =? zlen (Bucketing o)) then Panic
      else
        cats <- merge_categories (order (map_keys (Categories o))) (Categories o) (Categories ss) ;;
        Ok (MkSS (Bucketing ss) cats)
  end.

(** search_stats.go:105-116, without the rates *)
Fixpoint overall_loop (names : list string) (cats : list (string * CategoryStats)) (overall : CategoryStats) : res CategoryStats :=
  match names with
  | [] => Ok overall
  | n :: names =>
      match map_get n cats with
      | None => Panic
      | Some cs => overall <- cs_Merge overall cs ;; overall_loop names cats overall
      end
  end.
Definition Overall (order : list string -> list string) (ss : SearchStats) : res CategoryStats :=
  overall_loop (order (map_keys (Categories ss))) (Categories ss) (NewCategoryStats "overall" (Bucketing ss)).

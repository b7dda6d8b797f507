(** Model of the rates of search_stats.go: CategoryStats.TraceRate and EventRate, their
    cache, and what Merge and Overall do with them.  M_Stats has the rest of the file.
    Simplification: a float64 is an exact rational (Q), so rounding is not modelled.
    time.Since reads the clock: every call takes the time it read as an argument. *)
From Verif Require Import Go M_Strings M_Types M_Stats.
From Coq Require Import QArith.
Open Scope string_scope.
Open Scope Z_scope.

(** search_stats.go:137-148: the exported fields, tracerate, eventrate *)
Record rated := MkR { r_cs : CategoryStats; tracerate : Q; eventrate : Q }.

(** search_stats.go:152-157; an entry of a decoded or copied response has no rates yet *)
Definition unrated (cs : CategoryStats) : rated := MkR cs 0 0.

(** float64(total) / float64(delta.Seconds()): delta is in nanoseconds *)
Definition per_second (total delta : Z) : Q := (inject_Z total / (inject_Z delta / inject_Z 1000000000))%Q.

(** search_stats.go:203-218 and 229-244: the computation both methods share *)
Definition fresh_rate (total oldest newest now : Z) : Q :=
  let delta := now - oldest in
  let totalZero := total <=? 0 in
  let deltaZero := delta <=? 0 in
  let newestZero := newest =? 0 in
  let oldestZero := oldest =? 0 in
  let isZero := totalZero || deltaZero || newestZero || oldestZero in
  if isZero then 0 else per_second total delta.

(** search_stats.go:194-218.  Returns the rate and the receiver with its cache set. *)
Definition TraceRate (now : Z) (cs : rated) : Q * rated :=
  if negb (Qeq_bool (tracerate cs) 0) then (tracerate cs, cs)
  else let r := fresh_rate (TotalCount (r_cs cs)) (Oldest (r_cs cs)) (Newest (r_cs cs)) now in
       (r, MkR (r_cs cs) r (eventrate cs)).

(** search_stats.go:220-244 *)
Definition EventRate (now : Z) (cs : rated) : Q * rated :=
  if negb (Qeq_bool (eventrate cs) 0) then (eventrate cs, cs)
  else let r := fresh_rate (EventCount (r_cs cs)) (Oldest (r_cs cs)) (Newest (r_cs cs)) now in
       (r, MkR (r_cs cs) (tracerate cs) r).

(** search_stats.go:246-276.  [t] are the four clock readings of 274-275.  Returns the
    receiver and the argument, whose caches are written too. *)
Definition r_Merge (t : Z * Z * Z * Z) (cs other : rated) : res (rated * rated) :=
  let '(t1, t2, t3, t4) := t in
  if cs_IsZero (r_cs other) then Ok (cs, other)
  else if cs_IsZero (r_cs cs) then Ok (other, other)
  else
    c <- cs_Merge (r_cs cs) (r_cs other) ;;
    let cs := MkR c (tracerate cs) (eventrate cs) in
    let '(mine, cs) := TraceRate t1 cs in
    let '(theirs, other) := TraceRate t2 other in
    let cs := MkR (r_cs cs) (mine + theirs) (eventrate cs) in
    let '(mine, cs) := EventRate t3 cs in
    let '(theirs, other) := EventRate t4 other in
    Ok (MkR (r_cs cs) (tracerate cs) (mine + theirs), other).

(** search_stats.go:40-75: observing one more trace of the category changes the exported
    fields and leaves the caches alone *)
Definition r_observed (cs : rated) (c : CategoryStats) : rated := MkR c (tracerate cs) (eventrate cs).

(** search_stats.go:105-116.  For each category, in the order of the list, the clock
    readings of Merge and of the two calls after it. *)
Fixpoint r_overall_loop (cats : list (rated * (Z * Z * Z * Z) * Z * Z)) (overall : rated) (tr er : Q) : res (rated * Q * Q) :=
  match cats with
  | [] => Ok (overall, tr, er)
  | (sc, t, t5, t6) :: cats =>
      '(overall, sc) <- r_Merge t overall sc ;;
      let '(a, sc) := TraceRate t5 sc in
      let '(b, sc) := EventRate t6 sc in
      r_overall_loop cats overall (tr + a) (er + b)
  end.
Definition r_Overall (bucketing : list Z) (cats : list (rated * (Z * Z * Z * Z) * Z * Z)) : res rated :=
  '(overall, tr, er) <- r_overall_loop cats (unrated (NewCategoryStats "overall" bucketing)) 0 0 ;;
  Ok (MkR (r_cs overall) tr er).

(** The rates of search_stats.go in float64: M_Rates with the rounding of every operation. *)
From Verif Require Import Go M_Strings M_Types M_Stats M_Rates M_Float.
From Coq Require Import QArith.
Open Scope string_scope.
Open Scope Z_scope.

(** time.Duration.Seconds: float64(sec) + float64(nsec)/1e9, for a positive duration *)
Definition Seconds (d : Z) : Q :=
  let sec := d / 1000000000 in
  let nsec := d mod 1000000000 in
  round (float64 sec + round (float64 nsec / inject_Z 1000000000)).
(** float64(total) / float64(delta.Seconds()); the divisor is positive *)
Definition fper_second (total delta : Z) : Q := round (float64 total / Seconds delta).
(** search_stats.go:203-218 and 229-244 *)
Definition f_fresh_rate (total oldest newest now : Z) : Q :=
  let delta := now - oldest in
  let totalZero := total <=? 0 in
  let deltaZero := delta <=? 0 in
  let newestZero := newest =? 0 in
  let oldestZero := oldest =? 0 in
  let isZero := totalZero || deltaZero || newestZero || oldestZero in
  if isZero then 0 else fper_second total delta.
(** search_stats.go:194-218 *)
Definition f_TraceRate (now : Z) (cs : rated) : Q * rated :=
  if negb (Qeq_bool (tracerate cs) 0) then (tracerate cs, cs)
  else let r := f_fresh_rate (TotalCount (r_cs cs)) (Oldest (r_cs cs)) (Newest (r_cs cs)) now in
       (r, MkR (r_cs cs) r (eventrate cs)).
(** search_stats.go:220-244 *)
Definition f_EventRate (now : Z) (cs : rated) : Q * rated :=
  if negb (Qeq_bool (eventrate cs) 0) then (eventrate cs, cs)
  else let r := f_fresh_rate (EventCount (r_cs cs)) (Oldest (r_cs cs)) (Newest (r_cs cs)) now in
       (r, MkR (r_cs cs) (tracerate cs) r).
(** search_stats.go:246-276 *)
Definition f_r_Merge (t : Z * Z * Z * Z) (cs other : rated) : res (rated * rated) :=
  let '(t1, t2, t3, t4) := t in
  if cs_IsZero (r_cs other) then Ok (cs, other)
  else if cs_IsZero (r_cs cs) then Ok (other, other)
  else
    c <- cs_Merge (r_cs cs) (r_cs other) ;;
    let cs := MkR c (tracerate cs) (eventrate cs) in
    let '(mine, cs) := f_TraceRate t1 cs in
    let '(theirs, other) := f_TraceRate t2 other in
    let cs := MkR (r_cs cs) (round (mine + theirs)) (eventrate cs) in
    let '(mine, cs) := f_EventRate t3 cs in
    let '(theirs, other) := f_EventRate t4 other in
    Ok (MkR (r_cs cs) (tracerate cs) (round (mine + theirs)), other).
(** Merging statistics one after another (search_types.go:166-195), each with its clock readings *)
Fixpoint f_merge_all (cs : rated) (others : list (rated * (Z * Z * Z * Z))) : res rated :=
  match others with
  | [] => Ok cs
  | (other, t) :: others => '(cs, _) <- f_r_Merge t cs other ;; f_merge_all cs others
  end.
(** search_stats.go:105-116 *)
Fixpoint f_overall_loop (cats : list (rated * (Z * Z * Z * Z) * Z * Z)) (overall : rated) (tr er : Q) : res (rated * Q * Q) :=
  match cats with
  | [] => Ok (overall, tr, er)
  | (sc, t, t5, t6) :: cats =>
      '(overall, sc) <- f_r_Merge t overall sc ;;
      let '(a, sc) := f_TraceRate t5 sc in
      let '(b, sc) := f_EventRate t6 sc in
      f_overall_loop cats overall (round (tr + a)) (round (er + b))
  end.
Definition f_r_Overall (bucketing : list Z) (cats : list (rated * (Z * Z * Z * Z) * Z * Z)) : res rated :=
  '(overall, tr, er) <- f_overall_loop cats (unrated (NewCategoryStats "overall" bucketing)) 0 0 ;;
  Ok (MkR (r_cs overall) tr er).

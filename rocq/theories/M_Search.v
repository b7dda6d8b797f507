(** Model of search_types.go, of Collector.Search (collector.go:136-195) and of the parts
    of trace_static.go they use. *)
From Verif Require Import Go M_Strings M_Types M_Frame M_Filter M_RingBuf M_RingBufs M_Stats L_Order.
Open Scope string_scope.
Open Scope list_scope.
Open Scope Z_scope.

(** trace_static.go:24-35.  The argument is what the observers of the trace return
    (C33 is about observers called at different moments). *)
Definition NewSearchTrace (tr : StaticTrace) : StaticTrace :=
  MkStatic (TraceSource tr) (TraceID tr) (TraceCategory tr) (TraceStarted tr) (TraceDuration tr) ""
           (TraceFinished tr) (TraceErrored tr) (TraceEvents tr).

(** trace_static.go:127-132: for i, ev := range st.TraceEvents; [n] iterations remain *)
Fixpoint trim_loop (n : nat) (i : Z) (depth : Z) (evs : list Event) : res (list Event) :=
  match n with
  | O => Ok evs
  | S n =>
      ev <- slice_get evs i ;;
      evs <- (if depth <? zlen (Stack ev)
              then slice_set evs i (MkEvent (When ev) (What ev) (firstn (Z.to_nat depth) (Stack ev)) (IsError ev))
              else Ok evs) ;;
      trim_loop n (i + 1) depth evs
  end.
(** trace_static.go:120-134.  The method changes its receiver and returns it. *)
Definition TrimStacks (st : StaticTrace) (depth : Z) : res StaticTrace :=
  if depth =? 0 then Ok st
  else
    let depth := if depth <? 0 then 0 else depth in
    evs <- trim_loop (length (TraceEvents st)) 0 depth (TraceEvents st) ;;
    Ok (MkStatic (TraceSource st) (TraceID st) (TraceCategory st) (TraceStarted st) (TraceDuration st) (TraceDurationStr st)
                 (TraceFinished st) (TraceErrored st) evs).

(** trace_static.go:146-159, for two elements of the slice *)
Definition Less (a b : StaticTrace) : bool :=
  if TraceStarted b <? TraceStarted a then true
  else if TraceStarted a <? TraceStarted b then false
  else String.ltb (TraceID b) (TraceID a).

(** search_types.go:86-95 *)
Definition SearchLimitMin : Z := 1.
Definition SearchLimitDefault : Z := 10.
Definition SearchLimitMax : Z := 250.

(** search_types.go:98-108 *)
Definition DefaultBucketing : list Z :=
  [0; 100000; 1000000; 5000000; 10000000; 25000000; 50000000; 100000000; 1000000000].

(** sort.Slice by <: any sorting algorithm gives the same list of integers
    (sorted_unique in P_Search), so insertion sort stands for it. *)
Definition sort_durations : list Z -> list Z := isort Z.ltb.
(** sort.Strings; the same remark applies. *)
Definition sort_strings : list string -> list string := isort String.ltb.

Section Search.
Context {RE : Type}.
Variable Compile : string -> RE + string.
Variable MatchString : RE -> string -> bool.

(** search_types.go:25-30 *)
Record SearchRequest := MkReq {
  req_Bucketing : list Z;
  req_Filter : Filter RE;
  req_Limit : Z;
  req_StackDepth : Z
}.

(** search_types.go:115-124 without the request pointer and the duration; a nil
    *SearchStats is None *)
Record SearchResponse := MkResp {
  resp_Sources : list string;
  resp_TotalCount : Z;
  resp_MatchCount : Z;
  resp_Traces : list StaticTrace;
  resp_Stats : option SearchStats;
  resp_Problems : list string
}.

(** search_types.go:51-58 *)
Definition clamp_limit (limit : Z) : Z :=
  if limit <=? 0 then SearchLimitDefault
  else if limit <? SearchLimitMin then SearchLimitMin
  else if SearchLimitMax <? limit then SearchLimitMax
  else limit.

(** search_types.go:34-61.  (The sort is in place: a slice given by the caller is
    reordered; DefaultBucketing is sorted already.) *)
Definition Normalize (req : SearchRequest) : res (SearchRequest * list string) :=
  let b := if zlen (req_Bucketing req) <=? 0 then DefaultBucketing else req_Bucketing req in
  let b := sort_durations b in
  b0 <- slice_get b 0 ;;
  let b := if negb (b0 =? 0) then 0 :: b else b in
  let '(f, ferrs) := FilterNormalize Compile (req_Filter req) in
  Ok (MkReq b f (clamp_limit (req_Limit req)) (req_StackDepth req),
      map (fun err => "filter: " ++ err)%string ferrs).

(** collector.go:142-149: the variables the closure passed to Walk writes *)
Record search_st := MkSt {
  st_stats : SearchStats;
  st_total : Z;
  st_match : Z;
  st_cat : list StaticTrace;
  st_filter : Filter RE
}.

Section OverStorage.
Context {T : Type}.
Variable view : T -> StaticTrace.  (* what the observers of a stored trace return *)

(** collector.go:150-171: the closure.  Its state is [Panic] once it has panicked. *)
Definition search_fn (limit depth : Z) (st : res search_st) (candidate : T) : res search_st * option unit :=
  (st <- st ;;
   stats <- Observe (st_stats st) [view candidate] ;;
   let st := MkSt stats (st_total st + 1) (st_match st) (st_cat st) (st_filter st) in
   if limit <=? zlen (st_cat st) then Ok st
   else
     let '(f, allowed) := Allow Compile MatchString (st_filter st) (view candidate) in
     let st := MkSt (st_stats st) (st_total st) (st_match st) (st_cat st) f in
     if negb allowed then Ok st
     else
       tr <- TrimStacks (NewSearchTrace (view candidate)) depth ;;
       Ok (MkSt (st_stats st) (st_total st) (st_match st + 1) (st_cat st ++ [tr]) f),
   None).

(** collector.go:148-173: the loop over the categories *)
Fixpoint search_categories (limit depth : Z) (names : list string) (s : rbs T) (st : search_st) (traces : list StaticTrace)
  : res (search_st * list StaticTrace) :=
  match names with
  | [] => Ok (st, traces)
  | name :: names =>
      match map_get name (rbs_bufs s) with
      | None => Panic
      | Some r =>
          let st := MkSt (st_stats st) (st_total st) (st_match st) [] (st_filter st) in
          '(st, _) <- Walk (search_fn limit depth) r (Ok st) ;;
          st <- st ;;
          search_categories limit depth names s st (traces ++ st_cat st)
      end
  end.

(** traces[:limit] if there are more *)
Definition limit_traces (limit : Z) (trs : list StaticTrace) : list StaticTrace :=
  if limit <? zlen trs then firstn (Z.to_nat limit) trs else trs.

(** collector.go:137-195.  [sort] is sort.Sort(staticTracesNewestFirst(..)), [order] the
    map iteration order.  The request is changed through its pointer, so it is returned. *)
Definition Search (sort : list StaticTrace -> list StaticTrace) (order : list string -> list string)
           (source : string) (s : rbs T) (req : SearchRequest) : res (SearchRequest * SearchResponse) :=
  '(req, errs) <- Normalize req ;;
  let st := MkSt (NewSearchStats (req_Bucketing req)) 0 0 [] (req_Filter req) in
  '(st, traces) <- search_categories (req_Limit req) (req_StackDepth req) (GetAll s order) s st [] ;;
  Ok (MkReq (req_Bucketing req) (st_filter st) (req_Limit req) (req_StackDepth req),
      MkResp [source] (st_total st) (st_match st) (limit_traces (req_Limit req) (sort traces)) (Some (st_stats st)) errs).
End OverStorage.

(** search_types.go:144-148 *)
Record tuple := MkTuple { t_id : string; t_res : option SearchResponse; t_err : option string }.

(** search_types.go:152-158: the outcome of each searcher with the id it is given *)
Fixpoint number (i : Z) (outcomes : list (option SearchResponse * option string)) : list tuple :=
  match outcomes with
  | [] => []
  | (r, e) :: outcomes => MkTuple (itoa (i + 1)) r e :: number (i + 1) outcomes
  end.

(** search_types.go:168-195: one received tuple *)
Definition gather1 (order : list string -> list string) (agg : SearchResponse) (t : tuple) : res SearchResponse :=
  match t_res t, t_err t with
  | None, None =>
      Ok (MkResp (resp_Sources agg) (resp_TotalCount agg) (resp_MatchCount agg) (resp_Traces agg) (resp_Stats agg)
                 (resp_Problems agg ++ [t_id t ++ ": weird: empty response"]%string))
  | None, Some err =>
      Ok (MkResp (resp_Sources agg) (resp_TotalCount agg) (resp_MatchCount agg) (resp_Traces agg) (resp_Stats agg)
                 (resp_Problems agg ++ [err]))
  | Some r, err =>
      match resp_Stats agg with
      | None => Panic
      | Some ss =>
          ss <- ss_Merge order ss (resp_Stats r) ;;
          Ok (MkResp (resp_Sources agg ++ resp_Sources r) (resp_TotalCount agg + resp_TotalCount r)
                     (resp_MatchCount agg + resp_MatchCount r) (resp_Traces agg ++ resp_Traces r) (Some ss)
                     (resp_Problems agg ++ resp_Problems r ++
                      match err with
                      | None => []
                      | Some err => ["got valid search response with error (" ++ err ++ ") -- weird"]%string
                      end))
      end
  end.
(** [orders n] is the map iteration order in the n-th merge. *)
Fixpoint gather (orders : nat -> list string -> list string) (n : nat) (agg : SearchResponse) (ts : list tuple) : res SearchResponse :=
  match ts with
  | [] => Ok agg
  | t :: ts => agg <- gather1 (orders n) agg t ;; gather orders (S n) agg ts
  end.

(** search_types.go:211-219: the keys of a map are distinct; the order they are
    read in does not matter because they are sorted next *)
Definition fix_sources (order : list string -> list string) (sources : list string) : list string :=
  let sourceIndex := fold_left (fun m s => map_set s tt m) sources [] in
  sort_strings (order (map_keys sourceIndex)).

(** search_types.go:137-227.  [arrivals] is the order in which the tuples come out of the
    channel.  The searchers run concurrently; each is represented by what it returns. *)
Definition MultiSearch (sort : list StaticTrace -> list StaticTrace) (orders : nat -> list string -> list string)
           (arrivals : list tuple) (req : SearchRequest) : res (SearchRequest * SearchResponse) :=
  '(req, errs) <- Normalize req ;;
  agg <- gather orders 1 (MkResp [] 0 0 [] (Some (NewSearchStats (req_Bucketing req))) errs) arrivals ;;
  Ok (req, MkResp (fix_sources (orders O) (resp_Sources agg)) (resp_TotalCount agg) (resp_MatchCount agg)
                  (limit_traces (req_Limit req) (sort (resp_Traces agg))) (resp_Stats agg) (resp_Problems agg)).
End Search.
Arguments SearchRequest : clear implicits.

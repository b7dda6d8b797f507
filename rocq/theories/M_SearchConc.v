(** Model of Collector.Search (collector.go:136-195) while other goroutines create traces, log
    to them and change the category size.

    A search takes the lock of the set of ring buffers once (ringbuffer.go:218-228) and the
    lock of each ring buffer once, for the whole Walk (:131-153).  The steps of other
    goroutines are the bodies under the same locks; one on a ring buffer other than the one
    being walked has the same effect right after that Walk, so all of them are put between
    the Walks.  The traces themselves change at any time: each look at one, by Observe, by
    Allow and by NewSearchTrace, has its own result, [look n] for the n-th.  (Each of these reads
    several fields under separate locks; what that can give is C33.  Here it can be anything.) *)
From Verif Require Import Go M_Strings M_Types M_Frame M_Filter M_RingBuf M_RingBufs M_Stats M_Search.
Open Scope string_scope.
Open Scope list_scope.
Open Scope Z_scope.

(** The steps of other goroutines. *)
Inductive sop {T : Type} :=
| SCreate (category : string)           (* ringbuffer.go:204-215 GetOrCreate, by NewTrace *)
| SAdd (category : string) (tr : T)     (* ringbuffer.go:95-126 Add, by NewTrace *)
| SCap (cap : Z)                        (* ringbuffer.go:239, by SetCategorySize *)
| SResize (category : string) (cap : Z) (* ringbuffer.go:241-243, one ring buffer *).
Arguments sop : clear implicits.

Section Conc.
Context {T RE : Type}.
Variable zero : T.
Variable Compile : string -> RE + string.
Variable MatchString : RE -> string -> bool.
Variable look : nat -> T -> StaticTrace.

Definition sop_step (s : rbs T) (o : sop T) : res (rbs T) :=
  match o with
  | SCreate category => GetOrCreate zero s category
  | SAdd category tr => '(s, _) <- AddTo zero s category tr ;; Ok s
  | SCap cap => Ok (MkRBS cap (rbs_bufs s))
  | SResize category cap =>
      match map_get category (rbs_bufs s) with
      | None => Panic
      | Some r => '(r, _) <- Resize zero r cap ;; Ok (MkRBS (rbs_cap s) (map_set category r (rbs_bufs s)))
      end
  end.
Fixpoint srun (s : rbs T) (ops : list (sop T)) : res (rbs T) :=
  match ops with
  | [] => Ok s
  | o :: ops => s <- sop_step s o ;; srun s ops
  end.

(** collector.go:150-171: the closure, with the number of looks so far *)
Definition conc_fn (limit depth : Z) (st : res (nat * search_st (RE := RE))) (candidate : T)
  : res (nat * search_st (RE := RE)) * option unit :=
  ('(n, st) <- st ;;
   stats <- Observe (st_stats st) [look n candidate] ;;
   let st := MkSt stats (st_total st + 1) (st_match st) (st_cat st) (st_filter st) in
   if limit <=? zlen (st_cat st) then Ok (n + 3, st)%nat
   else
     let '(f, allowed) := Allow Compile MatchString (st_filter st) (look (n + 1) candidate) in
     let st := MkSt (st_stats st) (st_total st) (st_match st) (st_cat st) f in
     if negb allowed then Ok (n + 3, st)%nat
     else
       tr <- TrimStacks (NewSearchTrace (look (n + 2) candidate)) depth ;;
       Ok (n + 3, MkSt (st_stats st) (st_total st) (st_match st + 1) (st_cat st ++ [tr]) f)%nat,
   None).

(** collector.go:148-173: the loop over the categories; [before k] is what other goroutines
    do before the k-th Walk *)
Fixpoint conc_categories (before : nat -> list (sop T)) (limit depth : Z) (names : list string) (k n : nat) (s : rbs T)
  (st : search_st) (traces : list StaticTrace) : res (search_st * list StaticTrace) :=
  match names with
  | [] => Ok (st, traces)
  | name :: names =>
      s <- srun s (before k) ;;
      match map_get name (rbs_bufs s) with
      | None => Panic
      | Some r =>
          let st := MkSt (st_stats st) (st_total st) (st_match st) [] (st_filter st) in
          '(st, _) <- Walk (conc_fn limit depth) r (Ok (n, st)) ;;
          '(n, st) <- st ;;
          conc_categories before limit depth names (S k) n s st (traces ++ st_cat st)
      end
  end.

(** collector.go:137-195; [s] is the storage when GetAll (:148) reads it *)
Definition conc_search (before : nat -> list (sop T)) (sort : list StaticTrace -> list StaticTrace) (order : list string -> list string)
           (source : string) (s : rbs T) (req : SearchRequest RE) : res (SearchRequest RE * SearchResponse) :=
  '(req, errs) <- Normalize Compile req ;;
  let st := MkSt (NewSearchStats (req_Bucketing req)) 0 0 [] (req_Filter req) in
  '(st, traces) <- conc_categories before (req_Limit req) (req_StackDepth req) (GetAll s order) 0 0 s st [] ;;
  Ok (MkReq (req_Bucketing req) (st_filter st) (req_Limit req) (req_StackDepth req),
      MkResp [source] (st_total st) (st_match st) (limit_traces (req_Limit req) (sort traces)) (Some (st_stats st)) errs).
End Conc.

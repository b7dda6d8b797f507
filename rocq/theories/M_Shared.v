(** Model of a search request that several goroutines use at once: MultiSearcher.Search
    (search_types.go:137-227) hands the same *SearchRequest to all searchers, each of which
    normalizes it again.  Every load and store of the request is a step. *)
From Verif Require Import Go M_Strings M_Types M_Filter M_Search S_Trace.
Open Scope string_scope.
Open Scope list_scope.
Open Scope nat_scope.

(** sort.Slice sees the slice only through less(i, j) and a swap of two elements. *)
Inductive algo := AEnd | ALess (i j : nat) (k : bool -> algo) | ASwap (i j : nat) (k : algo).
Definition swap (i j : nat) (l : list Z) : list Z := update j (nth i l 0%Z) (update i (nth j l 0%Z) l).
(** Its effect if nobody else writes. *)
Fixpoint alg_run (a : algo) (l : list Z) : list Z :=
  match a with
  | AEnd => l
  | ALess i j k => alg_run (k (nth i l 0 <? nth j l 0)%Z) l
  | ASwap i j k => alg_run k (swap i j l)
  end.

(** What sort.Slice does with up to twelve elements (insertionSort_func of the standard
    library): used to show that the assumptions made about the algorithm can be met. *)
Fixpoint inner (j : nat) (k : algo) : algo :=
  match j with O => k | S j' => ALess (S j') j' (fun less => if less then ASwap (S j') j' (inner j' k) else k) end.
Fixpoint outer (i n : nat) : algo := match n with O => AEnd | S n => inner i (outer (S i) n) end.
Definition insertion (n : nat) : algo := outer 1 (n - 1).

Section Shared.
Context {RE : Type}.
Variable Compile : string -> RE + string.
(** The algorithm of sort.Slice for a slice of a given length. *)
Variable sorter : nat -> algo.

(** Memory: all requests and all arrays of durations, by address; array 0 is that of
    DefaultBucketing (search_types.go:98-108).  A request's bucketing is an array and a
    length; simplified: slices begin where their array begins. *)
Record robj := MkRO { ro_bucketing : nat * nat; ro_filter : Filter RE; ro_limit : Z; ro_depth : Z }.
Record mem := MkMem { m_arrays : list (list Z); m_reqs : list robj }.

(** The places that are read and written one at a time.  Fields that are never written
    are read by [FRest]. *)
Inductive fld : Type -> Type :=
| FBucketing (r : nat) : fld (nat * nat)
| FElem (a i : nat) : fld Z
| FQuery (r : nat) : fld string
| FRegexp (r : nat) : fld (option RE)
| FLimit (r : nat) : fld Z
| FRest (r : nat) : fld (Filter RE * Z).
Inductive addr := ABucketing (r : nat) | AElem (a i : nat) | AQuery (r : nat) | ARegexp (r : nat) | ALimit (r : nat) | ARest (r : nat).
Definition addr_of {B} (f : fld B) : addr :=
  match f with
  | FBucketing r => ABucketing r | FElem a i => AElem a i | FQuery r => AQuery r | FRegexp r => ARegexp r | FLimit r => ALimit r | FRest r => ARest r
  end.
Definition zero_filter : Filter RE := MkFilter [] [] "" false false None false false "" None.
Definition zero_req : robj := MkRO (0, 0) zero_filter 0 0.
Definition req (m : mem) (r : nat) : robj := nth r (m_reqs m) zero_req.
(** Everything but the query and the regexp. *)
Definition rest_of (f : Filter RE) : Filter RE :=
  MkFilter (Sources f) (IDs f) (FCategory f) (IsActive f) (IsFinished f) (MinDuration f) (IsSuccess f) (IsErrored f) "" None.
Definition with_query (f : Filter RE) (q : string) (re : option RE) : Filter RE :=
  MkFilter (Sources f) (IDs f) (FCategory f) (IsActive f) (IsFinished f) (MinDuration f) (IsSuccess f) (IsErrored f) q re.
Definition load {B} (f : fld B) (m : mem) : B :=
  match f with
  | FBucketing r => ro_bucketing (req m r)
  | FElem a i => nth i (nth a (m_arrays m) []) 0%Z
  | FQuery r => Query (ro_filter (req m r))
  | FRegexp r => f_regexp (ro_filter (req m r))
  | FLimit r => ro_limit (req m r)
  | FRest r => (rest_of (ro_filter (req m r)), ro_depth (req m r))
  end.
Definition set_req (m : mem) (r : nat) (o : robj) : mem := MkMem (m_arrays m) (update r o (m_reqs m)).
Definition store {B} (f : fld B) : B -> mem -> mem :=
  match f in fld B return B -> mem -> mem with
  | FBucketing r => fun v m => let o := req m r in set_req m r (MkRO v (ro_filter o) (ro_limit o) (ro_depth o))
  | FElem a i => fun v m => MkMem (update a (update i v (nth a (m_arrays m) [])) (m_arrays m)) (m_reqs m)
  | FQuery r => fun v m => let o := req m r in set_req m r (MkRO (ro_bucketing o) (with_query (ro_filter o) v (f_regexp (ro_filter o))) (ro_limit o) (ro_depth o))
  | FRegexp r => fun v m => let o := req m r in set_req m r (MkRO (ro_bucketing o) (with_query (ro_filter o) (Query (ro_filter o)) v) (ro_limit o) (ro_depth o))
  | FLimit r => fun v m => let o := req m r in set_req m r (MkRO (ro_bucketing o) (ro_filter o) v (ro_depth o))
  | FRest r => fun _ m => m
  end.

(** What a goroutine does to memory, one access at a time.  [Alloc] makes a new array. *)
Inductive code (A : Type) : Type :=
| Ret (a : A)
| Load {B : Type} (f : fld B) (k : B -> code A)
| Store {B : Type} (f : fld B) (v : B) (k : code A)
| Alloc (values : list Z) (k : nat -> code A).
Arguments Ret {A}. Arguments Load {A B}. Arguments Store {A B}. Arguments Alloc {A}.

(** sort.Slice(req.Bucketing, less), search_types.go:40-42: less reads the field each time,
    the swapper has the array from the beginning. *)
Fixpoint sort_slice {A} (r a : nat) (al : algo) (k : code A) : code A :=
  match al with
  | AEnd => k
  | ALess i j c =>
      Load (FBucketing r) (fun s => Load (FElem (fst s) i) (fun x => Load (FBucketing r) (fun s => Load (FElem (fst s) j) (fun y =>
        sort_slice r a (c (x <? y)%Z) k))))
  | ASwap i j c =>
      Load (FElem a i) (fun x => Load (FElem a j) (fun y => Store (FElem a i) y (Store (FElem a j) x (sort_slice r a c k))))
  end.
(** All elements of a slice. *)
Fixpoint load_all {A} (a i n : nat) (k : list Z -> code A) : code A :=
  match n with O => k [] | S n => Load (FElem a i) (fun x => load_all a (S i) n (fun xs => k (x :: xs))) end.

(** filter.go:172-190 *)
Definition initialize_regexp {A} (r : nat) (k : option string -> code A) : code A :=
  Load (FRegexp r) (fun re =>
    match re with
    | Some _ => k None
    | None =>
        Load (FQuery r) (fun q =>
          if String.eqb q "" then k None
          else Load (FQuery r) (fun q =>
            match Compile q with
            | inr err => Store (FQuery r) "" (k (Some ("invalid, ignoring (" ++ err ++ ")")%string))
            | inl re => Store (FRegexp r) (Some re) (k None)
            end))
    end).
(** search_types.go:51-58; each case of the switch reads the field *)
Definition normalize_limit {A} (r : nat) (k : code A) : code A :=
  Load (FLimit r) (fun l =>
    if (l <=? 0)%Z then Store (FLimit r) SearchLimitDefault k
    else Load (FLimit r) (fun l =>
      if (l <? SearchLimitMin)%Z then Store (FLimit r) SearchLimitMin k
      else Load (FLimit r) (fun l => if (SearchLimitMax <? l)%Z then Store (FLimit r) SearchLimitMax k else k))).
(** search_types.go:34-61 *)
Definition normalize_rest {A} (r : nat) (k : list string -> code A) : code A :=
  initialize_regexp r (fun err =>
    normalize_limit r (k (match err with Some e => ["filter: " ++ ("query: " ++ e)]%string | None => [] end))).
Definition normalize_zero {A} (r : nat) (k : list string -> code A) : code A :=
  Load (FBucketing r) (fun s => Load (FElem (fst s) 0) (fun b0 =>
    if (b0 =? 0)%Z then normalize_rest r k
    else Load (FBucketing r) (fun s => load_all (fst s) 0 (snd s) (fun bs => Alloc (0%Z :: bs) (fun a =>
           Store (FBucketing r) (a, S (snd s)) (normalize_rest r k)))))).
Definition normalize_sort {A} (r : nat) (k : list string -> code A) : code A :=
  Load (FBucketing r) (fun s => sort_slice r (fst s) (sorter (snd s)) (normalize_zero r k)).
Definition normalize {A} (r : nat) (k : list string -> code A) : code A :=
  Load (FBucketing r) (fun s =>
    if snd s <=? 0 then Store (FBucketing r) (0, length DefaultBucketing) (normalize_sort r k) else normalize_sort r k).

(** What a search takes from the request: the problems found, the bucketing, for each
    candidate the limit and (the pointers of) the filter, and the limit at the end. *)
Record taken := MkTaken { tk_problems : list string; tk_bucketing : list Z; tk_candidates : list (Z * (Filter RE * Z)); tk_limit : Z }.
(** filter.go:85-170 and the limit and the depth of collector.go:150-171 *)
Definition one_candidate {A} (r : nat) (k : Z * (Filter RE * Z) -> code A) : code A :=
  Load (FLimit r) (fun l => Load (FRest r) (fun fd => initialize_regexp r (fun _ => Load (FRegexp r) (fun re => Load (FQuery r) (fun q =>
    k (l, (with_query (fst fd) q re, snd fd))))))).
Fixpoint candidates {A} (r n : nat) (k : list (Z * (Filter RE * Z)) -> code A) : code A :=
  match n with O => k [] | S n => one_candidate r (fun c => candidates r n (fun cs => k (c :: cs))) end.
(** collector.go:137-195, a search that visits n traces *)
Definition collector_search (r n : nat) : code taken :=
  normalize r (fun errs => Load (FBucketing r) (fun s => load_all (fst s) 0 (snd s) (fun bs =>
    candidates r n (fun cs => Load (FLimit r) (fun l => Ret (MkTaken errs bs cs l)))))).
(** trcweb/trace_server.go:188: json.Marshal(req); the regexp is not exported *)
Definition client_search (r : nat) : code taken :=
  Load (FBucketing r) (fun s => load_all (fst s) 0 (snd s) (fun bs => Load (FRest r) (fun fd => Load (FQuery r) (fun q => Load (FLimit r) (fun l =>
    Ret (MkTaken [] bs [(l, (with_query (fst fd) q None, snd fd))] l)))))).
(** What MultiSearcher.Search itself reads while the searchers run: search_types.go:164, 204 *)
Definition multi_rest (r : nat) : code taken :=
  Load (FBucketing r) (fun s => load_all (fst s) 0 (snd s) (fun bs => Load (FLimit r) (fun l => Ret (MkTaken [] bs [] l)))).
Inductive job := JCollector (r n : nat) | JClient (r : nat) | JMulti (r : nat).
Definition code_of (j : job) : code taken :=
  match j with JCollector r n => collector_search r n | JClient r => client_search r | JMulti r => multi_rest r end.

(** Goroutines, what they have returned, and who has accessed what (true: written). *)
Record shared := MkSh { sh_mem : mem; sh_threads : list (code taken); sh_log : list (nat * bool * addr) }.
Definition sh_step (s : shared) (i : nat) : shared :=
  match nth_error (sh_threads s) i with
  | Some (Load f k) => MkSh (sh_mem s) (update i (k (load f (sh_mem s))) (sh_threads s)) (sh_log s ++ [(i, false, addr_of f)])
  | Some (Store f v k) => MkSh (store f v (sh_mem s)) (update i k (sh_threads s)) (sh_log s ++ [(i, true, addr_of f)])
  | Some (Alloc vs k) =>
      MkSh (MkMem (m_arrays (sh_mem s) ++ [vs]) (m_reqs (sh_mem s))) (update i (k (length (m_arrays (sh_mem s)))) (sh_threads s)) (sh_log s)
  | _ => s
  end.
Definition sh_run (sched : list nat) (s : shared) : shared := fold_left sh_step sched s.
Definition sh_start (m : mem) (jobs : list job) : shared := MkSh m (map code_of jobs) [].

(** Running alone, to the end. *)
Fixpoint run_alone {A} (c : code A) (m : mem) : mem * A :=
  match c with
  | Ret a => (m, a)
  | Load f k => run_alone (k (load f m)) m
  | Store f v k => run_alone k (store f v m)
  | Alloc vs k => run_alone (k (length (m_arrays m))) (MkMem (m_arrays m ++ [vs]) (m_reqs m))
  end.
(** The request as a value, as in M_Search. *)
Definition elements (m : mem) (s : nat * nat) : list Z := firstn (snd s) (nth (fst s) (m_arrays m) []).
Definition value_of (m : mem) (r : nat) : SearchRequest RE :=
  let o := req m r in MkReq (elements m (ro_bucketing o)) (ro_filter o) (ro_limit o) (ro_depth o).
End Shared.
Arguments mem : clear implicits.
Arguments shared : clear implicits.
Arguments code : clear implicits.
Arguments taken : clear implicits.
Arguments Ret {RE A}.
Arguments Load {RE A B}.
Arguments Store {RE A B}.
Arguments Alloc {RE A}.

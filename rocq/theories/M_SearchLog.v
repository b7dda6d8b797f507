(** What Search logs to the trace in its context: Collector.Search (collector.go:183),
    SearchClient.Search (trcweb/trace_server.go:176-180, 219) and MultiSearcher.Search
    (search_types.go:137-208).  A search is represented by the counts it arrives at (what they are is the
    subject of C22 to C31) and by the calls it makes on its trace. *)
From Verif Require Import Go M_Strings M_Fmt.
Open Scope string_scope.
Open Scope list_scope.

(** An argument of the calls here: a string, an int, an error (by its text) *)
Inductive sarg := AStr (s : string) | ANum (n : Z) | AErr (s : string).
(** %s of a string, %d of an int, %v of an error.  No other combinations and no flags occur in the calls
    of this package. *)
Definition print_sarg (_ : unit) (flags : string) (verb : ascii) (a : sarg) : string :=
  match a with AStr s => s | ANum n => itoa n | AErr s => s end.

(** A call of Tracef, LazyTracef, Errorf or LazyErrorf *)
Record call := MkCall { c_lazy : bool; c_err : bool; c_format : string; c_args : list sarg }.

(** total, matched, returned *)
Definition counts : Type := Z * Z * Z.
(** what a searcher returns: a response or nil, an error or nil *)
Definition outcome : Type := option counts * option string.

(** What can be searched.  A collector never fails.  [Other] is an implementation of trc.Searcher that
    is not part of this module: it makes any calls and returns anything. *)
Inductive searcher :=
| Coll (source : string) (c : counts)
| Client (uri : string) (c : counts + string)
| Other (calls : list call) (o : outcome)
| Multi (subs : list searcher).

(** collector.go:183 and trace_server.go:219 *)
Definition answer_call (name : string) (c : counts) : call :=
  let '(total, matched, returned) := c in
  MkCall true false "%s -> total %d, matched %d, returned %d" [AStr name; ANum total; ANum matched; ANum returned].
(** trace_server.go:176-180: in a deferred function *)
Definition client_error_call (err : string) : call := MkCall false true "error: %v" [AErr err].

(** helpers.go:92-107 and 118-132, for the prefix of search_types.go:154: the format is not blank *)
Definition prefix_call (id : string) (c : call) : call :=
  MkCall (c_lazy c) (c_err c) ("<%s>" ++ " " ++ c_format c)%string ([AStr id] ++ c_args c).

(** search_types.go:159, 173, 176, 186, 197, 208 *)
Definition scattered_call (n : nat) : call := MkCall false false "scattered request count %d" [ANum (Z.of_nat n)].
Definition remark_calls (id : string) (o : outcome) : list call :=
  match o with
  | (None, None) => [MkCall false false "%s: weird: no result, no error" [AStr id]]
  | (None, Some err) => [MkCall false false "%s: error: %v" [AStr id; AErr err]]
  | (Some _, None) => []
  | (Some _, Some err) => [MkCall false false "%s: weird: valid result (accepting it) with error: %v" [AStr id; AErr err]]
  end.
Definition gathered_call : call := MkCall false false "gathered responses" [].
Definition total_call (c : counts) : call :=
  let '(total, matched, returned) := c in
  MkCall false false "total %d, matched %d, returned %d" [ANum total; ANum matched; ANum returned].

(** search_types.go:155: strconv.Itoa(i+1) *)
Definition id_of (i : nat) : string := itoa (Z.of_nat i + 1).

(** search_types.go:178-195: the counts of the aggregate; the third is len(aggregate.Traces) *)
Definition add_counts (agg : counts) (o : outcome) : counts :=
  match fst o with
  | None => agg
  | Some (t, m, r) => let '(t0, m0, r0) := agg in (t0 + t, m0 + m, r0 + r)%Z
  end.
(** search_types.go:203-206 *)
Definition cut (limit : Z) (agg : counts) : counts :=
  let '(t, m, r) := agg in (t, m, if (limit <? r)%Z then limit else r).

(** ** MultiSearcher.Search as a scheduled program.  Its goroutines make their calls, prefixed, one by one
    and then send their tuple; Search itself logs, receives the tuples and logs. *)
Inductive who := Own | Remark (i : nat) | Sub (i : nat).
Inductive phase := Scattering | Gathering | Returned.
Record ms := MkMS {
  ms_rest : list (option (list call));  (* of each goroutine: the calls it has still to make, None once it has sent its tuple *)
  ms_queue : list nat;                  (* the tuples in the channel *)
  ms_recv : list nat;                   (* those received, last first *)
  ms_agg : counts;
  ms_phase : phase;
  ms_log : list (who * call)            (* ghost: the calls made on the trace, and by whom *)
}.
Definition upd {A} (l : list A) (i : nat) (x : A) : list A := firstn i l ++ match skipn i l with [] => [] | _ :: r => x :: r end.
Definition say (w : who) (cs : list call) (log : list (who * call)) : list (who * call) := log ++ map (fun c => (w, c)) cs.

Section Machine.
Variable limit : Z.
Variable outs : list outcome.  (* what the searchers return *)
Definition start (logs : list (list call)) : ms := MkMS (map Some logs) [] [] (0, 0, 0)%Z Scattering [].

(** search_types.go:153-157, goroutine [i].  (It exists once Search has started it, which is before Search logs
    anything.) *)
Definition go_step (i : nat) (s : ms) : ms :=
  match nth_error (ms_rest s) i with
  | Some (Some (c :: cs)) =>
      MkMS (upd (ms_rest s) i (Some cs)) (ms_queue s) (ms_recv s) (ms_agg s) (ms_phase s)
           (say (Sub i) [prefix_call (id_of i) c] (ms_log s))
  | Some (Some []) => MkMS (upd (ms_rest s) i None) (ms_queue s ++ [i]) (ms_recv s) (ms_agg s) (ms_phase s) (ms_log s)
  | _ => s
  end.
(** search_types.go:159-208 *)
Definition main_step (s : ms) : ms :=
  let n := length (ms_rest s) in
  match ms_phase s with
  | Scattering => MkMS (ms_rest s) (ms_queue s) (ms_recv s) (ms_agg s) Gathering (say Own [scattered_call n] (ms_log s))
  | Gathering =>
      if (length (ms_recv s) <? n)%nat then
        match ms_queue s with
        | [] => s  (* waits *)
        | i :: q =>
            let o := nth i outs (None, None) in
            MkMS (ms_rest s) q (i :: ms_recv s) (add_counts (ms_agg s) o) Gathering (say (Remark i) (remark_calls (id_of i) o) (ms_log s))
        end
      else
        let agg := cut limit (ms_agg s) in
        MkMS (ms_rest s) (ms_queue s) (ms_recv s) agg Returned (say Own [gathered_call; total_call agg] (ms_log s))
  | Returned => s
  end.
(** None: the goroutine of Search; Some i: the one of searcher i *)
Definition step (s : ms) (choice : option nat) : ms :=
  match choice with None => main_step s | Some i => go_step i s end.
Definition run (schedule : list (option nat)) (logs : list (list call)) : ms := fold_left step schedule (start logs).
End Machine.

(** ** The calls a search makes on the trace in its context, and what it returns *)
Inductive searches (limit : Z) : searcher -> list call -> outcome -> Prop :=
| SColl source c : searches limit (Coll source c) [answer_call source c] (Some c, None)
| SClient uri c : searches limit (Client uri (inl c)) [answer_call uri c] (Some c, None)
| SClientErr uri err : searches limit (Client uri (inr err)) [client_error_call err] (None, Some err)
| SOther calls o : searches limit (Other calls o) calls o
| SMulti subs logs outs schedule :
    length logs = length subs -> length outs = length subs ->
    (forall i s, nth_error subs i = Some s -> searches limit s (nth i logs []) (nth i outs (None, None))) ->
    ms_phase (run limit outs schedule logs) = Returned ->
    searches limit (Multi subs) (map snd (ms_log (run limit outs schedule logs))) (Some (ms_agg (run limit outs schedule logs)), None).

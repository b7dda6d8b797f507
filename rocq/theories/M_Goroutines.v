(** The goroutines that the package and the command start, and what ends them. *)
From Coq Require Import List Bool Arith.
Import ListNotations.

(** * MultiSearcher.Search *)
(** One goroutine of the scatter (search_types.go:153-157): not started yet; in Search of its
    searcher; sending to tuplec; ended. *)
Inductive sphase := SNot | SSearching | SSending | SEnded.
Definition supd (f : nat -> sphase) (i : nat) (x : sphase) : nat -> sphase := fun j => if Nat.eqb j i then x else f j.
(** [sc_started]: how many were started; [sc_buffer]: the searchers whose tuples are in tuplec;
    [sc_gathered]: those received; [sc_cancelled]: the caller's context is done.  The tuples
    themselves are the matter of [M_Stats] and of [M_Search]. *)
Record scatter := MkSc { sc_started : nat; sc_phase : nat -> sphase; sc_buffer : list nat; sc_gathered : list nat; sc_cancelled : bool }.
(** search_types.go:137-150 *)
Definition sc_init : scatter := MkSc 0 (fun _ => SNot) [] [] false.
(** One step, with n searchers.  There is no step that looks at the context: neither the
    scatter (:152-158) nor the gather (:169-170) does. *)
Inductive sc_step (n : nat) : scatter -> scatter -> Prop :=
(* search_types.go:152-153 *)
| sc_go k ph b g c : k < n -> sc_step n (MkSc k ph b g c) (MkSc (S k) (supd ph k SSearching) b g c)
(* Search of a searcher returns: search_types.go:155 *)
| sc_return i k ph b g c : ph i = SSearching -> sc_step n (MkSc k ph b g c) (MkSc k (supd ph i SSending) b g c)
(* search_types.go:156; tuplec has room for n: search_types.go:151 *)
| sc_send i k ph b g c : ph i = SSending -> length b < n -> sc_step n (MkSc k ph b g c) (MkSc k (supd ph i SEnded) (b ++ [i]) g c)
(* search_types.go:169-170 *)
| sc_gather i ph b g c : length g < n -> sc_step n (MkSc n ph (i :: b) g c) (MkSc n ph b (g ++ [i]) c)
| sc_cancel k ph b g c : sc_step n (MkSc k ph b g c) (MkSc k ph b g true).
Inductive sc_reach (n : nat) : scatter -> Prop :=
| sc_r0 : sc_reach n sc_init
| sc_r1 s s' : sc_reach n s -> sc_step n s s' -> sc_reach n s'.
(** The loop of search_types.go:169 is over; nothing after it waits. *)
Definition sc_returned (n : nat) (s : scatter) : Prop := sc_started s = n /\ length (sc_gathered s) = n.

(** * StreamClient.Stream *)
(** A call: before the event source is made (trcweb/trace_server.go:438-480), reading, returned. *)
Inductive kphase := KBefore | KReading | KReturned.
(** The goroutine that it starts (trcweb/trace_server.go:482-485): not started, waiting for the
    context, ended. *)
Inductive watcher := WNone | WWaiting | WEnded.
(** [k_closed]: the event source was closed. *)
Record call := MkK { k_phase : kphase; k_watcher : watcher; k_closed : bool }.
Definition k_new : call := MkK KBefore WNone false.
(** One step of a call or of its goroutine; [done]: is its context done. *)
Inductive k_step (done : bool) : call -> call -> Prop :=
(* no request can be made: trcweb/trace_server.go:457-460, 471-474 *)
| k_refuse w cl : k_step done (MkK KBefore w cl) (MkK KReturned w cl)
(* trcweb/trace_server.go:481-485 *)
| k_open w cl : k_step done (MkK KBefore w cl) (MkK KReading WWaiting cl)
(* reading or decoding fails: trcweb/trace_server.go:492-494, 504-506, 517 *)
| k_fail w cl : k_step done (MkK KReading w cl) (MkK KReturned w cl)
(* eventsource.ErrClosed: trcweb/trace_server.go:489-491 *)
| k_end w : k_step done (MkK KReading w true) (MkK KReturned w true)
(* trcweb/trace_server.go:483-484 *)
| k_watch p cl : done = true -> k_step done (MkK p WWaiting cl) (MkK p WEnded true).
(** Any number of calls with one context. *)
Record calls := MkCalls { cl_calls : list call; cl_done : bool }.
Inductive cl_step : calls -> calls -> Prop :=
| cl_call l d : cl_step (MkCalls l d) (MkCalls (l ++ [k_new]) d)
| cl_one l1 k k' l2 d : k_step d k k' -> cl_step (MkCalls (l1 ++ k :: l2) d) (MkCalls (l1 ++ k' :: l2) d)
| cl_cancel l d : cl_step (MkCalls l d) (MkCalls l true).
Inductive cl_steps : calls -> calls -> Prop :=
| cl_refl s : cl_steps s s
| cl_next s s' s'' : cl_step s s' -> cl_steps s' s'' -> cl_steps s s''.
Definition cl_init : calls := MkCalls [] false.

(** * trc stream *)
(** runStream (cmd/trc/stream.go:114-181): at the top of the loop (:162); in select (:167); in
    <-errc (:171); in contextSleep (:177); in <-reporterDone (:146-148); returned. *)
Inductive rphase := RLoop | RSelect | RJoin | RSleep | RReport | RReturned.
(** [a_reporter]: the reporter's goroutine runs (cmd/trc/stream.go:126-145).  [a_turns]: for each
    turn of the loop so far, was cancel called (:170, :176), and the call of Stream (:165). *)
Record addr := MkA { a_run : rphase; a_reporter : bool; a_turns : list (bool * call) }.
Definition a_new : addr := MkA RLoop true [].
(** One step of one of the goroutines for one address; c: is the context of runStreams done. *)
Inductive a_step (c : bool) : addr -> addr -> Prop :=
(* cmd/trc/stream.go:162-165 *)
| a_turn r ts : c = false -> a_step c (MkA RLoop r ts) (MkA RSelect r (ts ++ [(false, k_new)]))
(* cmd/trc/stream.go:162 *)
| a_leave r ts : c = true -> a_step c (MkA RLoop r ts) (MkA RReport r ts)
(* Stream and its goroutine, in the context of the turn *)
| a_call ph r l1 told k k' l2 : k_step (told || c) k k' -> a_step c (MkA ph r (l1 ++ (told, k) :: l2)) (MkA ph r (l1 ++ (told, k') :: l2))
(* cmd/trc/stream.go:168-171 *)
| a_done r ts told k : told || c = true -> a_step c (MkA RSelect r (ts ++ [(told, k)])) (MkA RJoin r (ts ++ [(true, k)]))
(* cmd/trc/stream.go:174-177; errc has room (:164), so the goroutine of :165 ends when Stream does *)
| a_error r ts told k : k_phase k = KReturned -> a_step c (MkA RSelect r (ts ++ [(told, k)])) (MkA RSleep r (ts ++ [(true, k)]))
(* cmd/trc/stream.go:171-172 *)
| a_join r ts told k : k_phase k = KReturned -> a_step c (MkA RJoin r (ts ++ [(told, k)])) (MkA RReport r (ts ++ [(told, k)]))
(* cmd/trc/stream.go:177-178 *)
| a_wake r ts : a_step c (MkA RSleep r ts) (MkA RLoop r ts)
(* cmd/trc/stream.go:141-142 *)
| a_report ph ts : c = true -> a_step c (MkA ph true ts) (MkA ph false ts)
(* cmd/trc/stream.go:146-148 *)
| a_return ts : a_step c (MkA RReport false ts) (MkA RReturned false ts).
(** runStreams (cmd/trc/stream.go:93-112): in <-ctx.Done(); in wg.Wait; returned. *)
Inductive mphase := MWaiting | MJoining | MReturned.
Record streams := MkStreams { st_main : mphase; st_addrs : list addr; st_cancelled : bool }.
(** cmd/trc/stream.go:94-103; that the goroutines start one after the other is left out. *)
Definition st_init (n : nat) : streams := MkStreams MWaiting (repeat a_new n) false.
Inductive st_step : streams -> streams -> Prop :=
| st_one m l1 a a' l2 c : a_step c a a' -> st_step (MkStreams m (l1 ++ a :: l2) c) (MkStreams m (l1 ++ a' :: l2) c)
(* cmd/trc/stream.go:106-108 *)
| st_stop l : st_step (MkStreams MWaiting l true) (MkStreams MJoining l true)
(* cmd/trc/stream.go:109-111 *)
| st_wait l c : Forall (fun a => a_run a = RReturned) l -> st_step (MkStreams MJoining l c) (MkStreams MReturned l c)
(* by run.Group: a signal, or another actor ended *)
| st_cancel m l c : st_step (MkStreams m l c) (MkStreams m l true).
Inductive st_steps : streams -> streams -> Prop :=
| st_refl s : st_steps s s
| st_next s s' s'' : st_step s s' -> st_steps s' s'' -> st_steps s s''.

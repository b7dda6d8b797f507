(** What brokers do to memory and locks (broker.go). *)
From Verif Require Import Go S_HappensBefore.
Open Scope list_scope.
Open Scope nat_scope.

(** Memory: the map of subscribers (broker.go:12); a subscriber object (broker.go:128-132), named by the number of the
    subscription; the slices of the filter of a subscription, which the filter in the object shares with the caller's
    (filter.go:12-23; the duration behind MinDuration counts as one); a trace made by Publish (broker.go:34), named by its number. *)
Inductive place := PSubs | PSub (s : nat) | PFilter (s : nat) | PTrace (n : nat).
(** What orders goroutines: the mutex (broker.go:11); message number m on a channel; the program's own. *)
Inductive order := OMtx | OMessage (ch m : nat) | OOwn (x : nat).
Notation action := (act place order).

(** What a program calls.  Publish with an order in which the map is visited, the subscriptions whose filter
    accepts the trace, and those whose channel has room.  Receive takes a message from a channel; Look reads the trace received last.
    EditTrace writes to the trace received last, EditFilter to the slices of the filter given to Stream as subscription s: a
    program should not.  Relay publishes the trace received last at another broker, whose mutex is x and which has subscribers:
    NewStreamTrace writes to the events of that trace (trace_static.go:53-62; taken to have at least one). *)
Inductive op :=
| Publish (visit : list (nat * nat) -> list (nat * nat)) (accepts room : nat -> bool)
| Stream (ch : nat)
| StreamStats (ch : nat)
| Receive (ch : nat)
| Look
| Signal (x : nat) | Await (x : nat)
| EditTrace | EditFilter (s : nat)
| Relay (x : nat).
(** Where a goroutine is in a call of Stream: not in one; waiting for its context (broker.go:79); about to copy the statistics of
    subscription s (broker.go:95). *)
Inductive phase := Outside | Waiting (ch : nat) | Leaving (s : nat).
Record goroutine := MkG { g_phase : phase; g_got : option nat; g_ops : list op }.
(** [b_subs]: channels with their subscriptions; [b_queue]: the messages in a channel, with their numbers; [b_sent]: how many
    were sent; how many subscriptions and traces were made. *)
Record broker := MkB {
  b_subs : list (nat * nat); b_queue : nat -> list (nat * nat); b_sent : nat -> nat;
  b_nsub : nat; b_ntrace : nat; b_gs : list goroutine; b_log : history place order }.

Definition lookup (ch : nat) (subs : list (nat * nat)) : option nat :=
  match find (fun x => Nat.eqb (fst x) ch) subs with Some x => Some (snd x) | None => None end.
Definition set_fun {A} (f : nat -> A) (i : nat) (x : A) : nat -> A := fun j => if Nat.eqb j i then x else f j.
Fixpoint set_nth {A} (l : list A) (i : nat) (x : A) : list A :=
  match l, i with [], _ => [] | _ :: l, 0 => x :: l | y :: l, S i => y :: set_nth l i x end.

(** broker.go:36-48, one subscriber after the other: what is done, and the channels after it.  Allow gets a pointer to
    the filter in the object (filter.go:85) and may store a regular expression in it (filter.go:151, 188); one of the
    statistics is written in any case. *)
Fixpoint deliver (n : nat) (accepts room : nat -> bool) (todo : list (nat * nat)) (queue : nat -> list (nat * nat)) (sent : nat -> nat)
  : list action * (nat -> list (nat * nat)) * (nat -> nat) :=
  match todo with
  | [] => ([], queue, sent)
  | (ch, s) :: todo =>
      let look := [Reads (PSub s); Reads (PFilter s); Reads (PTrace n); Writes (PSub s)] in
      if accepts s && room s then
        let m := sent ch in
        let '(script, queue, sent) := deliver n accepts room todo (set_fun queue ch (queue ch ++ [(m, n)])) (set_fun sent ch (S m)) in
        (look ++ [Release (OMessage ch m)] ++ script, queue, sent)
      else
        let '(script, queue, sent) := deliver n accepts room todo queue sent in
        (look ++ script, queue, sent)
  end.

Definition emit (b : broker) (i : nat) (g : goroutine) (script : list action) (subs : list (nat * nat)) (queue : nat -> list (nat * nat))
  (sent : nat -> nat) (nsub ntrace : nat) : broker :=
  MkB subs queue sent nsub ntrace (set_nth (b_gs b) i g) (b_log b ++ map (pair i) script).
(** only the goroutine and the log change *)
Definition emits (b : broker) (i : nat) (g : goroutine) (script : list action) : broker :=
  emit b i g script (b_subs b) (b_queue b) (b_sent b) (b_nsub b) (b_ntrace b).

(** Goroutine i goes on; a step with the mutex held is taken as one, since nothing in it waits. *)
Definition b_step (b : broker) (i : nat) : broker :=
  match nth_error (b_gs b) i with
  | None => b
  | Some (MkG ph got ops) =>
      match ph, ops with
      (* broker.go:79-93: the context is done *)
      | Waiting ch, _ =>
          match lookup ch (b_subs b) with
          | Some s => emit b i (MkG (Leaving s) got ops) [Acquire OMtx; Reads PSubs; Writes PSubs; Release OMtx]
                        (filter (fun x => negb (Nat.eqb (fst x) ch)) (b_subs b)) (b_queue b) (b_sent b) (b_nsub b) (b_ntrace b)
          | None => emits b i (MkG Outside got ops) [Acquire OMtx; Reads PSubs; Writes PSubs; Release OMtx]
          end
      (* broker.go:95 *)
      | Leaving s, _ => emits b i (MkG Outside got ops) [Reads (PSub s)]
      | Outside, [] => b
      (* broker.go:24-49 *)
      | Outside, Publish visit accepts room :: ops =>
          match b_subs b with
          | [] => emits b i (MkG Outside got ops) [Acquire OMtx; Reads PSubs; Release OMtx]
          | subs =>
              let n := b_ntrace b in
              let '(script, queue, sent) := deliver n accepts room (visit subs) (b_queue b) (b_sent b) in
              emit b i (MkG Outside got ops) ([Acquire OMtx; Reads PSubs; Writes (PTrace n)] ++ script ++ [Release OMtx])
                (b_subs b) queue sent (b_nsub b) (S n)
          end
      (* broker.go:60-77; the caller makes the filter *)
      | Outside, Stream ch :: ops =>
          match lookup ch (b_subs b) with
          | Some _ => emits b i (MkG Outside got ops) [Acquire OMtx; Reads PSubs; Release OMtx]
          | None =>
              let s := b_nsub b in
              emit b i (MkG (Waiting ch) got ops) [Writes (PFilter s); Acquire OMtx; Reads PSubs; Writes (PSub s); Writes PSubs; Release OMtx]
                (b_subs b ++ [(ch, s)]) (b_queue b) (b_sent b) (S s) (b_ntrace b)
          end
      (* broker.go:99-109 *)
      | Outside, StreamStats ch :: ops =>
          emits b i (MkG Outside got ops)
            ([Acquire OMtx; Reads PSubs] ++ (match lookup ch (b_subs b) with Some s => [Reads (PSub s)] | None => [] end) ++ [Release OMtx])
      | Outside, Receive ch :: ops =>
          match b_queue b ch with
          | [] => b
          | (m, n) :: rest => emit b i (MkG Outside (Some n) ops) [Acquire (OMessage ch m)]
                                (b_subs b) (set_fun (b_queue b) ch rest) (b_sent b) (b_nsub b) (b_ntrace b)
          end
      | Outside, Look :: ops => emits b i (MkG Outside got ops) (match got with Some n => [Reads (PTrace n)] | None => [] end)
      | Outside, Signal x :: ops => emits b i (MkG Outside got ops) [Release (OOwn x)]
      | Outside, Await x :: ops => emits b i (MkG Outside got ops) [Acquire (OOwn x)]
      | Outside, EditTrace :: ops => emits b i (MkG Outside got ops) (match got with Some n => [Writes (PTrace n)] | None => [] end)
      | Outside, EditFilter s :: ops => emits b i (MkG Outside got ops) [Writes (PFilter s)]
      | Outside, Relay x :: ops =>
          emits b i (MkG Outside got ops)
            (match got with Some n => [Acquire (OOwn x); Reads (PTrace n); Writes (PTrace n); Release (OOwn x)] | None => [] end)
      end
  end.
Fixpoint b_run (sched : list nat) (b : broker) : broker := match sched with [] => b | i :: sched => b_run sched (b_step b i) end.
Definition b_start (programs : list (list op)) : broker :=
  MkB [] (fun _ => []) (fun _ => 0) 0 0 (map (fun p => MkG Outside None p) programs) [].

(** The command line tool: trc stream. *)
From Verif Require Import Go M_Types.
Open Scope list_scope.
Open Scope nat_scope.

Definition upd {A} (f : nat -> A) (i : nat) (x : A) : nat -> A := fun j => if Nat.eqb j i then x else f j.

Section CliStream.
Context {Tr : Type}.
(** A stream, that is one turn of cmd/trc/stream.go:162-180.  [Streaming hand]: Stream of
    the client runs; [hand] is a trace it received and is sending to cfg.traces
    (trcweb/trace_server.go:507-510: a select of the send and of ctx.Done).  [Sleeping]: contextSleep.
    [Stopped]: runStream returned. *)
Inductive phase := Streaming (hand : option Tr) | Sleeping | Stopped.

(** [cs_chan] is the buffer of cfg.traces, [cs_out] what was encoded on standard output, both
    with the number of the address.  [cs_received]: what Stream of the client received for
    each address, over all turns. *)
Record cstate := MkC {
  cs_phase : nat -> phase;
  cs_chan : list (nat * Tr);
  cs_out : list (nat * Tr);
  cs_received : nat -> list Tr;
  cs_writing : bool;    (* writeTraces has not returned *)
  cs_cancelled : bool
}.
(** cmd/trc/stream.go:43, 94-103, 128, with n addresses.  make panics for a negative size,
    NewTicker for an interval that is not positive (in a goroutine for each address: the
    program ends). *)
Definition cs_start (n : nat) (recvBuf statsInterval : Z) : res cstate :=
  (if recvBuf <? 0 then Panic
  else if (statsInterval <=? 0) && negb (n =? 0)%nat then Panic
  else Ok (MkC (fun _ => Streaming None) [] [] (fun _ => []) true false))%Z.

(** One step of one goroutine; [cap] is the size of cfg.traces, n the number of addresses. *)
Inductive cstep (n cap : nat) : cstate -> cstate -> Prop :=
(* the client of address i receives a trace *)
| c_receive i t ph ch out rcv w c :
    i < n -> ph i = Streaming None ->
    cstep n cap (MkC ph ch out rcv w c) (MkC (upd ph i (Streaming (Some t))) ch out (upd rcv i (rcv i ++ [t])) w c)
(* it sends it to cfg.traces, which has room *)
| c_send i t ph ch out rcv w c :
    i < n -> ph i = Streaming (Some t) -> length ch < cap ->
    cstep n cap (MkC ph ch out rcv w c) (MkC (upd ph i (Streaming None)) (ch ++ [(i, t)]) out rcv w c)
(* or directly to writeTraces, which waits: cmd/trc/stream.go:200-202 *)
| c_hand_over i t ph out rcv c :
    i < n -> ph i = Streaming (Some t) ->
    cstep n cap (MkC ph [] out rcv true c) (MkC (upd ph i (Streaming None)) [] (out ++ [(i, t)]) rcv true c)
(* writeTraces takes a trace and encodes it: cmd/trc/stream.go:200-202 *)
| c_write x ph ch out rcv c :
    cstep n cap (MkC ph (x :: ch) out rcv true c) (MkC ph ch (out ++ [x]) rcv true c)
(* the stream fails while it waits for traces, cmd/trc/stream.go:174-178; or it could not
   connect, or the server ended it *)
| c_fail i ph ch out rcv w c :
    i < n -> ph i = Streaming None ->
    cstep n cap (MkC ph ch out rcv w c) (MkC (upd ph i Sleeping) ch out rcv w c)
(* the sleep ends and the loop goes on or ends: cmd/trc/stream.go:162 *)
| c_wake i ph ch out rcv w c :
    i < n -> ph i = Sleeping ->
    cstep n cap (MkC ph ch out rcv w c) (MkC (upd ph i (if c then Stopped else Streaming None)) ch out rcv w c)
(* the context is cancelled: by a signal *)
| c_cancel ph ch out rcv w c :
    cstep n cap (MkC ph ch out rcv w c) (MkC ph ch out rcv w true)
(* the client notices and gives up the trace it is sending, but reads on until it notices
   that its connection was closed: trcweb/trace_server.go:482-485, 488-491, 508 *)
| c_give_up i t ph ch out rcv w :
    i < n -> ph i = Streaming (Some t) ->
    cstep n cap (MkC ph ch out rcv w true) (MkC (upd ph i (Streaming None)) ch out rcv w true)
(* the stream ends: cmd/trc/stream.go:168-172 *)
| c_stop i ph ch out rcv w :
    i < n -> ph i = Streaming None ->
    cstep n cap (MkC ph ch out rcv w true) (MkC (upd ph i Stopped) ch out rcv w true)
(* writeTraces notices: cmd/trc/stream.go:203-205 *)
| c_writer_stop ph ch out rcv :
    cstep n cap (MkC ph ch out rcv true true) (MkC ph ch out rcv false true).

Inductive csteps (n cap : nat) : cstate -> cstate -> Prop :=
| cs_refl s : csteps n cap s s
| cs_next s s' s'' : cstep n cap s s' -> csteps n cap s' s'' -> csteps n cap s s''.
(** runStreams and writeTraces have returned: cmd/trc/stream.go:106-111, 205 *)
Definition finished (n : nat) (s : cstate) : Prop := cs_writing s = false /\ forall i, i < n -> cs_phase s i = Stopped.
End CliStream.
Arguments phase : clear implicits.
Arguments cstate : clear implicits.

(** The attempts of trc stream to stream from one server (cmd/trc/stream.go:162-182, cmd/trc/util.go:9-14). *)
From Verif Require Import Go.
Open Scope list_scope.
Open Scope Z_scope.

(** What happens to the loop. *)
Inductive what :=
| Cancel (* the context of the command is cancelled *)
| Check  (* ctx.Err is looked at *)
| Start  (* a goroutine begins sc.Stream *)
| Fail   (* the loop receives its error *)
| Done   (* the loop sees that its context is done, and waits for the goroutine *)
| Wake.  (* contextSleep returns *)

(** Where the loop is.  [Asleep t]: contextSleep was called at time t. *)
Inductive place := Head | Ready | Waiting | Asleep (since : Z) | Returned.
Record loop := MkLoop { l_cancelled : bool; l_place : place }.

(** cmd/trc/util.go:9-14, called at time [since] for a duration d: it may return at time t.  time.After does not fire
    before d has passed; it fires at once if d is not positive. *)
Definition contextSleep_returns (cancelled : bool) (since d t : Z) : bool := cancelled || (since + d <=? t).

(** cmd/trc/stream.go:162-181; [retryInterval] is cfg.retryInterval *)
Definition turn (retryInterval : Z) (l : loop) (t : Z) (w : what) : option loop :=
  match w, l_place l with
  | Cancel, p => Some (MkLoop true p)
  | Check, Head => Some (MkLoop (l_cancelled l) (if l_cancelled l then Returned else Ready))
  | Start, Ready => Some (MkLoop (l_cancelled l) Waiting)
  | Done, Waiting => if l_cancelled l then Some (MkLoop (l_cancelled l) Returned) else None
  | Fail, Waiting => Some (MkLoop (l_cancelled l) (Asleep t))
  | Wake, Asleep since => if contextSleep_returns (l_cancelled l) since retryInterval t then Some (MkLoop (l_cancelled l) Head) else None
  | _, _ => None
  end.
Fixpoint turns (retryInterval : Z) (l : loop) (h : list (Z * what)) : option loop :=
  match h with
  | [] => Some l
  | (t, w) :: h => match turn retryInterval l t w with Some l => turns retryInterval l h | None => None end
  end.
Definition runStream_loop (retryInterval : Z) (h : list (Z * what)) : option loop := turns retryInterval (MkLoop false Head) h.

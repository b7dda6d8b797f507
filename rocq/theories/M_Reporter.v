(** The reports of trc stream about one server (cmd/trc/stream.go:114-145). *)
From Verif Require Import Go M_Humanize M_Text.
Open Scope string_scope.
Open Scope list_scope.
Open Scope Z_scope.

(** The callback OnRead runs at time [now], for a message of some type; or the reporter takes the time [ts] from its
    ticker.  lastData is an atomic value, so that these happen in some order. *)
Inductive happening := Read (now : Z) (type : string) | Tick (ts : Z).

(** cmd/trc/stream.go:118-123: the lines for the debug log *)
Definition on_read (uri type : string) : list string :=
  if String.eqb type "init" then [uri ++ ": stream re/connected"]%string else [].
(** cmd/trc/stream.go:132-140; [last] is lastData *)
Definition on_tick (uri : string) (statsInterval : Z) (last : option Z) (ts : Z) : list string :=
  match last with
  | None => [uri ++ ": no data"]%string
  | Some last =>
      let delta := ts - last in
      if 2 * statsInterval <? delta
      then [uri ++ ": last data " ++ DurationString (Truncate delta (100 * Millisecond)) ++ " ago"]%string
      else []
  end.
(** the lines for each happening *)
Fixpoint reporter (uri : string) (statsInterval : Z) (last : option Z) (l : list happening) : list (list string) :=
  match l with
  | [] => []
  | Read now type :: l => on_read uri type :: reporter uri statsInterval (Some now) l
  | Tick ts :: l => on_tick uri statsInterval last ts :: reporter uri statsInterval last l
  end.
(** cmd/trc/stream.go:126-148: time.NewTicker panics for an interval that is not positive, and the program ends *)
Definition run_reporter (uri : string) (statsInterval : Z) (l : list happening) : res (list (list string)) :=
  if statsInterval <=? 0 then Panic else Ok (reporter uri statsInterval None l).

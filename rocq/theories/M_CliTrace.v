(** Model of the trace that the commands of cmd/trc make of themselves: rootConfig.newTrace
    (cmd/trc/trc.go:58-63), used by search (cmd/trc/search.go:49) and stream (stream.go:40). *)
From Verif Require Import Go M_Strings M_Types S_Trace M_Trace M_Broker M_Decor.
Open Scope string_scope.
Open Scope list_scope.

(** cmd/trc/util.go:20-25 on cfg.trace: the destination of the trace log.  What a log.Logger
    makes of a text is in P_LogConc. *)
Definition trace_log : string := "trace".

Section CliTrace.
Context {arg world pc RE : Type}.
Variable Sprintf : world -> string -> list arg -> string.
Variable CallersFrames : list pc -> list rframe.
Variable Compile : string -> RE + string.
Variable MatchString : RE -> string -> bool.
Variable str : string -> arg.
Variable caps : string -> Z.

(** cmd/trc/trc.go:58-63 *)
Definition newTrace (b : birth arg pc) (c : ctx arg) (category : string) (d : denv arg world pc) (s : sys arg pc RE)
  : res (ctx arg * trace arg * sys arg pc RE) :=
  '(c, tr, s) <- New Sprintf CallersFrames Compile MatchString str caps b c "trc" category [] (fun _ => d) s ;;
  '(tr, s) <- decorate Sprintf CallersFrames Compile MatchString str caps (DLog trace_log) d tr s ;;
  Ok (Put c tr, s).
End CliTrace.

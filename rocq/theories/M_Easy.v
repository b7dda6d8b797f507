(** Model of eztrc/easy.go and of the settings of a collector (collector.go:26-112): one
    program that uses the global collector and logs to the traces in its contexts.  One
    goroutine; contexts are kept in variables, variable 0 is the background. *)
From Verif Require Import Go M_Strings M_Types M_Frame M_Filter S_Trace M_Trace M_RingBuf M_RingBufs S_Collector M_Humanize M_Text M_Broker M_Decor.
Open Scope string_scope.
Open Scope list_scope.

Section Easy.
Context {arg world pc RE : Type}.
Variable Sprintf : world -> string -> list arg -> string.
Variable CallersFrames : list pc -> list rframe.
Variable Compile : string -> RE + string.
Variable MatchString : RE -> string -> bool.
Variable str : string -> arg.
Variable caps : string -> Z.
Notation trace := (trace arg).
Notation sys := (sys arg pc RE).
Notation denv := (denv arg world pc).
Notation birth := (birth arg pc).
Notation ctx := (ctx arg).
Notation collector := (collector arg).
Notation t_log := (t_log Sprintf CallersFrames Compile MatchString caps).
Notation t_Finish := (t_Finish Sprintf CallersFrames Compile MatchString str caps).
Notation NewTrace := (NewTrace Sprintf CallersFrames Compile MatchString str caps).
Notation Region_begin := (Region_begin Sprintf CallersFrames Compile MatchString caps).
Notation Region_end := (Region_end Sprintf CallersFrames Compile MatchString str caps).

(** collector.go:38-54.  The broker is the one of the process (see M_Decor); NewTrace is
    either not given or trc.New. *)
Record config := MkConfig { cfg_source : string; cfg_newtrace : bool; cfg_decorators : list decorator }.
(** collector.go:12-18: the collector, and whether its newTrace field is not nil *)
Record ezcoll := MkEzColl { z_coll : collector; z_newtrace : bool }.
(** collector.go:56-76 *)
Definition NewCollector (cfg : config) : ezcoll :=
  let source := if String.eqb (cfg_source cfg) "" then "default" else cfg_source cfg in
  MkEzColl (MkColl source (cfg_decorators cfg) new_collector_storage) true.
(** collector.go:30-35 *)
Definition NewDefaultCollector : ezcoll := NewCollector (MkConfig "default" true []).
(** collector.go:81-100 *)
Definition SetSourceName (name : string) (c : ezcoll) : ezcoll :=
  MkEzColl (MkColl name (c_decorators (z_coll c)) (c_categories (z_coll c))) (z_newtrace c).
Definition SetNewTrace (given : bool) (c : ezcoll) : ezcoll := MkEzColl (z_coll c) given.
Definition SetDecorators (decs : list decorator) (c : ezcoll) : ezcoll :=
  MkEzColl (MkColl (c_source (z_coll c)) decs (c_categories (z_coll c))) (z_newtrace c).

(** What the program does.  [k] is the variable with the context, [r] the number of the region. *)
Inductive eop :=
| ESource (name : string)                                          (* Collector().SetSourceName *)
| ENewTraceFunc (given : bool)                                     (* Collector().SetNewTrace *)
| EDecorators (decs : list decorator)                              (* Collector().SetDecorators *)
| ESize (cap : Z) (order : list string -> list string)             (* Collector().SetCategorySize *)
| ENew (k : nat) (category : string) (b : birth) (ds es : nat -> denv)
| EPrefix (k : nat) (format : string) (args : list arg) (b : birth)
| ERegion (k : nat) (name : string) (b1 b2 : birth) (es : nat -> denv)
| EEnd (r : nat) (took : Z) (es : nat -> denv)                     (* the function returned by Region *)
| EEvent (k : nat) (kind_ : kind) (format : string) (args : list arg) (b : birth) (es : nat -> denv)
| EFinish (k : nat) (b : birth) (es : nat -> denv)                 (* eztrc.Get(ctx).Finish() *)
| EOther (k : nat).                                                (* context.WithCancel and the like *)

(** The process and the variables; the traces handed to maybeFree so far. *)
Record ez := MkEz {
  z_sys : sys;
  z_ezcoll : ezcoll;
  z_ctx : list ctx;
  z_regions : list (trace * string);
  z_freed : list trace
}.
Definition the_ctx (z : ez) (k : nat) : ctx := nth k (z_ctx z) Background.
Definition with_sys (z : ez) (s : sys) : ez := MkEz s (z_ezcoll z) (z_ctx z) (z_regions z) (z_freed z).
Definition with_coll (z : ez) (c : ezcoll) : ez := MkEz (z_sys z) c (z_ctx z) (z_regions z) (z_freed z).
Definition push_ctx (z : ez) (c : ctx) : ez := MkEz (z_sys z) (z_ezcoll z) (z_ctx z ++ [c]) (z_regions z) (z_freed z).

Definition z_step (z : ez) (o : eop) : res ez :=
  match o with
  | ESource name => Ok (with_coll z (SetSourceName name (z_ezcoll z)))
  | ENewTraceFunc given => Ok (with_coll z (SetNewTrace given (z_ezcoll z)))
  | EDecorators decs => Ok (with_coll z (SetDecorators decs (z_ezcoll z)))
  | ESize cap order =>                                                                   (* collector.go:107-112 *)
      let c := z_coll (z_ezcoll z) in
      '(cats, dropped) <- SetCategorySize nil_trace (c_categories c) cap order ;;
      Ok (MkEz (fold_left (fun s t => fst (maybeFree t s)) dropped (z_sys z))
               (MkEzColl (MkColl (c_source c) (c_decorators c) cats) (z_newtrace (z_ezcoll z)))
               (z_ctx z) (z_regions z) (z_freed z ++ dropped))
  | ENew k category b ds es =>                                                           (* easy.go:53-55 *)
      let c := the_ctx z k in
      match MaybeGet c, z_newtrace (z_ezcoll z) with
      | None, false => Panic                                                             (* a nil function is called *)
      | _, _ =>
          '(c, t, s, coll, dropped) <- NewTrace (z_coll (z_ezcoll z)) b c category ds es (z_sys z) ;;
          Ok (MkEz s (MkEzColl coll (z_newtrace (z_ezcoll z))) (z_ctx z ++ [c]) (z_regions z) (z_freed z ++ dropped))
      end
  | EPrefix k format args b =>                                                           (* easy.go:63-65 *)
      let '(c, _, s) := Prefix b (the_ctx z k) format args (z_sys z) in
      Ok (push_ctx (with_sys z s) c)
  | ERegion k name b1 b2 es =>                                                           (* easy.go:58-60 *)
      '(c, input, _, s) <- Region_begin b1 b2 (the_ctx z k) name es (z_sys z) ;;
      Ok (MkEz s (z_ezcoll z) (z_ctx z ++ [c]) (z_regions z ++ [(input, name)]) (z_freed z))
  | EEnd r took es =>
      match nth_error (z_regions z) r with
      | None => Ok z
      | Some (input, name) => s <- Region_end input name took es (z_sys z) ;; Ok (with_sys z s)
      end
  | EEvent k kind_ format args b es =>                                                   (* easy.go:79-99 *)
      let '(s, t) := Get b (the_ctx z k) (z_sys z) in
      s <- t_log t kind_ format args es s ;;
      Ok (with_sys z s)
  | EFinish k b es =>                                                                    (* easy.go:68-70 *)
      let '(s, t) := Get b (the_ctx z k) (z_sys z) in
      s <- t_Finish t es s ;;
      Ok (with_sys z s)
  | EOther k => Ok (push_ctx z (WithOther (the_ctx z k)))
  end.
Fixpoint z_run (z : ez) (ops : list eop) : res ez :=
  match ops with
  | [] => Ok z
  | o :: ops => z <- z_step z o ;; z_run z ops
  end.
(** easy.go:29: the global collector of a process that has just started *)
Definition z_init : ez := MkEz (MkSys [] [] []) NewDefaultCollector [Background] [] [].
End Easy.
Arguments eop : clear implicits.
Arguments ez : clear implicits.
Arguments ezcoll : clear implicits.

(** Model of decorators.go, helpers.go, New (trace_core.go:92-98) and Collector.NewTrace
    (collector.go:117-134): traces as their users see them, wrapped in decorators and
    carried by contexts.  One goroutine at a time; M_Snapshot has the interleavings. *)
From Verif Require Import Go M_Strings M_Types M_Frame M_Filter S_Trace M_Trace M_RingBuf M_RingBufs M_Humanize M_Text M_Broker.
Open Scope string_scope.
Open Scope list_scope.
Open Scope Z_scope.

(** strings.TrimSuffix *)
Definition TrimSuffix (s suffix : string) : string :=
  if HasSuffix s suffix then String.substring 0 (String.length s - String.length suffix) s else s.
(** internal/trcutil/humanize.go:37-46 *)
Definition HumanizeDuration (d : Z) : string :=
  let dd := TruncateDuration d in
  let ds := DurationString dd in
  if (Hour <=? dd) && HasSuffix ds "0s" then TrimSuffix ds "0s" else ds.
(** strings.TrimSpace: the encodings of the white space of Unicode... *)
Definition bytes (l : list nat) : string := string_of_list_ascii (map ascii_of_nat l).
Definition white_space : list string :=
  (map (fun b => bytes [b]) [9; 10; 11; 12; 13; 32] ++ [bytes [194; 133]; bytes [194; 160]; bytes [225; 154; 128]] ++
   map (fun b => bytes [226; 128; b]) [128; 129; 130; 131; 132; 133; 134; 135; 136; 137; 138; 168; 169; 175] ++
   [bytes [226; 129; 159]; bytes [227; 128; 128]])%nat.
(** ... stripped at the beginning as long as there is one, ... *)
Fixpoint strip (spaces : list string) (fuel : nat) (s : string) : string :=
  match fuel with
  | O => s
  | S fuel =>
      match find (HasPrefix s) spaces with
      | Some p => strip spaces fuel (str_skip (String.length p) s)
      | None => s
      end
  end.
Definition rev_string (s : string) : string := string_of_list_ascii (rev (list_ascii_of_string s)).
(** ... and at the end. *)
Definition TrimSpace (s : string) : string :=
  let s := strip white_space (String.length s) s in
  rev_string (strip (map rev_string white_space) (String.length s) (rev_string s)).
Definition newline : string := String (ascii_of_nat 10) EmptyString.

Section Decor.
Context {arg world pc RE : Type}.
Variable Sprintf : world -> string -> list arg -> string.
Variable CallersFrames : list pc -> list rframe.
Variable Compile : string -> RE + string.
Variable MatchString : RE -> string -> bool.
(** a string as an argument of a format *)
Variable str : string -> arg.
Notation env := (env arg world pc).
Notation coreTrace := (coreTrace arg pc).

(** A Trace: a core trace (its number) in decorators.
    decorators.go:50-54 (logTrace), 123-126 (publishTrace), helpers.go:111-116 (prefixTrace).
    All publishTraces of a process publish to one broker here. *)
Inductive trace :=
| TCore (i : nat)
| TPublish (inner : trace)
| TLog (inner : trace) (id : string) (dst : string)
| TPrefix (inner : trace) (format : string) (args : list arg).

(** The process: all core traces made so far (an object that is reused counts as a new
    one, see C16), what has happened at the broker, what has been written where. *)
Record sys := MkSys { s_cores : list coreTrace; s_broker : list (bop RE); s_out : list (string * string) }.
Variable caps : string -> Z.
Notation b_run := (b_run Compile MatchString caps).

Definition core_at (s : sys) (i : nat) : coreTrace := nth i (s_cores s) zeroCoreTrace.
Definition set_core (s : sys) (i : nat) (c : coreTrace) : sys := MkSys (update i c (s_cores s)) (s_broker s) (s_out s).

(** What one call takes from its environment, for each of the layers it goes through: the
    environment of that layer's own work, the environment a moment later, and the order in
    which the broker visits its subscribers. *)
Record denv := MkD { d_env : env; d_later : env; d_order : list string -> list string }.
Definition inner_envs (es : nat -> denv) : nat -> denv := fun n => es (S n).

(** The promoted methods ID, Source, Category, Started, Finished, Errored: decorators embed
    the Trace they decorate. *)
Fixpoint t_core (t : trace) : nat :=
  match t with TCore i => i | TPublish t => t_core t | TLog t _ _ => t_core t | TPrefix t _ _ => t_core t end.
Definition t_observe {A} (f : coreTrace -> A) (t : trace) (s : sys) : A := f (core_at s (t_core t)).
Definition t_Duration (now : Z) (t : trace) (s : sys) : Z := t_observe (Duration now) t s.
(** Events; reading caches texts and stacks in the core trace *)
Definition t_Events (e : env) (t : trace) (s : sys) : sys * list Event :=
  let '(c, evs) := Events Sprintf CallersFrames e (core_at s (t_core t)) in (set_core s (t_core t) c, evs).

(** trace_static.go:40-77.  Only the core trace itself has EventsDetail; decorators hide it. *)
Definition NewStreamTrace (d : denv) (t : trace) (s : sys) : sys * res StaticTrace :=
  match t with
  | TCore i =>
      let isActive := negb (Finished (core_at s i)) in
      let '(c, events) := EventsDetail Sprintf CallersFrames (d_env d) (if isActive then 1 else -1) false (core_at s i) in
      let s := set_core s i c in
      let c := core_at s i in
      let duration := Duration (e_now (d_later d)) c in
      (s, Ok (MkStatic (Source c) (ID c) (Category c) (Started c) duration (DurationString duration) (Finished c) (Errored c) events))
  | _ =>
      let '(s, events) := t_Events (d_env d) t s in
      let c := core_at s (t_core t) in
      (s, st <- NewStreamTrace_plain (MkStatic (Source c) (ID c) (Category c) (Started c) (Duration (e_now (d_later d)) c) ""
                                               (Finished c) (Errored c) events) ;;
          Ok (fst st))
  end.

(** broker.go:24-49: the trace is only looked at if there are subscribers *)
Definition publish (d : denv) (t : trace) (s : sys) : res sys :=
  if zlen (b_subs (b_run (s_broker s))) <=? 0 then Ok s
  else
    let '(s, st) := NewStreamTrace d t s in
    st <- st ;;
    Ok (MkSys (s_cores s) (s_broker s ++ [BPublish (d_order d) (Ok st)]) (s_out s)).

(** decorators.go:93-96 *)
Definition logEvent (id dst format : string) (args : list arg) (d : denv) (s : sys) : sys :=
  let format := (id ++ " " ++ TrimSuffix format newline ++ newline)%string in
  MkSys (s_cores s) (s_broker s) (s_out s ++ [(dst, Sprintf (e_world (d_env d)) format args)]).

(** The four event methods: trace_core.go:164-230; decorators.go:58-76, 130-148;
    helpers.go:118-132. *)
Fixpoint t_log (t : trace) (k : kind) (format : string) (args : list arg) (es : nat -> denv) (s : sys) : res sys :=
  match t with
  | TCore i => Ok (set_core s i (log_call Sprintf k (d_env (es O)) format args (core_at s i)))
  | TPublish t => s <- t_log t k format args (inner_envs es) s ;; publish (es O) t s
  | TLog t id dst =>
      let s := logEvent id dst (if is_error_kind k then "ERROR: " ++ format else format)%string args (es O) s in
      t_log t k format args (inner_envs es) s
  | TPrefix t pf pa => t_log t k (pf ++ format)%string (pa ++ args) (inner_envs es) s
  end.

(** Finish: trace_core.go:232-242; decorators.go:78-91, 150-153; promoted by prefixTrace *)
Fixpoint t_Finish (t : trace) (es : nat -> denv) (s : sys) : res sys :=
  match t with
  | TCore i => Ok (set_core s i (Finish (e_now (d_env (es O))) (core_at s i)))
  | TPublish t => s <- t_Finish t (inner_envs es) s ;; publish (es O) t s
  | TLog t id dst =>
      s <- t_Finish t (inner_envs es) s ;;
      let duration := HumanizeDuration (t_Duration (e_now (d_env (es O))) t s) in
      let outcome := if t_observe Errored t s then "errored" else "success" in
      Ok (logEvent id dst "done, %s, %s" [str outcome; str duration] (es O) s)
  | TPrefix t _ _ => t_Finish t (inner_envs es) s
  end.

(** Free: trace_core.go:302-318; decorators.go:98-102, 155-159.  Some true: the core trace
    was recycled; Some false: Free reached it but it was not finished; None: Free does not
    reach it.  [has_Free] is the type assertion. *)
Definition has_Free (t : trace) : bool := match t with TPrefix _ _ _ => false | _ => true end.
Fixpoint t_Free (t : trace) (s : sys) : sys * option bool :=
  match t with
  | TCore i => let '(c, freed) := Free (core_at s i) in (set_core s i c, Some freed)
  | TPublish t => if has_Free t then t_Free t s else (s, None)
  | TLog t _ _ => if has_Free t then t_Free t s else (s, None)
  | TPrefix t _ _ => (s, None)
  end.
(** collector.go:212-216 *)
Definition maybeFree (t : trace) (s : sys) : sys * option bool := if has_Free t then t_Free t s else (s, None).

(** helpers.go:40-47: only the core trace has the method *)
Definition t_SetMaxEvents (t : trace) (n : Z) (s : sys) : sys * bool :=
  match t with
  | TCore i => (set_core s i (SetMaxEvents n (core_at s i)), true)
  | _ => (s, false)
  end.

(** ** Decorators *)
Inductive decorator := DPublish | DLog (dst : string).
(** decorators.go:26-36, 108-117 *)
Definition decorate (dec : decorator) (d : denv) (t : trace) (s : sys) : res (trace * sys) :=
  match dec with
  | DPublish => s <- publish d t s ;; Ok (TPublish t, s)
  | DLog dst =>
      let id := t_observe ID t s in
      let s := logEvent id dst "started, source '%s', category '%s'" [str (t_observe Source t s); str (t_observe Category t s)] d s in
      Ok (TLog t id dst, s)
  end.
Fixpoint decorate_all (decs : list decorator) (ds : nat -> denv) (t : trace) (s : sys) : res (trace * sys) :=
  match decs with
  | [] => Ok (t, s)
  | dec :: decs => '(t, s) <- decorate dec (ds O) t s ;; decorate_all decs (inner_envs ds) t s
  end.

(** ** Contexts *)
(** context.Context: WithValue for the trace key, or anything else derived from a parent *)
Inductive ctx := Background | WithTrace (parent : ctx) (t : trace) | WithOther (parent : ctx).
(** helpers.go:15-17 *)
Definition Put (c : ctx) (t : trace) : ctx * trace := (WithTrace c t, t).
(** helpers.go:31-34: ctx.Value looks through the parents *)
Fixpoint MaybeGet (c : ctx) : option trace :=
  match c with
  | Background => None
  | WithTrace _ t => Some t
  | WithOther c => MaybeGet c
  end.

(** What creating a core trace takes from the process: package settings, the clock, the new
    ID, and the object from the pool. *)
Record birth := MkBirth { b_globals : globals; b_now : Z; b_id : string; b_pooled : coreTrace }.
(** trace_core.go:112-128 *)
Definition new_core (b : birth) (source category : string) (s : sys) : sys * trace :=
  (MkSys (s_cores s ++ [newCoreTrace (b_globals b) (b_now b) (b_id b) (b_pooled b) source category]) (s_broker s) (s_out s),
   TCore (length (s_cores s))).
(** helpers.go:21-27 *)
Definition Get (b : birth) (c : ctx) (s : sys) : sys * trace :=
  match MaybeGet c with
  | Some t => (s, t)
  | None => new_core b "" "(orphan)" s
  end.

(** trace_core.go:92-98 *)
Definition New (b : birth) (c : ctx) (source category : string) (decs : list decorator) (ds : nat -> denv) (s : sys)
  : res (ctx * trace * sys) :=
  let '(s, t) := new_core b source category s in
  '(t, s) <- decorate_all decs ds t s ;;
  Ok (Put c t, s).

(** collector.go:12-18 *)
Record collector := MkColl { c_source : string; c_decorators : list decorator; c_categories : rbs trace }.
(** the zero value of Trace is nil; a slot that was never used is not read *)
Definition nil_trace : trace := TCore 0.
(** collector.go:117-134 with the default NewTrace.  [ds 0] is for the publish decorator,
    [inner_envs ds] for the collector's own decorators, [es] for the event added to a trace
    that is already there.  The last result is the trace passed to maybeFree. *)
Definition NewTrace (coll : collector) (b : birth) (c : ctx) (category : string) (ds es : nat -> denv) (s : sys)
  : res (ctx * trace * sys * collector * list trace) :=
  match MaybeGet c with
  | Some t =>
      s <- t_log t KLazyTracef "(+ %s)" [str category] es s ;;
      Ok (c, t, s, coll, [])
  | None =>
      '(c, t, s) <- New b c (c_source coll) category [DPublish] ds s ;;
      '(t, s) <- decorate_all (c_decorators coll) (inner_envs ds) t s ;;
      '(cats, dropped) <- StoreTrace nil_trace (c_categories coll) category t ;;
      let s := fold_left (fun s t => fst (maybeFree t s)) dropped s in
      Ok (Put c t, s, MkColl (c_source coll) (c_decorators coll) cats, dropped)
  end.

(** ** Prefixes and regions *)
(** helpers.go:94-109 *)
Definition Prefix (b : birth) (c : ctx) (format : string) (args : list arg) (s : sys) : ctx * trace * sys :=
  let '(s, original) := Get b c s in
  let format := TrimSpace format in
  if String.eqb format "" then (c, original, s)
  else (Put c (TPrefix original (format ++ " ")%string args), s).

(** The text of the bullet and the arrows, in UTF-8. *)
Definition bullet : string := bytes [194; 183]%nat.
Definition arrow_in : string := bytes [226; 134; 146]%nat.
Definition arrow_out : string := bytes [226; 134; 144]%nat.
(** helpers.go:74-80, 87 up to the return; the standard library's region is left out.  [b1], [b2]
    are used if the context has no trace: Get and Prefix then each make an orphan. *)
Definition Region_begin (b1 b2 : birth) (c : ctx) (name : string) (es : nat -> denv) (s : sys) : res (ctx * trace * trace * sys) :=
  let '(s, inputTrace) := Get b1 c s in
  let '(c, outputTrace, s) := Prefix b2 c bullet [] s in
  s <- t_log inputTrace KLazyTracef (arrow_in ++ " " ++ name)%string [] es s ;;
  Ok (c, inputTrace, outputTrace, s).
(** helpers.go:81-85: the function it returns; [took] is the time since the beginning *)
Definition Region_end (inputTrace : trace) (name : string) (took : Z) (es : nat -> denv) (s : sys) : res sys :=
  t_log inputTrace KLazyTracef (arrow_out ++ " " ++ name ++ " [%s]")%string [str (HumanizeDuration took)] es s.

(** A program that logs to the trace in its context and has regions:
    ctx, tr, finish := trc.Region(ctx, name); defer finish(); body *)
Inductive prog :=
| PDone
| PEvent (k : kind) (format : string) (args : list arg) (es : nat -> denv) (rest : prog)
| PRegion (name : string) (b1 b2 : birth) (es1 : nat -> denv) (body : prog) (took : Z) (es2 : nat -> denv) (rest : prog).
Fixpoint exec (p : prog) (b : birth) (c : ctx) (s : sys) : res sys :=
  match p with
  | PDone => Ok s
  | PEvent k format args es rest =>
      let '(s, t) := Get b c s in
      s <- t_log t k format args es s ;;
      exec rest b c s
  | PRegion name b1 b2 es1 body took es2 rest =>
      '(c', inputTrace, _, s) <- Region_begin b1 b2 c name es1 s ;;
      s <- exec body b c' s ;;
      s <- Region_end inputTrace name took es2 s ;;
      exec rest b c s
  end.
End Decor.
Arguments trace : clear implicits.
Arguments ctx : clear implicits.
Arguments sys : clear implicits.
Arguments denv : clear implicits.
Arguments birth : clear implicits.
Arguments collector : clear implicits.
Arguments prog : clear implicits.

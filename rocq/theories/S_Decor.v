(** Vocabulary for decorated traces: what is done to them, and what the bare trace would see. *)
From Verif Require Import Go M_Types S_Trace M_Trace M_Fmt M_Broker M_Decor.
Open Scope string_scope.
Open Scope list_scope.

Section Spec.
Context {arg world pc RE : Type}.
Notation trace := (trace arg).
Notation denv := (denv arg world pc).
Notation env := (env arg world pc).

(** What is done to a trace and, in between, to the broker. *)
Inductive ucall :=
| ULog (k : kind) (format : string) (args : list arg) (es : nat -> denv)
| UFinish (es : nat -> denv)
| URead (e : env)                (* Events *)
| UBroker (o : bop RE).          (* something else happens at the broker *)

(** How many decorators there are. *)
Fixpoint depth (t : trace) : nat :=
  match t with TCore _ => 0 | TPublish t => S (depth t) | TLog t _ _ => S (depth t) | TPrefix t _ _ => S (depth t) end.

(** The calls as they would be on the bare trace. *)
Definition bare1 (t : trace) (u : ucall) : history arg env :=
  match u with
  | ULog k f a es => [(d_env (es (depth t)), CallLog k f a)]
  | UFinish es => [(d_env (es (depth t)), CallFinish)]
  | URead e => [(e, CallEvents (-1) true)]
  | UBroker _ => []
  end.
Definition bare (t : trace) (calls : list ucall) : history arg env := flat_map (bare1 t) calls.

(** The prefixes of a decorated trace, the first one applied first. *)
Fixpoint prefix_format (t : trace) : string :=
  match t with
  | TCore _ => ""
  | TPublish t => prefix_format t
  | TLog t _ _ => prefix_format t
  | TPrefix t pf _ => (prefix_format t ++ pf)%string
  end.
Fixpoint prefix_args (t : trace) : list arg :=
  match t with
  | TCore _ => []
  | TPublish t => prefix_args t
  | TLog t _ _ => prefix_args t
  | TPrefix t _ pa => prefix_args t ++ pa
  end.

(** No prefix, no log decorator writing to [dst]; publish decorators only directly on the
    core trace, as a collector puts them. *)
Fixpoint unprefixed (t : trace) : bool :=
  match t with TCore _ => true | TPublish t => unprefixed t | TLog t _ _ => unprefixed t | TPrefix _ _ _ => false end.
Fixpoint not_logged_to (dst : string) (t : trace) : bool :=
  match t with
  | TCore _ => true
  | TPublish t => not_logged_to dst t
  | TLog t _ d => negb (String.eqb d dst) && not_logged_to dst t
  | TPrefix t _ _ => not_logged_to dst t
  end.
Definition is_core (t : trace) : bool := match t with TCore _ => true | _ => false end.
Fixpoint as_collected (t : trace) : bool :=
  match t with
  | TCore _ => true
  | TPublish t => is_core t
  | TLog t _ _ => as_collected t
  | TPrefix t _ _ => as_collected t
  end.
(** ... and there is exactly one. *)
Fixpoint published_once (t : trace) : bool :=
  match t with
  | TCore _ => false
  | TPublish t => is_core t
  | TLog t _ _ => published_once t
  | TPrefix t _ _ => published_once t
  end.

(** One decorator around a trace. *)
Definition wrap (s : sys arg pc RE) (t : trace) (dec : decorator) : trace :=
  match dec with DPublish => TPublish t | DLog dst => TLog t (ID (core_at s (t_core t))) dst end.
End Spec.
Arguments ucall : clear implicits.

Section Run.
Context {arg world pc RE : Type}.
Variable Sprintf : world -> string -> list arg -> string.
Variable CallersFrames : list pc -> list rframe.
Variable Compile : string -> RE + string.
Variable MatchString : RE -> string -> bool.
Variable str : string -> arg.
Variable caps : string -> Z.

Definition t_do (t : trace arg) (u : ucall arg world pc RE) (s : sys arg pc RE) : res (sys arg pc RE) :=
  match u with
  | ULog k f a es => t_log Sprintf CallersFrames Compile MatchString caps t k f a es s
  | UFinish es => t_Finish Sprintf CallersFrames Compile MatchString str caps t es s
  | URead e => Ok (fst (t_Events Sprintf CallersFrames e t s))
  | UBroker o => Ok (MkSys (s_cores s) (s_broker s ++ [o]) (s_out s))
  end.
Fixpoint t_run (t : trace arg) (us : list (ucall arg world pc RE)) (s : sys arg pc RE) : res (sys arg pc RE) :=
  match us with
  | [] => Ok s
  | u :: us => s <- t_do t u s ;; t_run t us s
  end.
End Run.

(** Contexts: a program that derives contexts from contexts, each new one kept in the next
    variable; variable 0 is the background. *)
Inductive derivation {arg : Type} := DPut (from : nat) (t : trace arg) | DOther (from : nat).
Arguments derivation : clear implicits.
Definition derive1 {arg} (vars : list (ctx arg)) (d : derivation arg) : list (ctx arg) :=
  vars ++ [match d with
           | DPut from t => fst (Put (nth from vars Background) t)
           | DOther from => WithOther (nth from vars Background)
           end].
Definition contexts {arg} (ds : list (derivation arg)) : list (ctx arg) := fold_left derive1 ds [Background].
(** Variable i+1 is assigned by the i-th derivation; from a variable that exists. *)
Definition well_formed {arg} (ds : list (derivation arg)) : Prop :=
  forall i d, nth_error ds i = Some d -> (match d with DPut from _ => from | DOther from => from end <= i)%nat.
(** The trace most recently Put on the way to a variable. *)
Inductive innermost {arg} (ds : list (derivation arg)) : nat -> trace arg -> Prop :=
| innermost_put i from t : nth_error ds i = Some (DPut from t) -> innermost ds (S i) t
| innermost_other i from t : nth_error ds i = Some (DOther from) -> innermost ds from t -> innermost ds (S i) t.

(** Prefixes. *)
Definition not_blank {arg} (p : string * list arg) : bool := negb (String.eqb (TrimSpace (fst p)) "").
Definition prefix_text {arg} (p : string * list arg) : string := (TrimSpace (fst p) ++ " ")%string.

(** Region trees as the lines they should give. *)
Section Lines.
Context {arg world pc : Type}.
Variable Sprintf : world -> string -> list arg -> string.
Fixpoint indent (n : nat) : string := match n with O => "" | S n => (bullet ++ " " ++ indent n)%string end.
Fixpoint region_lines (w : world) (level : nat) (p : prog arg world pc) : list (string * bool) :=
  match p with
  | PDone => []
  | PEvent k f a _ rest => ((indent level ++ Sprintf w f a)%string, is_error_kind k) :: region_lines w level rest
  | PRegion name _ _ _ body took _ rest =>
      [((indent level ++ arrow_in ++ " " ++ name)%string, false)] ++
      region_lines w (S level) body ++
      [((indent level ++ arrow_out ++ " " ++ name ++ " [" ++ HumanizeDuration took ++ "]")%string, false)] ++
      region_lines w level rest
  end.
(** All region names are free of formatting directives. *)
Fixpoint literal_names (p : prog arg world pc) : Prop :=
  match p with
  | PDone => True
  | PEvent _ _ _ _ rest => literal_names rest
  | PRegion name _ _ _ body _ _ rest => literal name /\ literal_names body /\ literal_names rest
  end.
End Lines.

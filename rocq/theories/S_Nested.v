(** Operations inside operations, as a user of the easy interface writes them:

      ctx, tr := eztrc.New(ctx, category)
      defer tr.Finish()
      ... lines, regions, prefixes, and calls of functions that begin in the same way ...

    Specification only: what such a program says, and what is kept of it. *)
From Verif Require Import Go M_Types S_Trace M_Trace S_TraceView M_Humanize M_Text M_Strings M_Decor M_Easy.
Open Scope string_scope.
Open Scope list_scope.

Section Spec.
Context {arg world pc : Type}.
Variable str : string -> arg.
Notation eop := (eop arg world pc).

(** The rest of the body of an operation: nothing; a line, then the rest; an operation inside
    it, with its category and its body, then the rest; a region with its name and what it took;
    a part in a context with a prefix. *)
Inductive body :=
| Done
| Say (k : kind) (format : string) (args : list arg) (rest : body)
| Within (category : string) (inner rest : body)
| Regioned (name : string) (took : Z) (inner rest : body)
| Prefixed (format : string) (args : list arg) (inner rest : body).

(** The calls such a body makes.  [k] is the variable with the context, [n] the next free
    variable, [r] the next region; births, clocks and arguments are whatever they are. *)
Inductive performs : nat -> nat -> nat -> body -> list eop -> nat -> nat -> Prop :=
| performs_done k n r : performs k n r Done [] n r
| performs_say k n r kd format args rest b es l n' r' :
    performs k n r rest l n' r' ->
    performs k n r (Say kd format args rest) (EEvent k kd format args b es :: l) n' r'
| performs_within k n r category inner rest b ds es l1 n1 r1 b' es' l2 n2 r2 :
    performs n (S n) r inner l1 n1 r1 ->
    performs k n1 r1 rest l2 n2 r2 ->
    performs k n r (Within category inner rest) (ENew k category b ds es :: l1 ++ EFinish n b' es' :: l2) n2 r2
| performs_region k n r name took inner rest b1 b2 es l1 n1 r1 es' l2 n2 r2 :
    performs n (S n) (S r) inner l1 n1 r1 ->
    performs k n1 r1 rest l2 n2 r2 ->
    performs k n r (Regioned name took inner rest) (ERegion k name b1 b2 es :: l1 ++ EEnd r took es' :: l2) n2 r2
| performs_prefix k n r format args inner rest b l1 n1 r1 l2 n2 r2 :
    performs n (S n) r inner l1 n1 r1 ->
    performs k n1 r1 rest l2 n2 r2 ->
    performs k n r (Prefixed format args inner rest) (EPrefix k format args b :: l1 ++ l2) n2 r2.

(** The limit on the number of events (SetTraceMaxEvents) when the first call of an operation is made. *)
Definition limit (l : list eop) : nat :=
  match l with ENew _ _ b _ _ :: _ => Z.to_nat (g_maxEvents (b_globals b)) | _ => O end.

(** A line: format, arguments, whether it is an error. *)
Definition line : Type := string * list arg * bool.
(** Everything that happens, in order: [Some] line, or [None] for the end of an operation.
    [f] and [a] are the prefix of the context. *)
Fixpoint happens (f : string) (a : list arg) (x : body) : list (option line) :=
  match x with
  | Done => []
  | Say k format args rest => Some ((f ++ format)%string, a ++ args, is_error_kind k) :: happens f a rest
  | Within category inner rest =>
      Some ((f ++ "(+ %s)")%string, a ++ [str category], false) :: happens f a inner ++ None :: happens f a rest
  | Regioned name took inner rest =>
      Some ((f ++ arrow_in ++ " " ++ name)%string, a, false) ::
      happens (f ++ bullet ++ " ") a inner ++
      Some ((f ++ arrow_out ++ " " ++ name ++ " [%s]")%string, a ++ [str (HumanizeDuration took)], false) :: happens f a rest
  | Prefixed format args inner rest =>
      (if String.eqb (TrimSpace format) "" then happens f a inner
       else happens (f ++ TrimSpace format ++ " ") (a ++ args) inner) ++ happens f a rest
  end.
(** every line *)
Fixpoint lines_of (l : list (option line)) : list line :=
  match l with [] => [] | Some x :: l => x :: lines_of l | None :: l => lines_of l end.
(** the lines up to the first end *)
Fixpoint first_lines (l : list (option line)) : list line :=
  match l with Some x :: l => x :: first_lines l | _ => [] end.
Definition said (x : body) : list line := lines_of (happens "" [] x).
Definition kept (x : body) : list line := first_lines (happens "" [] x).

(** No operation inside. *)
Fixpoint flat (x : body) : Prop :=
  match x with
  | Done => True
  | Say _ _ _ rest => flat rest
  | Within _ _ _ => False
  | Regioned _ _ inner rest | Prefixed _ _ inner rest => flat inner /\ flat rest
  end.
(** No line at all. *)
Fixpoint silent (x : body) : Prop :=
  match x with
  | Done => True
  | Prefixed _ _ inner rest => silent inner /\ silent rest
  | _ => False
  end.
(** No line comes after the end of an operation inside. *)
Fixpoint silent_after (x : body) : Prop :=
  match x with
  | Done => True
  | Say _ _ _ rest => silent_after rest
  | Within _ inner rest => silent_after inner /\ silent rest
  | Regioned _ _ inner rest => flat inner /\ silent_after rest
  | Prefixed _ _ inner rest => silent_after inner /\ silent rest \/ flat inner /\ silent_after rest
  end.

(** a log call without its time *)
Definition timeless {A} (x : Z * string * list A * bool) : string * list A * bool :=
  let '(_, f, a, e) := x in (f, a, e).
(** What one sees of a trace: whether it is finished and errored, the lines it stores, with
    formats, arguments and error flags, and how many more it has counted. *)
Record outcome := MkOutcome { o_finished : bool; o_errored : bool; o_lines : list line; o_more : Z }.
Definition outcome_of (tr : coreTrace arg pc) : outcome :=
  MkOutcome (Finished tr) (Errored tr) (map timeless (map ev_info (ct_events tr))) (ct_truncated tr).
End Spec.
Arguments line : clear implicits.
Arguments body : clear implicits.
Arguments outcome : clear implicits.

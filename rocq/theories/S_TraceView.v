(** How an event call is shown when the trace is read. *)
From Verif Require Import Go M_Strings M_Types S_Trace M_Trace.
Open Scope string_scope.

(** The frames that belong to trc itself. *)
Definition own_frame (function : string) : Prop :=
  (exists rest, function = "github.com/peterbourgon/trc" ++ rest) /\
  ((exists p, function = p ++ "Tracef") \/ (exists p, function = p ++ "Errorf") \/
   (exists rest, function = "github.com/peterbourgon/trc.Region" ++ rest) \/
   (exists rest, function = "github.com/peterbourgon/trc/eztrc." ++ rest)).

Section View.
Context {arg world pc : Type}.
Variable Sprintf : world -> string -> list arg -> string.
Variable CallersFrames : list pc -> list rframe.
Notation env := (env arg world pc).

(** The stack shown for an event logged with the program counters [pcs]: of the
    frames of the first 8 counters, all but the last, without trc's own. *)
Definition reported_stack (nostack : bool) (pcs : list pc) : list Frame :=
  if nostack then [] else
  match firstn 8 pcs with
  | [] => []
  | pcs => map (fun fr => MkFrame (rf_Function fr) (rf_File fr ++ ":" ++ itoa (rf_Line fr)))
               (filter (fun fr => negb (ignoreStackFrameFunction (rf_Function fr))) (removelast (CallersFrames pcs)))
  end.

(** An event call as shown by the first read, which happens at [er]. *)
Definition rendered (er : env) (nostack : bool) (c : env * call arg) : Event :=
  match snd c with
  | CallLog k f a => MkEvent (e_now (fst c))
                             (Sprintf (e_world (if is_lazy_kind k then er else fst c)) f a)
                             (reported_stack nostack (e_pcs (fst c))) (is_error_kind k)
  | _ => MkEvent 0 EmptyString [] false
  end.

(** What identifies a stored event: time, format, arguments, error flag. *)
Definition call_info (c : env * call arg) : Z * string * list arg * bool :=
  match snd c with
  | CallLog k f a => (e_now (fst c), f, a, is_error_kind k)
  | _ => (0%Z, EmptyString, [], false)
  end.
Definition ev_info (ce : coreEvent arg pc) : Z * string * list arg * bool :=
  (ce_when ce, z_fmt (ce_what ce), z_args (ce_what ce), ce_iserr ce).

(** A trace as New makes it: nothing logged yet. *)
Definition fresh (tr : coreTrace arg pc) : Prop :=
  ct_finished tr = false /\ ct_errored tr = false /\ ct_events tr = [] /\ ct_truncated tr = 0%Z.

Definition is_read (c : env * call arg) : bool :=
  match snd c with CallEvents _ _ => true | _ => false end.
End View.

Inductive subseq {A} : list A -> list A -> Prop :=
| subseq_nil : subseq [] []
| subseq_keep x l l' : subseq l l' -> subseq (x :: l) (x :: l')
| subseq_drop x l l' : subseq l l' -> subseq l (x :: l').


(** What a user does to a trace, and vocabulary for histories. *)
From Verif Require Import Go.
Open Scope Z_scope.

(** The four event methods. *)
Inductive kind := KTracef | KLazyTracef | KErrorf | KLazyErrorf.
Definition is_error_kind (k : kind) : bool :=
  match k with KErrorf | KLazyErrorf => true | _ => false end.
Definition is_lazy_kind (k : kind) : bool :=
  match k with KLazyTracef | KLazyErrorf => true | _ => false end.

Section Spec.
Context {arg Env : Type}.

(** The calls that can change a trace, and reads (EventsDetail; Events is
    [CallEvents (-1) true]). *)
Inductive call :=
| CallLog (k : kind) (format : string) (args : list arg)
| CallFinish
| CallSetMaxEvents (n : Z)
| CallEvents (n : Z) (stacks : bool).

(** A history: each call with the environment (clock, arguments, stack) at the
    time it runs. *)
Definition history := list (Env * call).

Definition is_finish (c : Env * call) : bool :=
  match snd c with CallFinish => true | _ => false end.
Definition is_log (c : Env * call) : bool :=
  match snd c with CallLog _ _ _ => true | _ => false end.
Definition is_error_log (c : Env * call) : bool :=
  match snd c with CallLog k _ _ => is_error_kind k | _ => false end.
Definition is_setmax (c : Env * call) : bool :=
  match snd c with CallSetMaxEvents _ => true | _ => false end.
Definition is_write (c : Env * call) : bool :=
  match snd c with CallLog _ _ _ | CallFinish => true | _ => false end.

(** The part of a history before the first Finish. *)
Fixpoint before_finish (h : history) : history :=
  match h with
  | [] => []
  | c :: h => if is_finish c then [] else c :: before_finish h
  end.
(** The environment of the first Finish. *)
Fixpoint first_finish (h : history) : option Env :=
  match h with
  | [] => None
  | c :: h => if is_finish c then Some (fst c) else first_finish h
  end.

(** The event calls that count: those before the first Finish. *)
Definition logs (h : history) : history := filter is_log (before_finish h).

(** Which of the event calls are stored, given the limit at the beginning: a
    call is stored iff the number stored so far is below the limit in force. *)
Definition clamp (n : Z) : Z := Z.min 10000 (Z.max 10 n).
Fixpoint stored_from (limit : Z) (count : Z) (h : history) : history :=
  match h with
  | [] => []
  | c :: h =>
      match snd c with
      | CallLog _ _ _ =>
          if count <? limit then c :: stored_from limit (count + 1) h else stored_from limit count h
      | CallSetMaxEvents n => stored_from (clamp n) count h
      | _ => stored_from limit count h
      end
  end.
Definition stored (limit : Z) (h : history) : history := stored_from limit 0 (before_finish h).
End Spec.

Arguments call : clear implicits.
Arguments history : clear implicits.

(** Which stored events a read with parameter [n] looks at when [count] events
    are stored: all of them if n <= 0 or n > count, else the last n. *)
Definition includes (n count : Z) (i : nat) : bool :=
  (n <=? 0) || (count <? n) || (count - n <=? Z.of_nat i).

(** Where the i-th stored event (oldest is 0) appears in the result of a read,
    if it appears: the result starts with the first event looked at, except that
    one event is left out when events were truncated. *)
Definition position (n count truncated : Z) (i : nat) : option nat :=
  let first := if (n <=? 0) || (count <? n) then 0 else count - n in
  let first := if 0 <? truncated then first + 1 else first in
  if (first <=? Z.of_nat i) && (Z.of_nat i <? count) then Some (i - Z.to_nat first)%nat else None.

(** C13: several traces and the package-level settings. *)
Inductive proc_op :=
| PSetTraceMaxEvents (n : Z)          (* trc.SetTraceMaxEvents *)
| PNew (source category : string)     (* a new trace; traces are numbered in order of creation *)
| PSetMaxEvents (i : nat) (n : Z).    (* SetMaxEvents on trace i *)

Fixpoint update {A} (i : nat) (x : A) (l : list A) : list A :=
  match l, i with
  | [], _ => []
  | _ :: l, O => x :: l
  | y :: l, S i => y :: update i x l
  end.

(** The limits: of the next trace, and of each existing trace. *)
Definition limits (ops : list proc_op) : Z * list Z :=
  fold_left (fun st o => match o with
    | PSetTraceMaxEvents n => (clamp n, snd st)
    | PNew _ _ => (fst st, snd st ++ [fst st])%list
    | PSetMaxEvents i n => (fst st, update i (clamp n) (snd st))
    end) ops (1000%Z, []).

(** What a handler does to the writer when there is no middleware, and which status code a
    sequence of writer operations gives. *)
From Verif Require Import Go S_Trace M_Web.
Open Scope Z_scope.

(** Operations on the writer: WriteHeader(code), a Write that took n bytes, Flush. *)
Inductive wop := WHeader (code : Z) | WBody (n : Z) | WFlush.

Section Direct.
Context {arg W : Type}.
Variable w_WriteHeader : W -> Z -> option W.
Variable w_Write : W -> string -> W * (Z * option string).
Variable w_Flush : W -> W.

(** The handler on its own, given the writer itself: the writer afterwards, the calls on the
    trace, the operations on the writer, and whether it returned. *)
Inductive direct : handler arg -> W -> W -> list (call arg) -> list wop -> bool -> Prop :=
| d_return w : direct HReturn w w [] [] true
| d_panic w : direct HPanic w w [] [] false
| d_trace c k w w' cs ops ret : direct k w w' cs ops ret -> direct (HTrace c k) w w' (c :: cs) ops ret
| d_header code k w w1 w' cs ops ret :
    w_WriteHeader w code = Some w1 -> direct k w1 w' cs ops ret -> direct (HWriteHeader code k) w w' cs (WHeader code :: ops) ret
| d_header_panic code k w : w_WriteHeader w code = None -> direct (HWriteHeader code k) w w [] [WHeader code] false
| d_write p k w w1 n err w' cs ops ret :
    w_Write w p = (w1, (n, err)) -> direct (k (n, err)) w1 w' cs ops ret -> direct (HWrite p k) w w' cs (WBody n :: ops) ret
| d_flush k w w' cs ops ret : direct k (w_Flush w) w' cs ops ret -> direct (HFlush k) w w' cs (WFlush :: ops) ret.
End Direct.

(** How many bytes were taken. *)
Fixpoint bytes_taken (ops : list wop) : Z :=
  match ops with
  | [] => 0
  | WBody n :: ops => n + bytes_taken ops
  | _ :: ops => bytes_taken ops
  end.

(** The code of the first WriteHeader call (a code of 0 does not count), 200 without one. *)
Fixpoint first_code (ops : list wop) : Z :=
  match ops with
  | [] => 200
  | WHeader code :: ops => if code =? 0 then first_code ops else code
  | _ :: ops => first_code ops
  end.

(** Status codes that do not end the header: 1xx except 101. *)
Definition informational (code : Z) : bool := (100 <=? code) && (code <=? 199) && negb (code =? 101).

(** What the client sees: the first WriteHeader that is not informational, unless the body
    or a flush comes first. *)
Fixpoint client_code (ops : list wop) : Z :=
  match ops with
  | WHeader code :: ops => if informational code then client_code ops else code
  | _ => 200
  end.

(** The header is sent properly: either WriteHeader is never called, or its first call comes
    before anything else and is not informational. *)
Definition header_first (ops : list wop) : Prop :=
  match ops with
  | WHeader code :: _ => informational code = false
  | _ => forall code, ~ In (WHeader code) ops
  end.

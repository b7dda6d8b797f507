(** What a handler asks its writer for: every interface it looks for or calls, whatever the answers it gets. *)
From Verif Require Import Go M_Web M_Wrap.
Section Uses.
Context {arg : Type}.
Variable P : iface -> Prop.
Fixpoint uses_only (h : whandler arg) : Prop :=
  match h with
  | WReturn | WPanic _ => True
  | WTrace _ k | WSetHeader _ _ k | WWriteHeader _ k => uses_only k
  | WWrite _ k => forall r, uses_only (k r)
  | WAsk i k => P i /\ forall ok, uses_only (k ok)
  | WCall i _ k => P i /\ forall r, uses_only (k r)
  end.
End Uses.
(** The writer offers [i] exactly if it is http.Flusher. *)
Definition flusher_only {S} (w : writer S) (i : iface) : Prop := offers w i = true <-> i = Flusher.
(** A handler that needs an interface and answers 500 without it, as for example one that upgrades to a websocket. *)
Definition needs {arg} (i : iface) (a : string) (k : string -> whandler arg) : whandler arg :=
  WAsk i (fun ok => if ok then WCall i a k else WWriteHeader 500 (WReturn)).

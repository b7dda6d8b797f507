(** Concrete values used by the examples beside the theorems.  No theorem
    depends on them. *)
From Verif Require Import Go M_Strings M_Types S_Trace M_Trace.
Open Scope string_scope.
Open Scope Z_scope.

(** Arguments are indices into a store; formatting appends the first argument's
    current value. *)
Definition demo_world := nat -> string.
Definition demo_Sprintf (w : demo_world) (f : string) (a : list nat) : string :=
  match a with [] => f | x :: _ => (f ++ w x)%string end.
Definition demo_frames (pcs : list Z) : list rframe :=
  map (fun p => MkRFrame (if p =? 0 then "github.com/peterbourgon/trc.Tracef" else "main.f" ++ itoa p)
                         "main.go" p) pcs.
Definition demo_w0 : demo_world := fun _ => "old".
Definition demo_w1 : demo_world := fun _ => "new".
Definition demo_cev : coreEvent nat Z :=
  MkCE (-7) (MkStringer "junk" [9%nat] (Some "junk")) [1; 2] [MkFrame "junk" "junk"] true.
Definition demo_z : stringer nat := MkStringer "stale" [8%nat] (Some "stale").
Definition demo_env (t : Z) (w : demo_world) (pcs : list Z) : env nat demo_world Z :=
  MkEnv t w pcs demo_cev demo_z.
Definition demo_e (t : Z) := demo_env t demo_w0 [0; 1; 2].
Definition demo_log (t : Z) (k : kind) (f : string) : env nat demo_world Z * call nat := (demo_e t, CallLog k f []).
(** n calls at times t, t+1, ... *)
Fixpoint demo_logs (n : nat) (t : Z) : list (env nat demo_world Z * call nat) :=
  match n with
  | O => []
  | S n => demo_log t KTracef ("e" ++ itoa t) :: demo_logs n (t + 1)
  end.
(** A pooled object in an arbitrary state. *)
Definition demo_dirty : coreTrace nat Z :=
  MkCT "old-source" "old-id" "old-category" 77 true true 99 true [demo_cev] 3 5.
Definition demo_new (limit : Z) : coreTrace nat Z :=
  newCoreTrace (MkGlobals limit false) 100 "id" demo_dirty "src" "cat".

(** Happens-before and data races, for any kind of places and of objects that order goroutines (as in S_Race, following
    https://go.dev/ref/mem). *)
From Verif Require Import Go.
Open Scope list_scope.
Open Scope nat_scope.

Section Order.
Context {loc sync : Type}.
(** [Acquire]: Lock, receive.  [Release]: Unlock, send. *)
Inductive act := Acquire (x : sync) | Release (x : sync) | Reads (p : loc) | Writes (p : loc).
(** what goroutines do, in the order of execution *)
Definition history := list (nat * act).
Definition access_of (a : act) : option (loc * bool) :=
  match a with Reads p => Some (p, false) | Writes p => Some (p, true) | _ => None end.
Inductive before (l : history) : nat -> nat -> Prop :=
| before_program i j g a b : i < j -> nth_error l i = Some (g, a) -> nth_error l j = Some (g, b) -> before l i j
| before_sync i j g g' x : i < j -> nth_error l i = Some (g, Release x) -> nth_error l j = Some (g', Acquire x) -> before l i j
| before_trans i j k : before l i j -> before l j k -> before l i k.
Definition conflicting (l : history) (i j : nat) : Prop :=
  exists gi ai gj aj p wi wj, nth_error l i = Some (gi, ai) /\ nth_error l j = Some (gj, aj) /\
    access_of ai = Some (p, wi) /\ access_of aj = Some (p, wj) /\ (wi = true \/ wj = true).
Definition no_race (l : history) : Prop := forall i j, i < j -> conflicting l i j -> before l i j.
End Order.
Arguments act : clear implicits.
Arguments history : clear implicits.

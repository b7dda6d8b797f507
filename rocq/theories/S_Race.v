(** Data races.  A log lists, in the order of execution, what goroutines do to memory and
    to the objects that order them: happens-before, conflicts and races as in the Go memory
    model (https://go.dev/ref/mem). *)
From Verif Require Import Go.
Open Scope list_scope.
Open Scope nat_scope.

(** Memory, in the units in which this library protects it.  Objects are named by their
    addresses, categories by collector and name. *)
Inductive loc :=
| LId (t : nat)                    (* id, source, category, start of the trace at t *)
| LState (t : nat)                 (* its other fields *)
| LEvent (e : nat)                 (* an event object *)
| LText (z : nat)                  (* fmt and args of a stringer; its str is atomic *)
| LFrames (a : nat)                (* an array of frames *)
| LRing (k : nat * string)         (* the ring buffer of a category *)
| LSet (c : nat).                  (* the map of categories of a collector, and its cap *)
(** What orders goroutines: mutexes, pools (per object), and the program's own channels and
    the like. *)
Inductive sync :=
| SMtx (t : nat) | SRing (k : nat * string) | SSet (c : nat)
| SPoolT (t : nat) | SPoolE (e : nat) | SPoolZ (z : nat)
| SChan (x : nat).

(** [Acq]: Lock, Pool.Get returning the object, receive.  [Rel]: Unlock, Pool.Put, send.
    The rest of the actions have no effect on memory, and mark: the creation of trace number
    n at address t; the beginning of a call of a method through trace number n; the beginning
    of Finish; the return of the memory at t to the pool.  [Look] is a call of ID, Source,
    Category or Started through trace number n: it reads without a lock. *)
Inductive action :=
| Acq (x : sync) | Rel (x : sync)
| Rd (l : loc) | Wr (l : loc)
| New (n t : nat) | Use (n : nat) | Fin (n : nat) | Recycle (t : nat)
| Look (n t : nat).
Definition log := list (nat * action).

(** The place an action accesses, and whether it writes. *)
Definition access (a : action) : option (loc * bool) :=
  match a with Rd l => Some (l, false) | Wr l => Some (l, true) | Look _ t => Some (LId t, false) | _ => None end.

(** i happens before j. *)
Inductive hb (l : log) : nat -> nat -> Prop :=
| hb_program i j g a b : i < j -> nth_error l i = Some (g, a) -> nth_error l j = Some (g, b) -> hb l i j
| hb_sync i j g g' x : i < j -> nth_error l i = Some (g, Rel x) -> nth_error l j = Some (g', Acq x) -> hb l i j
| hb_trans i j k : hb l i j -> hb l j k -> hb l i k.

(** Two accesses to the same place, at least one of which writes. *)
Definition conflict (l : log) (i j : nat) : Prop :=
  exists gi ai gj aj p wi wj, nth_error l i = Some (gi, ai) /\ nth_error l j = Some (gj, aj) /\
    access ai = Some (p, wi) /\ access aj = Some (p, wj) /\ (wi = true \/ wj = true).
(** Conflicting accesses are ordered. *)
Definition race_free (l : log) : Prop := forall i j, i < j -> conflict l i j -> hb l i j.

(** What a program has to see to itself. *)
(** A trace is used only by those who learn of it after it was created. *)
Definition told (l : log) : Prop :=
  forall n t p q g g', nth_error l p = Some (g, New n t) -> nth_error l q = Some (g', Use n) \/ nth_error l q = Some (g', Look n t) -> hb l p q.
(** Nobody calls ID, Source, Category or Started while another goroutine may call Finish, or later. *)
Definition looked_first (l : log) : Prop :=
  forall n t q f g g', nth_error l q = Some (g, Look n t) -> nth_error l f = Some (g', Fin n) -> hb l q f.
(** Nobody uses a trace after it was freed. *)
Definition used_first (l : log) : Prop :=
  forall n t p q f g g' g'', nth_error l p = Some (g, New n t) -> nth_error l f = Some (g', Recycle t) -> p < f ->
    nth_error l q = Some (g'', Use n) \/ nth_error l q = Some (g'', Look n t) -> q < f.
Record orderly (l : log) : Prop := { o_known : told l; o_look : looked_first l; o_freed : used_first l }.

(** What goroutines do to traces, as if each trace were a value of its own: no pools, no
    shared events, texts or arrays. *)
From Verif Require Import Go M_Types S_RingBuf S_Trace M_Trace M_Heap.
Open Scope list_scope.

Section Spec.
Context {arg world pc : Type}.
Variable Sprintf : world -> string -> list arg -> string.
Variable CallersFrames : list pc -> list rframe.
Notation env := (env arg world pc).
Notation coreTrace := (coreTrace arg pc).
Notation machine := (machine arg world pc).

(** What a step does to the trace at address t. *)
Inductive effect :=
| Created (t : nat) (g : globals) (now : Z) (id source category : string)
| Called (t : nat) (x : env * call arg)
| Freed (t : nat).
(** The effect of the next step of goroutine i. *)
Definition effect_of (m : machine) (i : nat) : list effect :=
  match nth_error (hm_threads m) i with
  | Some (HIdle, HNewTrace c cat g now id src pick :: _) => [Created (snd (h_new g now id pick src cat (hm_heap m))) g now id src cat]
  | Some (HIdle, HCall n x ch :: _) => match nth_error (hm_handles m) n with Some t => [Called t x] | None => [] end
  | Some (HFreeing (t :: _), _) => [Freed t]
  | _ => []
  end.
Fixpoint effects (sched : list nat) (m : machine) : list effect :=
  match sched with
  | [] => []
  | i :: sched => effect_of m i ++ match h_step Sprintf CallersFrames m i with Ok m => effects sched m | Panic => [] end
  end.
(** The same effects on values.  A finished trace loses its events when it is freed. *)
Definition apply (v : nat -> coreTrace) (x : effect) : nat -> coreTrace :=
  match x with
  | Created t g now id src cat => fun t' => if Nat.eqb t' t then newCoreTrace g now id zeroCoreTrace src cat else v t'
  | Called t x => fun t' => if Nat.eqb t' t then do_call Sprintf CallersFrames (v t) x else v t'
  | Freed t => fun t' => if Nat.eqb t' t then fst (Free (v t)) else v t'
  end.
Definition values (l : list effect) : nat -> coreTrace := fold_left apply l (fun _ => zeroCoreTrace).
(** The calls on the trace at t among some effects. *)
Definition calls_on (t : nat) (l : list effect) : history arg env :=
  flat_map (fun x => match x with Called t' c => if Nat.eqb t' t then [c] else [] | _ => [] end) l.
Definition created (t : nat) (x : effect) : bool := match x with Created t' _ _ _ _ _ => Nat.eqb t' t | _ => false end.
Definition freed (t : nat) (x : effect) : bool := match x with Freed t' => Nat.eqb t' t | _ => false end.

(** The addresses of traces that are in the pool, in a category, made but not yet in a
    category, or out of a category and about to be freed. *)
Definition in_pool (m : machine) : list nat := h_tpool (hm_heap m).
Definition in_categories (m : machine) : list nat := flat_map (fun kr => bl_items (snd kr)) (hm_cats m).
Definition on_the_way (s : hstate) : list nat :=
  match s with HIdle => [] | HAdding t _ => [t] | HResizing _ _ d => d | HFreeing ts => ts end.
Definition with_goroutines (m : machine) : list nat := flat_map (fun sp => on_the_way (fst sp)) (hm_threads m).
Definition places (m : machine) : list nat := in_pool m ++ in_categories m ++ with_goroutines m.
End Spec.
Arguments effect : clear implicits.

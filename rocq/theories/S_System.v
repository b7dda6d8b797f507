(** What goroutines do with collectors and traces, as seen from outside, and what the
    traces that collectors hold should be. *)
From Verif Require Import Go M_Types S_RingBuf S_Collector S_Trace M_Trace M_Heap S_Heap.
Open Scope list_scope.
Open Scope nat_scope.

(** The last position of t in l. *)
Fixpoint last_index (t : nat) (l : list nat) : option nat :=
  match l with
  | [] => None
  | x :: l => match last_index t l with Some i => Some (S i) | None => if Nat.eqb x t then Some 0 else None end
  end.

Section System.
Context {arg world pc : Type}.
Variable Sprintf : world -> string -> list arg -> string.
Variable CallersFrames : list pc -> list rframe.
Notation env := (env arg world pc).
Notation coreTrace := (coreTrace arg pc).
Notation machine := (machine arg world pc).

(** Traces are numbered in the order of creation.
    - [ANew]: a trace is created, by collector c in a category (the key);
    - [AAdd]: it is put into the category;
    - [ACall]: a method of trace number n is called by somebody who has it. *)
Inductive act :=
| ANew (key : nat * string) (g : globals) (now : Z) (id source : string)
| AAdd (key : nat * string) (n : nat)
| ACall (n : nat) (x : env * call arg).

(** The number of the trace that lives at address t: the last one created there. *)
Definition owner (m : machine) (t : nat) : option nat := last_index t (hm_handles m).

(** What the next step of goroutine i is, seen from outside. *)
Definition act_of (m : machine) (i : nat) : list act :=
  match nth_error (hm_threads m) i with
  | Some (HIdle, HNewTrace c cat g now id src _ :: _) => [ANew (c, cat) g now id src]
  | Some (HIdle, HCall n x _ :: _) => match nth_error (hm_handles m) n with Some _ => [ACall n x] | None => [] end
  | Some (HAdding t k, _) => match owner m t with Some n => [AAdd k n] | None => [] end
  | _ => []
  end.
Fixpoint acts (sched : list nat) (m : machine) : list act :=
  match sched with
  | [] => []
  | i :: sched => act_of m i ++ match h_step Sprintf CallersFrames m i with Ok m => acts sched m | Panic => [] end
  end.

Definition creations (log : list act) : list (nat * string * globals * Z * string * string) :=
  flat_map (fun a => match a with ANew k g now id src => [(k, g, now, id, src)] | _ => [] end) log.
Definition calls_through (n : nat) (log : list act) : history arg env :=
  flat_map (fun a => match a with ACall n' x => if Nat.eqb n' n then [x] else [] | _ => [] end) log.
Definition added_to (key : nat * string) (log : list act) : list nat :=
  flat_map (fun a => match a with AAdd k n => if key_eq k key then [n] else [] | _ => [] end) log.

(** Trace n, as what was done through it says it should be. *)
Definition should_be (log : list act) (n : nat) (key : nat * string) (c : coreTrace) : Prop :=
  exists g now id src, nth_error (creations log) n = Some (key, g, now, id, src) /\
    c = run Sprintf CallersFrames (calls_through n log) (newCoreTrace g now id zeroCoreTrace src (snd key)).

(** Proper use of traces: whoever has a trace uses it until it is finished, or as long as a
    collector holds it (as a search does). *)
Definition use_ok (log : list act) (m : machine) (i : nat) : Prop :=
  match nth_error (hm_threads m) i with
  | Some (HIdle, HCall n _ _ :: _) =>
      forall t, nth_error (hm_handles m) n = Some t ->
        existsb is_finish (calls_through n log) = false \/ (owner m t = Some n /\ In t (in_categories m))
  | _ => True
  end.
Fixpoint proper (log : list act) (sched : list nat) (m : machine) : Prop :=
  match sched with
  | [] => True
  | i :: sched => use_ok log m i /\ match h_step Sprintf CallersFrames m i with Ok m' => proper (log ++ act_of m i) sched m' | Panic => True end
  end.

(** What a search reads of a trace, at a moment er. *)
Definition seen (er : env) (c : coreTrace) : StaticTrace :=
  MkStatic (Source c) (ID c) (Category c) (Started c) (Duration (e_now er) c) "" (Finished c) (Errored c) (snd (Events Sprintf CallersFrames er c)).
(** What it should read of trace n: source, ID, category and start as created; finished if
    Finish was called; errored if an error was logged before; the time from the start to
    Finish, or up to now; the events of the calls (C09). *)
Definition told (er : env) (log : list act) (n : nat) : StaticTrace :=
  match nth_error (creations log) n with
  | Some (key, g, now, id, src) =>
      let calls := calls_through n log in
      MkStatic src id (snd key) now (match first_finish calls with Some e => e_now e | None => e_now er end - now)%Z ""
        (existsb is_finish calls) (existsb is_error_log (before_finish calls))
        (snd (Events Sprintf CallersFrames er (run Sprintf CallersFrames calls (newCoreTrace g now id zeroCoreTrace src (snd key)))))
  | None => MkStatic "" "" "" 0 0 "" false false []
  end.
(** The storage of collector c: the traces put into its categories, in order. *)
Definition storage_ops (c : nat) (log : list act) : list (coll_op nat) :=
  flat_map (fun a => match a with AAdd k n => if Nat.eqb (fst k) c then [CNew (snd k) n] else [] | _ => [] end) log.
(** Programs that do not change the category size. *)
Definition keeps_size (p : list (hop arg world pc)) : Prop := Forall (fun o => match o with HSetCategorySize _ _ => False | _ => True end) p.
End System.
Arguments act : clear implicits.

(** Setting up a collector that goroutines use (collector.go). *)
From Verif Require Import Go S_HappensBefore.
Open Scope list_scope.
Open Scope nat_scope.

(** The fields that setters change (collector.go:14-17).  Functions have numbers; nil is None, New is number 0. *)
Inductive field := FSource | FNewTrace | FDecorators.
Record settings := MkSet { s_source : string; s_newTrace : option nat; s_decorators : list nat }.
(** collector.go:56-76; the broker and the size of categories are left out *)
Definition NewCollector (cfg : settings) : settings :=
  MkSet (if String.eqb (s_source cfg) "" then "default"%string else s_source cfg)
        (match s_newTrace cfg with None => Some 0 | f => f end)
        (s_decorators cfg).

Inductive op :=
| SetSourceName (name : string) | SetNewTrace (f : option nat) | SetDecorators (ds : list nat)
| NewTrace | Search
| Signal | Await.  (* the program's own: goroutines that wait until one tells them to start *)
(** In NewTrace: between the call of the function (collector.go:123) and the decorators (collector.go:125). *)
Inductive phase := Outside | Making (f : nat) (source : string).
Record goroutine := MkG { g_phase : phase; g_ops : list op }.
(** What is seen: a trace made by function f, with a source and decorators; a call of a nil function, which panics; the source of a
    search response. *)
Inductive outcome := Made (f : nat) (source : string) (ds : list nat) | Panicked | Searched (source : string).
Record world := MkW { w_set : settings; w_told : bool; w_gs : list goroutine; w_seen : list (nat * outcome); w_log : history field unit }.

Fixpoint set_nth {A} (l : list A) (i : nat) (x : A) : list A :=
  match l, i with [], _ => [] | _ :: l, 0 => x :: l | y :: l, S i => y :: set_nth l i x end.
Definition emit (w : world) (i : nat) (g : goroutine) (s : settings) (told : bool) (seen : list outcome) (script : list (act field unit)) : world :=
  MkW s told (set_nth (w_gs w) i g) (w_seen w ++ map (pair i) seen) (w_log w ++ map (pair i) script).
Definition w_step (w : world) (i : nat) : world :=
  let s := w_set w in
  match nth_error (w_gs w) i with
  | None => w
  (* collector.go:125-127 *)
  | Some (MkG (Making f source) ops) => emit w i (MkG Outside ops) s (w_told w) [Made f source (s_decorators s)] [Reads FDecorators]
  | Some (MkG Outside []) => w
  (* collector.go:81-84 *)
  | Some (MkG Outside (SetSourceName name :: ops)) =>
      emit w i (MkG Outside ops) (MkSet name (s_newTrace s) (s_decorators s)) (w_told w) [] [Writes FSource]
  (* collector.go:89-92 *)
  | Some (MkG Outside (SetNewTrace f :: ops)) =>
      emit w i (MkG Outside ops) (MkSet (s_source s) f (s_decorators s)) (w_told w) [] [Writes FNewTrace]
  (* collector.go:97-100 *)
  | Some (MkG Outside (SetDecorators ds :: ops)) =>
      emit w i (MkG Outside ops) (MkSet (s_source s) (s_newTrace s) ds) (w_told w) [] [Writes FDecorators]
  (* collector.go:117-123, for a context without a trace; a panic ends the goroutine *)
  | Some (MkG Outside (NewTrace :: ops)) =>
      match s_newTrace s with
      | None => emit w i (MkG Outside []) s (w_told w) [Panicked] [Reads FNewTrace; Reads FSource]
      | Some f => emit w i (MkG (Making f (s_source s)) ops) s (w_told w) [] [Reads FNewTrace; Reads FSource]
      end
  (* collector.go:187, where the response gets its source *)
  | Some (MkG Outside (Search :: ops)) => emit w i (MkG Outside ops) s (w_told w) [Searched (s_source s)] [Reads FSource]
  | Some (MkG Outside (Signal :: ops)) => emit w i (MkG Outside ops) s true [] [Release tt]
  | Some (MkG Outside (Await :: ops)) => if w_told w then emit w i (MkG Outside ops) s true [] [Acquire tt] else w
  end.
Fixpoint w_run (sched : list nat) (w : world) : world := match sched with [] => w | i :: sched => w_run sched (w_step w i) end.
Definition w_start (cfg : settings) (programs : list (list op)) : world :=
  MkW (NewCollector cfg) false (map (MkG Outside) programs) [] [].

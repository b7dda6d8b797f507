(** Model of RingBuffers (internal/trcringbuf/ringbuffer.go:187-246) and of the
    storage part of Collector (collector.go:107-134, 207-216). *)
From Verif Require Import Go S_RingBuf M_RingBuf S_Collector.
Open Scope Z_scope.

Section RingBuffers.
Context {T : Type}.
Variable zero : T.

(** ringbuffer.go:187-191.  The map holds pointers; a pointer is never removed
    from the map or replaced, so a pointer is identified with its key. *)
Record rbs := MkRBS {
  rbs_cap : Z;
  rbs_bufs : list (string * rb T)
}.

(** ringbuffer.go:195-200 *)
Definition NewRingBuffers (cap : Z) : rbs := MkRBS cap [].

(** ringbuffer.go:204-215.  Returns the set; the returned pointer is the key. *)
Definition GetOrCreate (s : rbs) (category : string) : res rbs :=
  match map_get category (rbs_bufs s) with
  | Some _ => Ok s
  | None =>
      r <- NewRingBuffer zero (rbs_cap s) ;;
      Ok (MkRBS (rbs_cap s) (map_set category r (rbs_bufs s)))
  end.

(** The method call rb.Add through the pointer of a category. *)
Definition AddTo (s : rbs) (category : string) (tr : T) : res (rbs * (T * bool)) :=
  match map_get category (rbs_bufs s) with
  | None => Panic
  | Some r =>
      '(r, d) <- Add zero r tr ;;
      Ok (MkRBS (rbs_cap s) (map_set category r (rbs_bufs s)), d)
  end.

(** ringbuffer.go:218-228.  The copy is made under the lock; the pointers are
    shared.  [order] is the iteration order of whoever ranges over the copy. *)
Definition GetAll (s : rbs) (order : list string -> list string) : list string :=
  order (map_keys (rbs_bufs s)).

(** ringbuffer.go:241-243: for _, rb := range rbs.bufs { ... } *)
Fixpoint resize_each (cap : Z) (names : list string) (bufs : list (string * rb T)) (dropped : list T)
  : res (list (string * rb T) * list T) :=
  match names with
  | [] => Ok (bufs, dropped)
  | name :: names =>
      match map_get name bufs with
      | None => Panic
      | Some r =>
          '(r, d) <- Resize zero r cap ;;
          resize_each cap names (map_set name r bufs) (dropped ++ d)
      end
  end.

(** ringbuffer.go:231-246 *)
Definition ResizeAll (s : rbs) (cap : Z) (order : list string -> list string) : res (rbs * list T) :=
  if cap <=? 0 then Ok (s, [])
  else
    '(bufs, dropped) <- resize_each cap (order (map_keys (rbs_bufs s))) (rbs_bufs s) [] ;;
    Ok (MkRBS cap bufs, dropped).

(** collector.go:107-112 SetCategorySize; the list is the traces passed to
    maybeFree, in order. *)
Definition SetCategorySize (s : rbs) (cap : Z) (order : list string -> list string)
  : res (rbs * list T) :=
  ResizeAll s cap order.

(** collector.go:128-130: the storage part of NewTrace for a trace that has been
    constructed already. *)
Definition StoreTrace (s : rbs) (category : string) (tr : T) : res (rbs * list T) :=
  s <- GetOrCreate s category ;;
  '(s, (dropped, didDrop)) <- AddTo s category tr ;;
  Ok (s, if (didDrop : bool) then [dropped] else []).

(** collector.go:74: the categories of a new collector *)
Definition new_collector_storage : rbs := NewRingBuffers 1000.

Definition coll_step (s : rbs) (o : coll_op T) : res (rbs * list T) :=
  match o with
  | CNew category tr => StoreTrace s category tr
  | CSize cap order => SetCategorySize s cap order
  end.

(** Run a history; the list collects the freed traces. *)
Fixpoint coll_run (s : rbs) (ops : list (coll_op T)) : res (rbs * list T) :=
  match ops with
  | [] => Ok (s, [])
  | o :: ops =>
      '(s, f1) <- coll_step s o ;;
      '(s, f2) <- coll_run s ops ;;
      Ok (s, f1 ++ f2)
  end.

(** What Walk on the ring buffer of a category visits (None: no such category). *)
Definition category_content (s : rbs) (category : string) : option (res (list T)) :=
  match map_get category (rbs_bufs s) with
  | None => None
  | Some r => Some ('(vs, _) <- Walk (Err := unit) (fun s v => (s ++ [v], None)) r [] ;; Ok vs)
  end.

(** Everything the collector holds, category by category. *)
Fixpoint contents_of (names : list string) (s : rbs) : res (list T) :=
  match names with
  | [] => Ok []
  | n :: names =>
      match category_content s n with
      | None => Panic
      | Some c => vs <- c ;; rest <- contents_of names s ;; Ok (vs ++ rest)
      end
  end.
Definition all_contents (s : rbs) : res (list T) := contents_of (map_keys (rbs_bufs s)) s.
End RingBuffers.

Arguments rbs : clear implicits.

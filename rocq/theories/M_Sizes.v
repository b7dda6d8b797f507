(** The ring buffers and the storage of a collector with the integers and the memory of a machine:
    every sum and difference of ints wraps around at 64 bits, and make panics above a largest
    length.  M_RingBuf.v and M_RingBufs.v have unbounded integers and unbounded memory. *)
From Verif Require Import Go S_RingBuf M_RingBuf S_Collector M_RingBufs.
Open Scope Z_scope.

(** The int of 64 bits that a result is stored as *)
Definition wrap (x : Z) : Z := (x + 2 ^ 63) mod 2 ^ 64 - 2 ^ 63.

Section Sizes.
Context {T : Type}.
Variable zero : T.
(** The largest length make accepts: the address space divided by the size of a value.  For
    interfaces on amd64 it is 2^44. *)
Variable most : Z.

(** make([]T, n): "makeslice: len out of range" *)
Definition make64 (n : Z) : res (list T) := if (n <? 0) || (most <? n) then Panic else Ok (repeat zero (Z.to_nat n)).

(** ringbuffer.go:17-21 *)
Definition NewRingBuffer64 (cap : Z) : res (rb T) := buf <- make64 cap ;; Ok (MkRB buf 0 0).

(** ringbuffer.go:57-60 and 70-73 *)
Definition rd_back64 (old : list T) (rdcur : Z) : Z :=
  let rdcur := wrap (rdcur - 1) in
  if rdcur <? 0 then wrap (rdcur + zlen old) else rdcur.
(** ringbuffer.go:54-63; [n] is wrcur+1 *)
Fixpoint resize_copy64 (n : nat) (old buf : list T) (rdcur : Z) : res (list T * Z) :=
  match n with
  | O => Ok (buf, rdcur)
  | S wrcur =>
      v <- slice_get old rdcur ;;
      buf <- slice_set buf (Z.of_nat wrcur) v ;;
      resize_copy64 wrcur old buf (rd_back64 old rdcur)
  end.
(** ringbuffer.go:67-74; [n] is the number of remaining iterations *)
Fixpoint resize_drop64 (n : nat) (old : list T) (rdcur : Z) (dropped : list T) : res (list T) :=
  match n with
  | O => Ok dropped
  | S n =>
      v <- slice_get old rdcur ;;
      resize_drop64 n old (rd_back64 old rdcur) (dropped ++ [v])
  end.
(** ringbuffer.go:26-90.  The receiver is written only at the end (84-86), after make (50). *)
Definition Resize64 (r : rb T) (cap : Z) : res (rb T * list T) :=
  if cap <=? 0 then Ok (r, [])
  else
    let fill := rb_len r in
    let fill := if cap <? fill then cap else fill in
    let rdcur := wrap (rb_cur r - 1) in
    let rdcur := if rdcur <? 0 then wrap (rdcur + rb_len r) else rdcur in
    buf <- make64 cap ;;
    '(buf, rdcur) <- resize_copy64 (Z.to_nat fill) (rb_buf r) buf rdcur ;;
    dropped <- resize_drop64 (Z.to_nat (rb_len r - cap)) (rb_buf r) rdcur [] ;;
    let cur := fill in
    let cur := if cap <=? cur then wrap (cur - cap) else cur in
    Ok (MkRB buf cur fill, dropped).
(** ringbuffer.go:95-126 *)
Definition Add64 (r : rb T) (val : T) : res (rb T * (T * bool)) :=
  if zlen (rb_buf r) <=? 0 then Ok (r, (zero, false))
  else
    dropped <- (if zlen (rb_buf r) <=? rb_len r
                then d <- slice_get (rb_buf r) (rb_cur r) ;; Ok (d, true)
                else Ok (zero, false)) ;;
    buf <- slice_set (rb_buf r) (rb_cur r) val ;;
    let len := if rb_len r <? zlen buf then wrap (rb_len r + 1) else rb_len r in
    let cur := wrap (rb_cur r + 1) in
    let cur := if zlen buf <=? cur then wrap (cur - zlen buf) else cur in
    Ok (MkRB buf cur len, dropped).
(** ringbuffer.go:138-143 *)
Definition walk_index64 (r : rb T) (i : Z) : Z :=
  let cur := wrap (wrap (rb_cur r - 1) - i) in
  if cur <? 0 then wrap (cur + zlen (rb_buf r)) else cur.
(** ringbuffer.go:131-152 *)
Fixpoint walk_loop64 {St Err} (fn : St -> T -> St * option Err) (r : rb T) (n : nat) (i : Z) (s : St) : res (St * option Err) :=
  match n with
  | O => Ok (s, None)
  | S n =>
      v <- slice_get (rb_buf r) (walk_index64 r i) ;;
      match fn s v with
      | (s, Some err) => Ok (s, Some err)
      | (s, None) => walk_loop64 fn r n (wrap (i + 1)) s
      end
  end.
Definition Walk64 {St Err} (fn : St -> T -> St * option Err) (r : rb T) (s : St) : res (St * option Err) :=
  walk_loop64 fn r (Z.to_nat (rb_len r)) 0 s.
(** ringbuffer.go:156-180 *)
Definition Stats64 (r : rb T) : res (T * T * Z) :=
  if rb_len r =? 0 then Ok (zero, zero, 0)
  else
    let headidx := wrap (rb_cur r - 1) in
    let headidx := if headidx <? 0 then wrap (headidx + zlen (rb_buf r)) else headidx in
    let tailidx := wrap (wrap (headidx - rb_len r) + 1) in
    let tailidx := if tailidx <? 0 then wrap (tailidx + zlen (rb_buf r)) else tailidx in
    newest <- slice_get (rb_buf r) headidx ;;
    oldest <- slice_get (rb_buf r) tailidx ;;
    Ok (newest, oldest, rb_len r).

Definition rb_step64 (r : rb T) (o : rb_op T) : res (rb T * rb_out T) :=
  match o with
  | OAdd x => '(r, (d, ok)) <- Add64 r x ;; Ok (r, RAdd d ok)
  | OResize c => '(r, d) <- Resize64 r c ;; Ok (r, RResize d)
  | OWalk => '(vs, _) <- Walk64 (Err := unit) (fun s v => (s ++ [v], None)) r [] ;; Ok (r, RWalk vs)
  | OStats => '(n, o, c) <- Stats64 r ;; Ok (r, RStats n o c)
  end.
Fixpoint rb_run64 (r : rb T) (ops : list (rb_op T)) : res (rb T * list (rb_out T)) :=
  match ops with
  | [] => Ok (r, [])
  | o :: ops =>
      '(r, x) <- rb_step64 r o ;;
      '(r, xs) <- rb_run64 r ops ;;
      Ok (r, x :: xs)
  end.

(** ** The storage of a collector.  A call that panics leaves a state, too, and the program may
    recover and go on.  Answers: the traces passed to maybeFree, None for a panic. *)
(** ringbuffer.go:204-215 and collector.go:128-130: the map is written (211) after make (210) *)
Definition StoreTrace64 (s : rbs T) (category : string) (tr : T) : rbs T * option (list T) :=
  match map_get category (rbs_bufs s) with
  | Some r =>
      match Add64 r tr with
      | Ok (r, (dropped, didDrop)) => (MkRBS (rbs_cap s) (map_set category r (rbs_bufs s)), Some (if (didDrop : bool) then [dropped] else []))
      | Panic => (s, None)
      end
  | None =>
      match NewRingBuffer64 (rbs_cap s) with
      | Panic => (s, None)
      | Ok r =>
          let bufs := map_set category r (rbs_bufs s) in
          match Add64 r tr with
          | Ok (r, (dropped, didDrop)) => (MkRBS (rbs_cap s) (map_set category r bufs), Some (if (didDrop : bool) then [dropped] else []))
          | Panic => (MkRBS (rbs_cap s) bufs, None)
          end
      end
  end.
(** ringbuffer.go:241-243 *)
Fixpoint resize_each64 (cap : Z) (names : list string) (bufs : list (string * rb T)) (dropped : list T) : list (string * rb T) * option (list T) :=
  match names with
  | [] => (bufs, Some dropped)
  | name :: names =>
      match map_get name bufs with
      | None => (bufs, None)
      | Some r =>
          match Resize64 r cap with
          | Panic => (bufs, None)
          | Ok (r, d) => resize_each64 cap names (map_set name r bufs) (dropped ++ d)
          end
      end
  end.
(** ringbuffer.go:231-246, collector.go:107-112: the size is set (239) before the loop *)
Definition SetCategorySize64 (s : rbs T) (cap : Z) (order : list string -> list string) : rbs T * option (list T) :=
  if cap <=? 0 then (s, Some [])
  else let '(bufs, dropped) := resize_each64 cap (order (map_keys (rbs_bufs s))) (rbs_bufs s) [] in (MkRBS cap bufs, dropped).
Definition coll_step64 (s : rbs T) (o : coll_op T) : rbs T * option (list T) :=
  match o with
  | CNew category tr => StoreTrace64 s category tr
  | CSize cap order => SetCategorySize64 s cap order
  end.
Fixpoint coll_run64 (s : rbs T) (ops : list (coll_op T)) : rbs T * list (option (list T)) :=
  match ops with
  | [] => (s, [])
  | o :: ops => let '(s, x) := coll_step64 s o in let '(s, xs) := coll_run64 s ops in (s, x :: xs)
  end.
End Sizes.

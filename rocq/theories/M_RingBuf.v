(** Model of internal/trcringbuf/ringbuffer.go *)
From Verif Require Import Go S_RingBuf.
Open Scope Z_scope.

Section RingBuffer.
Context {T : Type}.
Variable zero : T.   (* Go's zero value of T *)

(** ringbuffer.go:8-13.  [mtx] is omitted: every method holds it for its whole
    body, so each method is one atomic step (see P_Mutex). *)
Record rb := MkRB {
  rb_buf : list T;   (* fully allocated at construction *)
  rb_cur : Z;        (* index for next write, walk backwards to read *)
  rb_len : Z         (* count of actual values *)
}.

(** ringbuffer.go:17-21 NewRingBuffer.  [make] panics on a negative size. *)
Definition NewRingBuffer (cap : Z) : res rb :=
  buf <- go_make zero cap ;;
  Ok (MkRB buf 0 0).

(** ringbuffer.go:57-60 and 70-73: move the read cursor of the old buffer back *)
Definition rd_back (old : list T) (rdcur : Z) : Z :=
  let rdcur := rdcur - 1 in
  if rdcur <? 0 then rdcur + zlen old else rdcur.

(** ringbuffer.go:54-63: for wrcur >= 0 { ... }.  The argument [n] is wrcur+1. *)
Fixpoint resize_copy (n : nat) (old buf : list T) (rdcur : Z) : res (list T * Z) :=
  match n with
  | O => Ok (buf, rdcur)
  | S wrcur =>
      v <- slice_get old rdcur ;;
      buf <- slice_set buf (Z.of_nat wrcur) v ;;
      resize_copy wrcur old buf (rd_back old rdcur)
  end.

(** ringbuffer.go:67-74: for i := cap; i < rb.len; i++ { ... }.  [n] is the
    number of remaining iterations. *)
Fixpoint resize_drop (n : nat) (old : list T) (rdcur : Z) (dropped : list T) : res (list T) :=
  match n with
  | O => Ok dropped
  | S n =>
      v <- slice_get old rdcur ;;
      resize_drop n old (rd_back old rdcur) (dropped ++ [v])
  end.

(** ringbuffer.go:26-90 Resize *)
Definition Resize (r : rb) (cap : Z) : res (rb * list T) :=
  if cap <=? 0 then Ok (r, [])                                  (* 28-30 *)
  else
    let fill := rb_len r in                                     (* 36 *)
    let fill := if cap <? fill then cap else fill in            (* 37-39 *)
    let rdcur := rb_cur r - 1 in                                (* 42 *)
    let rdcur := if rdcur <? 0 then rdcur + rb_len r else rdcur in (* 43-45, sic: rb.len *)
    buf <- go_make zero cap ;;                                  (* 50 *)
    '(buf, rdcur) <- resize_copy (Z.to_nat fill) (rb_buf r) buf rdcur ;;   (* 51-63 *)
    dropped <- resize_drop (Z.to_nat (rb_len r - cap)) (rb_buf r) rdcur [] ;; (* 67-74 *)
    let cur := fill in                                          (* 78 *)
    let cur := if cap <=? cur then cur - cap else cur in        (* 79-81 *)
    Ok (MkRB buf cur fill, dropped).                            (* 84-89 *)

(** ringbuffer.go:95-126 Add.  [cap(rb.buf)] equals [len(rb.buf)]: the buffer
    is only ever produced by [make([]T, cap)]. *)
Definition Add (r : rb) (val : T) : res (rb * (T * bool)) :=
  if zlen (rb_buf r) <=? 0 then Ok (r, (zero, false))           (* 100-103 *)
  else
    dropped <- (if zlen (rb_buf r) <=? rb_len r                 (* 106-108 *)
                then d <- slice_get (rb_buf r) (rb_cur r) ;; Ok (d, true)
                else Ok (zero, false)) ;;
    buf <- slice_set (rb_buf r) (rb_cur r) val ;;               (* 111 *)
    let len := if rb_len r <? zlen buf then rb_len r + 1 else rb_len r in (* 114-116 *)
    let cur := rb_cur r + 1 in                                  (* 119 *)
    let cur := if zlen buf <=? cur then cur - zlen buf else cur in (* 120-122 *)
    Ok (MkRB buf cur len, dropped).

(** ringbuffer.go:138-143: the index read in iteration i of Walk *)
Definition walk_index (r : rb) (i : Z) : Z :=
  let cur := rb_cur r - 1 - i in
  if cur <? 0 then cur + zlen (rb_buf r) else cur.

(** ringbuffer.go:131-152 Walk.  The callback is an arbitrary Go closure: it
    has a state [St] and returns a new state and possibly an error.  [n] is the
    number of remaining iterations, [i] the loop variable. *)
Fixpoint walk_loop {St Err} (fn : St -> T -> St * option Err)
         (r : rb) (n : nat) (i : Z) (s : St) : res (St * option Err) :=
  match n with
  | O => Ok (s, None)
  | S n =>
      v <- slice_get (rb_buf r) (walk_index r i) ;;
      match fn s v with
      | (s, Some err) => Ok (s, Some err)
      | (s, None) => walk_loop fn r n (i + 1) s
      end
  end.

Definition Walk {St Err} (fn : St -> T -> St * option Err) (r : rb) (s : St)
  : res (St * option Err) :=
  walk_loop fn r (Z.to_nat (rb_len r)) 0 s.

(** ringbuffer.go:156-180 Stats *)
Definition Stats (r : rb) : res (T * T * Z) :=
  if rb_len r =? 0 then Ok (zero, zero, 0)
  else
    let headidx := rb_cur r - 1 in
    let headidx := if headidx <? 0 then headidx + zlen (rb_buf r) else headidx in
    let tailidx := headidx - rb_len r + 1 in
    let tailidx := if tailidx <? 0 then tailidx + zlen (rb_buf r) else tailidx in
    newest <- slice_get (rb_buf r) headidx ;;
    oldest <- slice_get (rb_buf r) tailidx ;;
    Ok (newest, oldest, rb_len r).

(** The public operations as a labelled state machine. *)
Definition rb_step (r : rb) (o : rb_op T) : res (rb * rb_out T) :=
  match o with
  | OAdd x => '(r, (d, ok)) <- Add r x ;; Ok (r, RAdd d ok)
  | OResize c => '(r, d) <- Resize r c ;; Ok (r, RResize d)
  | OWalk => '(vs, _) <- Walk (Err := unit) (fun s v => (s ++ [v], None)) r [] ;; Ok (r, RWalk vs)
  | OStats => '(n, o, c) <- Stats r ;; Ok (r, RStats n o c)
  end.

Fixpoint rb_run (r : rb) (ops : list (rb_op T)) : res (rb * list (rb_out T)) :=
  match ops with
  | [] => Ok (r, [])
  | o :: ops =>
      '(r, x) <- rb_step r o ;;
      '(r, xs) <- rb_run r ops ;;
      Ok (r, x :: xs)
  end.

End RingBuffer.

Arguments rb : clear implicits.

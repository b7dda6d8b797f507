(** The methods of the ring buffer and of the core trace, statement by statement. *)
From Verif Require Import Go M_Types S_RingBuf M_RingBuf S_Trace M_Trace M_Mutex.
Open Scope list_scope.
Open Scope Z_scope.

Section Ring.
Context {T : Type}.
Variable zero : T.
Notation rb := (rb T).
Definition set_buf (b : list T) (r : rb) : rb := MkRB b (rb_cur r) (rb_len r).
Definition set_cur (c : Z) (r : rb) : rb := MkRB (rb_buf r) c (rb_len r).
Definition set_len (n : Z) (r : rb) : rb := MkRB (rb_buf r) (rb_cur r) n.
Definition rlen (r : rb) : Z := zlen (rb_buf r).

(** ringbuffer.go:111-125 *)
Definition add_rest (val : T) (d : T * bool) : code rb (res (rb_out T)) :=
  Read rb_cur (fun cur => Read rb_buf (fun buf => Try (slice_set buf cur val) (fun buf => Write (set_buf buf)     (* 111 *)
  (Read rb_len (fun n => Read rlen (fun l =>                                                                     (* 114 *)
    let rest := Read rb_cur (fun cur => Write (set_cur (cur + 1))                                                (* 119 *)
                (Read rb_cur (fun cur => Read rlen (fun l =>                                                     (* 120 *)
                   if l <=? cur then Read rb_cur (fun cur => Read rlen (fun l => Write (set_cur (cur - l)) (Ret (Ok (RAdd (fst d) (snd d)))))) (* 121 *)
                   else Ret (Ok (RAdd (fst d) (snd d))))))) in
    if n <? l then Read rb_len (fun n => Write (set_len (n + 1)) rest) else rest)))))).                          (* 115 *)
(** ringbuffer.go:95-126 *)
Definition add_code (val : T) : code rb (res (rb_out T)) :=
  Read rlen (fun l => if l <=? 0 then Ret (Ok (RAdd zero false))                                                 (* 100-103 *)
    else Read rb_len (fun n => Read rlen (fun l =>                                                               (* 106 *)
      if l <=? n then Read rb_cur (fun cur => Read rb_buf (fun buf => Try (slice_get buf cur) (fun d => add_rest val (d, true)))) (* 107 *)
      else add_rest val (zero, false)))).

(** ringbuffer.go:57-60, 70-73; the old buffer is a field *)
Definition back_code (rdcur : Z) (k : Z -> code rb (res (rb_out T))) : code rb (res (rb_out T)) :=
  if rdcur - 1 <? 0 then Read rlen (fun l => k (rdcur - 1 + l)) else k (rdcur - 1).
(** ringbuffer.go:54-63; buf is a local variable *)
Fixpoint copy_code (n : nat) (buf : list T) (rdcur : Z) (k : list T -> Z -> code rb (res (rb_out T))) : code rb (res (rb_out T)) :=
  match n with
  | O => k buf rdcur
  | S wrcur => Read rb_buf (fun old => Try (slice_get old rdcur) (fun v => Try (slice_set buf (Z.of_nat wrcur) v) (fun buf =>
                 back_code rdcur (fun rdcur => copy_code wrcur buf rdcur k))))
  end.
(** ringbuffer.go:67-74.  The number of iterations is fixed when the loop begins. *)
Fixpoint drop_code (n : nat) (rdcur : Z) (dropped : list T) (k : list T -> code rb (res (rb_out T))) : code rb (res (rb_out T)) :=
  match n with
  | O => k dropped
  | S n => Read rb_buf (fun old => Try (slice_get old rdcur) (fun v => back_code rdcur (fun rdcur => drop_code n rdcur (dropped ++ [v]) k)))
  end.
(** ringbuffer.go:26-90 *)
Definition resize_code (cap : Z) : code rb (res (rb_out T)) :=
  if cap <=? 0 then Ret (Ok (RResize []))                                                                        (* 28-30, before Lock *)
  else Read rb_len (fun fill => let fill := if cap <? fill then cap else fill in                                 (* 36-39 *)
    Read rb_cur (fun rdcur => let rdcur := rdcur - 1 in                                                          (* 42 *)
    let go := fun rdcur =>
      Try (go_make zero cap) (fun buf => copy_code (Z.to_nat fill) buf rdcur (fun buf rdcur =>                   (* 50-63 *)
      Read rb_len (fun n => drop_code (Z.to_nat (n - cap)) rdcur [] (fun dropped =>                              (* 67-74 *)
      let cur := if cap <=? fill then fill - cap else fill in                                                    (* 78-81 *)
      Write (set_buf buf) (Write (set_cur cur) (Write (set_len fill) (Ret (Ok (RResize dropped))))))))) in       (* 84-89 *)
    if rdcur <? 0 then Read rb_len (fun n => go (rdcur + n)) else go rdcur)).                                    (* 43-45 *)

(** ringbuffer.go:131-152, the callback collects; the number of iterations is fixed when the
    loop begins *)
Fixpoint walk_code (n : nat) (i : Z) (seen : list T) : code rb (res (rb_out T)) :=
  match n with
  | O => Ret (Ok (RWalk seen))
  | S n => Read rb_cur (fun cur => let cur := cur - 1 - i in
           let go := fun cur => Read rb_buf (fun buf => Try (slice_get buf cur) (fun v => walk_code n (i + 1) (seen ++ [v]))) in
           if cur <? 0 then Read rlen (fun l => go (cur + l)) else go cur)
  end.
(** ringbuffer.go:156-180 *)
Definition stats_code : code rb (res (rb_out T)) :=
  Read rb_len (fun n => if n =? 0 then Ret (Ok (RStats zero zero 0))
  else Read rb_cur (fun cur => let headidx := cur - 1 in
    let go := fun headidx => Read rb_len (fun n => let tailidx := headidx - n + 1 in
      let go := fun tailidx => Read rb_buf (fun buf => Try (slice_get buf headidx) (fun newest => Read rb_buf (fun buf => Try (slice_get buf tailidx) (fun oldest =>
                  Read rb_len (fun n => Ret (Ok (RStats newest oldest n))))))) in
      if tailidx <? 0 then Read rlen (fun l => go (tailidx + l)) else go tailidx) in
    if headidx <? 0 then Read rlen (fun l => go (headidx + l)) else go headidx)).
Definition ring_code (o : rb_op T) : code rb (res (rb_out T)) :=
  match o with
  | OAdd x => add_code x
  | OResize c => resize_code c
  | OWalk => Read rb_len (fun n => walk_code (Z.to_nat n) 0 [])
  | OStats => stats_code
  end.
End Ring.

Section Trace.
Context {arg world pc : Type}.
Variable Sprintf : world -> string -> list arg -> string.
Variable CallersFrames : list pc -> list rframe.
Notation env := (env arg world pc).
Notation coreTrace := (coreTrace arg pc).

Definition set_errored (b : bool) (c : coreTrace) : coreTrace :=
  MkCT (ct_source c) (ct_id c) (ct_category c) (ct_start c) b (ct_finished c) (ct_duration c) (ct_nostack c) (ct_events c) (ct_eventsmax c) (ct_truncated c).
Definition set_finished (b : bool) (c : coreTrace) : coreTrace :=
  MkCT (ct_source c) (ct_id c) (ct_category c) (ct_start c) (ct_errored c) b (ct_duration c) (ct_nostack c) (ct_events c) (ct_eventsmax c) (ct_truncated c).
Definition set_duration (d : Z) (c : coreTrace) : coreTrace :=
  MkCT (ct_source c) (ct_id c) (ct_category c) (ct_start c) (ct_errored c) (ct_finished c) d (ct_nostack c) (ct_events c) (ct_eventsmax c) (ct_truncated c).
Definition set_events (l : list (coreEvent arg pc)) (c : coreTrace) : coreTrace :=
  MkCT (ct_source c) (ct_id c) (ct_category c) (ct_start c) (ct_errored c) (ct_finished c) (ct_duration c) (ct_nostack c) l (ct_eventsmax c) (ct_truncated c).
Definition set_eventsmax (n : Z) (c : coreTrace) : coreTrace :=
  MkCT (ct_source c) (ct_id c) (ct_category c) (ct_start c) (ct_errored c) (ct_finished c) (ct_duration c) (ct_nostack c) (ct_events c) n (ct_truncated c).
Definition set_truncated (n : Z) (c : coreTrace) : coreTrace :=
  MkCT (ct_source c) (ct_id c) (ct_category c) (ct_start c) (ct_errored c) (ct_finished c) (ct_duration c) (ct_nostack c) (ct_events c) (ct_eventsmax c) n.

(** trace_core.go:172-177 (188-193, 206-211, 224-229) *)
Definition switch_code (e : env) (lazy iserr : bool) (format : string) (args : list arg) : code coreTrace (list Event) :=
  Read (fun c => zlen (ct_events c)) (fun l => Read ct_eventsmax (fun n =>
    if n <=? l then Read ct_truncated (fun t => Write (set_truncated (t + 1)) (Ret []))
    else Read ct_nostack (fun ns => let ev := newCoreEvent Sprintf e lazy iserr ns format args in
         Read ct_events (fun evs => Write (set_events (evs ++ [ev])) (Ret []))))).
(** trace_core.go:164-230 *)
Definition log_code (e : env) (k : kind) (format : string) (args : list arg) : code coreTrace (list Event) :=
  Read ct_finished (fun b => if b then Ret []
    else if is_error_kind k then Write (set_errored true) (switch_code e (is_lazy_kind k) true format args)
         else switch_code e (is_lazy_kind k) false format args).
(** trace_core.go:232-242 *)
Definition finish_code (e : env) : code coreTrace (list Event) :=
  Read ct_finished (fun b => if b then Ret []
    else Write (set_finished true) (Read ct_start (fun start => Write (set_duration (e_now e - start)) (Ret [])))).
(** trace_core.go:288-300 *)
Definition setmax_code (max : Z) : code coreTrace (list Event) :=
  if max <? traceMaxEventsMin then Write (set_eventsmax traceMaxEventsMin) (Ret [])
  else if traceMaxEventsMax <? max then Write (set_eventsmax traceMaxEventsMax) (Ret [])
  else Write (set_eventsmax max) (Ret []).
(** trace_core.go:409-424: one event at a time, starting at index i; reading an event caches
    its text and stack in it *)
Fixpoint snapshot_code (e : env) (stacks : bool) (n : nat) (i : nat) (acc : list Event) (k : list Event -> code coreTrace (list Event))
  : code coreTrace (list Event) :=
  match n with
  | O => k acc
  | S n => Do (fun c => match nth_error (ct_events c) i with
                        | Some ce => set_events (update i (fst (snapshotEvent Sprintf CallersFrames (e_world e) ce stacks)) (ct_events c)) c
                        | None => c
                        end)
              (fun c => match nth_error (ct_events c) i with
                        | Some ce => snapshot_code e stacks n (S i) (acc ++ [snd (snapshotEvent Sprintf CallersFrames (e_world e) ce stacks)]) k
                        | None => snapshot_code e stacks n (S i) acc k
                        end)
  end.
(** trace_core.go:262-284 *)
Definition events_code (e : env) (n : Z) (stacks : bool) : code coreTrace (list Event) :=
  Read (fun c => zlen (ct_events c)) (fun len =>
  let n := if (n <=? 0) || (len <? n) then len else n in
  snapshot_code e stacks (Z.to_nat n) (Z.to_nat (len - n)) [] (fun events =>
  Read ct_truncated (fun t => if 0 <? t then Ret (tl (events ++ [truncated_event (e_now e) t])) else Ret events))).
Definition trace_code (x : env * call arg) : code coreTrace (list Event) :=
  match snd x with
  | CallLog k f a => log_code (fst x) k f a
  | CallFinish => finish_code (fst x)
  | CallSetMaxEvents n => setmax_code n
  | CallEvents n s => events_code (fst x) n s
  end.
End Trace.

(** C06-C11, C13-C15: one trace, used by one goroutine at a time (C50 shows why
    that is enough for several). *)
From Coq Require Import Sorted.
From Verif Require Import Go L_List M_Strings M_Types S_Trace M_Trace S_TraceView L_Trace D_Demo.
Open Scope string_scope.
Open Scope list_scope.
Open Scope Z_scope.

(** C06.  Event calls and Finish on a finished trace change nothing at all... *)
Theorem C06_writes_after_finish_change_nothing :
  forall (arg world pc : Type) (Sprintf : world -> string -> list arg -> string)
         (CallersFrames : list pc -> list rframe) (h : history arg (env arg world pc)) (tr : coreTrace arg pc),
    Finished tr = true -> Forall (fun c => is_write c = true) h ->
    run Sprintf CallersFrames h tr = tr.
Proof. exact (@run_write_finished). Qed.
Print Assumptions C06_writes_after_finish_change_nothing.

(** ... and whatever is called on it (also reads and SetMaxEvents), all observers
    keep their values, and Events shows the same texts, stacks and flags; the
    very same events if none was truncated. *)
Theorem C06_observers_frozen :
  forall (arg world pc : Type) (Sprintf : world -> string -> list arg -> string)
         (CallersFrames : list pc -> list rframe) (h : history arg (env arg world pc)) (tr : coreTrace arg pc),
    Finished tr = true ->
    let tr' := run Sprintf CallersFrames h tr in
    Finished tr' = true /\ Errored tr' = Errored tr /\ (forall t t', Duration t tr' = Duration t' tr) /\
    ID tr' = ID tr /\ Source tr' = Source tr /\ Category tr' = Category tr /\ Started tr' = Started tr.
Proof.
  intros arg world pc Sp CF h tr Hf tr'.
  destruct (run_finished_fields Sp CF h tr Hf) as (A & B & C & _), (run_const Sp CF h tr) as (D & E & F & G & _).
  repeat split; try assumption. intros t t'. unfold Duration, tr'. rewrite A, C. unfold Finished in Hf. rewrite Hf. reflexivity.
Qed.
Print Assumptions C06_observers_frozen.

Theorem C06_events_frozen :
  forall (arg world pc : Type) (Sprintf : world -> string -> list arg -> string)
         (CallersFrames : list pc -> list rframe) (e1 e2 : env arg world pc)
         (h : history arg (env arg world pc)) (tr : coreTrace arg pc),
    Finished tr = true ->
    let '(tr1, ev1) := Events Sprintf CallersFrames e1 tr in
    let '(_, ev2) := Events Sprintf CallersFrames e2 (run Sprintf CallersFrames h tr1) in
    map (fun ev => (What ev, Stack ev, IsError ev)) ev1 = map (fun ev => (What ev, Stack ev, IsError ev)) ev2 /\
    (ct_truncated tr = 0 -> ev1 = ev2).
Proof. exact (@reads_stable_after_finish). Qed.
Print Assumptions C06_events_frozen.

(** Finding: the time of the truncation marker is the time of the read. *)
Theorem C06_marker_time_refuted :
  exists (tr : coreTrace nat Z) (e1 e2 : env nat demo_world Z),
    tr = run demo_Sprintf demo_frames (demo_logs 12 101 ++ [(demo_e 120, CallFinish)]) (demo_new 10) /\
    Finished tr = true /\
    snd (Events demo_Sprintf demo_frames e1 tr) <> snd (Events demo_Sprintf demo_frames e2 tr).
Proof.
  eexists. exists (demo_e 130), (demo_e 140). split; [reflexivity|]. split; [vm_compute; reflexivity|].
  intros H. apply (f_equal (fun l => match rev l with ev :: _ => When ev | [] => 0 end)) in H.
  vm_compute in H. discriminate.
Qed.
Print Assumptions C06_marker_time_refuted.

Example C06_instance :
  let tr := run demo_Sprintf demo_frames (demo_logs 2 101 ++ [(demo_e 110, CallFinish)]) (demo_new 10) in
  Finished tr = true /\ ct_truncated tr = 0 /\ Duration 500 tr = 10 /\
  map What (snd (Events demo_Sprintf demo_frames (demo_e 200) tr)) = ["e101"; "e102"].
Proof. vm_compute. auto. Qed.

(** C07.  Errored reports whether an error call precedes the first Finish. *)
Theorem C07_errored_iff_error_call_before_finish :
  forall (arg world pc : Type) (Sprintf : world -> string -> list arg -> string)
         (CallersFrames : list pc -> list rframe) g now id (pooled : coreTrace arg pc) source category
         (h : history arg (env arg world pc)),
    Errored (run Sprintf CallersFrames h (newCoreTrace g now id pooled source category)) =
    existsb is_error_log (before_finish h).
Proof. intros. rewrite errored_spec_gen; reflexivity. Qed.
Print Assumptions C07_errored_iff_error_call_before_finish.

Theorem C07_finished_iff_finish_called :
  forall (arg world pc : Type) (Sprintf : world -> string -> list arg -> string)
         (CallersFrames : list pc -> list rframe) g now id (pooled : coreTrace arg pc) source category
         (h : history arg (env arg world pc)),
    Finished (run Sprintf CallersFrames h (newCoreTrace g now id pooled source category)) = existsb is_finish h.
Proof. intros. apply finished_spec_gen. reflexivity. Qed.
Print Assumptions C07_finished_iff_finish_called.

(** An error whose event is dropped still counts; an error after Finish does not. *)
Example C07_instance :
  let full := demo_logs 10 101 ++ [demo_log 150 KErrorf "bad"] in
  let late := [(demo_e 101, CallFinish); demo_log 102 KLazyErrorf "late"] in
  Errored (run demo_Sprintf demo_frames full (demo_new 10)) = true /\
  existsb IsError (snd (Events demo_Sprintf demo_frames (demo_e 200) (run demo_Sprintf demo_frames full (demo_new 10)))) = false /\
  Errored (run demo_Sprintf demo_frames late (demo_new 10)) = false.
Proof. vm_compute. auto. Qed.

(** C08.  With an unchanged limit M the stored events are the first M calls before
    Finish, with their times, formats, arguments and error flags, and the rest is
    counted. *)
Theorem C08_first_M_events_stored :
  forall (arg world pc : Type) (Sprintf : world -> string -> list arg -> string)
         (CallersFrames : list pc -> list rframe) g now id (pooled : coreTrace arg pc) source category
         (h : history arg (env arg world pc)),
    Forall (fun c => is_setmax c = false) h ->
    let M := Z.to_nat (g_maxEvents g) in
    let tr := run Sprintf CallersFrames h (newCoreTrace g now id pooled source category) in
    map ev_info (ct_events tr) = map call_info (firstn M (logs h)) /\
    ct_truncated tr = zlen (skipn M (logs h)) /\
    zlen (ct_events tr) + ct_truncated tr = zlen (logs h).
Proof.
  intros arg world pc Sp CF g now id pooled source category h Hs M tr.
  destruct (stored_first_M Sp CF h (newCoreTrace g now id pooled source category)) as [H1 H2]; [apply fresh_new|exact Hs|].
  fold tr in H1, H2. cbn [ct_eventsmax newCoreTrace] in H1, H2. fold M in H1, H2.
  split; [exact H1|]. split; [exact H2|]. rewrite H2.
  apply (f_equal (@length _)) in H1. rewrite !map_length in H1. unfold zlen. rewrite H1.
  rewrite <- (firstn_skipn M (logs h)) at 3. rewrite app_length. apply eq_sym, Nat2Z.inj_add.
Qed.
Print Assumptions C08_first_M_events_stored.

(** With SetMaxEvents calls in between: [stored] keeps a call iff fewer events than
    the limit in force are stored; an in-order subsequence of the calls. *)
Theorem C08_stored_with_changing_limit :
  forall (arg world pc : Type) (Sprintf : world -> string -> list arg -> string)
         (CallersFrames : list pc -> list rframe) g now id (pooled : coreTrace arg pc) source category
         (h : history arg (env arg world pc)),
    let tr := run Sprintf CallersFrames h (newCoreTrace g now id pooled source category) in
    map ev_info (ct_events tr) = map call_info (stored (g_maxEvents g) h) /\
    zlen (ct_events tr) + ct_truncated tr = zlen (logs h) /\
    subseq (stored (g_maxEvents g) h) (logs h).
Proof.
  intros arg world pc Sp CF g now id pooled source category h tr.
  destruct (stored_with_setmax Sp CF h (newCoreTrace g now id pooled source category)) as [H1 H2]; [apply fresh_new|].
  fold tr in H1, H2. cbn [ct_eventsmax newCoreTrace] in H1, H2.
  split; [exact H1|]. split; [|apply stored_subseq].
  rewrite H2. apply (f_equal (@length _)) in H1. rewrite !map_length in H1. unfold zlen. rewrite H1.
  apply Zplus_minus.
Qed.
Print Assumptions C08_stored_with_changing_limit.

Example C08_instance :
  let h := (demo_logs 11 101 ++ [(demo_e 120, CallSetMaxEvents 12)] ++ demo_logs 3 121 ++
            [(demo_e 130, CallFinish)] ++ demo_logs 5 131)%list in
  map (fun x => fst (fst (fst x))) (map call_info (stored 10 h)) =
    [101; 102; 103; 104; 105; 106; 107; 108; 109; 110; 121; 122] /\
  length (logs h) = 14%nat /\ ct_truncated (run demo_Sprintf demo_frames h (demo_new 10)) = 2.
Proof. vm_compute. auto. Qed.

(** C09.  The result of Events, for a history without SetMaxEvents and reads... *)
Theorem C09_events_of_truncated_trace :
  forall (arg world pc : Type) (Sprintf : world -> string -> list arg -> string)
         (CallersFrames : list pc -> list rframe) g now id (pooled : coreTrace arg pc) source category
         (h : history arg (env arg world pc)) (e : env arg world pc),
    1 <= g_maxEvents g ->
    Forall (fun c => is_setmax c = false) h -> Forall (fun c => is_read c = false) h ->
    let M := Z.to_nat (g_maxEvents g) in
    let shown := map (rendered Sprintf CallersFrames e (g_noStacks g)) (firstn M (logs h)) in
    snd (Events Sprintf CallersFrames e (run Sprintf CallersFrames h (newCoreTrace g now id pooled source category))) =
    if (length (logs h) <=? M)%nat then shown
    else (tl shown ++ [MkEvent (e_now e)
                        ("(truncated event count " ++ itoa (zlen (logs h) - g_maxEvents g) ++ ")")%string [] false])%list.
Proof.
  intros arg world pc Sp CF g now id pooled source category h e HM Hs Hr.
  exact (events_of_history Sp CF (newCoreTrace g now id pooled source category) h e (fresh_new _ _ _ _ _ _) HM Hs Hr).
Qed.
Print Assumptions C09_events_of_truncated_trace.

(** ... and for every history: the stored events (without the oldest if T > 0 calls
    were truncated), then the marker if T > 0. *)
Theorem C09_events_of_any_history :
  forall (arg world pc : Type) (Sprintf : world -> string -> list arg -> string)
         (CallersFrames : list pc -> list rframe) g now id (pooled : coreTrace arg pc) source category
         (h : history arg (env arg world pc)) (e : env arg world pc),
    1 <= g_maxEvents g ->
    let S := stored (g_maxEvents g) h in
    let T := zlen (logs h) - zlen S in
    exists real,
      snd (Events Sprintf CallersFrames e (run Sprintf CallersFrames h (newCoreTrace g now id pooled source category))) =
      (real ++ if 0 <? T then [truncated_event (e_now e) T] else [])%list /\
      map (fun ev => (When ev, IsError ev)) real =
      map (fun c => (e_now (fst c), is_error_log c)) (if 0 <? T then tl S else S).
Proof.
  intros arg world pc Sp CF g now id pooled source category h e HM.
  exact (events_any_history Sp CF (newCoreTrace g now id pooled source category) h e (fresh_new _ _ _ _ _ _) HM).
Qed.
Print Assumptions C09_events_of_any_history.

(** Finding: shown events plus the marker's count is one less than the calls. *)
Theorem C09_marker_counts_all_hidden_events_refuted :
  exists h : history nat (env nat demo_world Z),
    let evs := snd (Events demo_Sprintf demo_frames (demo_e 200) (run demo_Sprintf demo_frames h (demo_new 10))) in
    length (logs h) = 12%nat /\
    map What evs = ["e102"; "e103"; "e104"; "e105"; "e106"; "e107"; "e108"; "e109"; "e110"; "(truncated event count 2)"].
Proof. exists (demo_logs 12 101). vm_compute. auto. Qed.
Print Assumptions C09_marker_counts_all_hidden_events_refuted.

(** Finding: after raising the limit the marker follows events that are later than
    the truncated ones. *)
Theorem C09_marker_after_truncation_point_refuted :
  exists h : history nat (env nat demo_world Z),
    let evs := snd (Events demo_Sprintf demo_frames (demo_e 200) (run demo_Sprintf demo_frames h (demo_new 10))) in
    h = (demo_logs 11 101 ++ [(demo_e 112, CallSetMaxEvents 20)] ++ demo_logs 2 113)%list /\
    map What evs = ["e102"; "e103"; "e104"; "e105"; "e106"; "e107"; "e108"; "e109"; "e110"; "e113"; "e114";
                    "(truncated event count 1)"].
Proof. eexists. split; [reflexivity|]. vm_compute. auto. Qed.
Print Assumptions C09_marker_after_truncation_point_refuted.

(** C10. *)
Theorem C10_duration :
  forall (arg world pc : Type) (Sprintf : world -> string -> list arg -> string)
         (CallersFrames : list pc -> list rframe) g start id (pooled : coreTrace arg pc) source category
         (h : history arg (env arg world pc)) (now : Z),
    Duration now (run Sprintf CallersFrames h (newCoreTrace g start id pooled source category)) =
    match first_finish h with Some e => e_now e | None => now end - start.
Proof. intros. rewrite duration_spec_gen; reflexivity. Qed.
Print Assumptions C10_duration.

Theorem C10_durations_grow :
  forall (arg world pc : Type) (Sprintf : world -> string -> list arg -> string)
         (CallersFrames : list pc -> list rframe) g start id (pooled : coreTrace arg pc) source category
         (h1 h2 : history arg (env arg world pc)) (now1 now2 : Z),
    StronglySorted Z.le ([start] ++ times h1 ++ [now1] ++ times h2 ++ [now2]) ->
    let tr := newCoreTrace g start id pooled source category in
    0 <= Duration now1 (run Sprintf CallersFrames h1 tr)
      <= Duration now2 (run Sprintf CallersFrames (h1 ++ h2) tr).
Proof. intros. apply durations_monotone; [reflexivity|assumption]. Qed.
Print Assumptions C10_durations_grow.

Example C10_instance :
  let h1 := demo_logs 2 101 in let h2 := [(demo_e 110, CallFinish); (demo_e 120, CallFinish)] in
  StronglySorted Z.le ([100] ++ times h1 ++ [105] ++ times h2 ++ [130])%list /\
  Duration 105 (run demo_Sprintf demo_frames h1 (demo_new 10)) = 5 /\
  Duration 130 (run demo_Sprintf demo_frames (h1 ++ h2) (demo_new 10)) = 10.
Proof.
  split; [|vm_compute; auto].
  repeat (constructor; [|repeat (constructor; [vm_compute; discriminate|]); constructor]). constructor.
Qed.

(** C11.  Eager: every read that shows the event shows the text of the time of the
    call.  [position] says where a read shows the i-th stored event. *)
Theorem C11_eager_text_fixed_at_call :
  forall (arg world pc : Type) (Sprintf : world -> string -> list arg -> string)
         (CallersFrames : list pc -> list rframe) (tr0 : coreTrace arg pc)
         (h1 : history arg (env arg world pc)) e k f a (h2 : history arg (env arg world pc)) er n s p,
    is_lazy_kind k = false ->
    Finished (run Sprintf CallersFrames h1 tr0) = false ->
    zlen (ct_events (run Sprintf CallersFrames h1 tr0)) < ct_eventsmax (run Sprintf CallersFrames h1 tr0) ->
    let i := length (ct_events (run Sprintf CallersFrames h1 tr0)) in
    let tr := run Sprintf CallersFrames (h1 ++ (e, CallLog k f a) :: h2) tr0 in
    position n (zlen (ct_events tr)) (ct_truncated tr) i = Some p ->
    exists ev, nth_error (snd (EventsDetail Sprintf CallersFrames er n s tr)) p = Some ev /\
               What ev = Sprintf (e_world e) f a /\ When ev = e_now e /\ IsError ev = is_error_kind k.
Proof. exact (@eager_text). Qed.
Print Assumptions C11_eager_text_fixed_at_call.

(** Lazy: the text of the first read that looks at the event, then the same text
    at every later read. *)
Theorem C11_lazy_text_fixed_at_first_read :
  forall (arg world pc : Type) (Sprintf : world -> string -> list arg -> string)
         (CallersFrames : list pc -> list rframe) (tr0 : coreTrace arg pc)
         (h1 : history arg (env arg world pc)) e k f a (h2 : history arg (env arg world pc)) er n s
         (h3 : history arg (env arg world pc)) er' n' s',
    is_lazy_kind k = true ->
    Finished (run Sprintf CallersFrames h1 tr0) = false ->
    zlen (ct_events (run Sprintf CallersFrames h1 tr0)) < ct_eventsmax (run Sprintf CallersFrames h1 tr0) ->
    let i := length (ct_events (run Sprintf CallersFrames h1 tr0)) in
    let tr := run Sprintf CallersFrames (h1 ++ (e, CallLog k f a) :: h2) tr0 in
    (* no read in h2 looks at the event, the read (er, n, s) does *)
    (forall ha e0 n0 s0 hb, h2 = (ha ++ (e0, CallEvents n0 s0) :: hb)%list ->
       includes n0 (zlen (ct_events (run Sprintf CallersFrames (h1 ++ (e, CallLog k f a) :: ha) tr0))) i = false) ->
    includes n (zlen (ct_events tr)) i = true ->
    let tr' := run Sprintf CallersFrames h3 (fst (EventsDetail Sprintf CallersFrames er n s tr)) in
    (forall p, position n (zlen (ct_events tr)) (ct_truncated tr) i = Some p ->
       exists ev, nth_error (snd (EventsDetail Sprintf CallersFrames er n s tr)) p = Some ev /\
                  What ev = Sprintf (e_world er) f a) /\
    (forall p, position n' (zlen (ct_events tr')) (ct_truncated tr') i = Some p ->
       exists ev, nth_error (snd (EventsDetail Sprintf CallersFrames er' n' s' tr')) p = Some ev /\
                  What ev = Sprintf (e_world er) f a).
Proof. exact (@lazy_text). Qed.
Print Assumptions C11_lazy_text_fixed_at_first_read.

Example C11_instance :
  let log k t := (demo_env t demo_w0 [], CallLog k "v=" [3%nat]) in
  let tr := run demo_Sprintf demo_frames [log KTracef 101; log KLazyTracef 102] (demo_new 10) in
  let '(tr1, evs1) := Events demo_Sprintf demo_frames (demo_env 103 demo_w1 []) tr in
  let '(_, evs2) := Events demo_Sprintf demo_frames (demo_env 104 demo_w0 []) tr1 in
  map What evs1 = ["v=old"; "v=new"] /\ map What evs2 = ["v=old"; "v=new"].
Proof. vm_compute. auto. Qed.

(** C13.  The limits of all traces, after any sequence of creations and limit
    changes, are those of the specification [limits]... *)
Theorem C13_limits :
  forall (arg pc : Type) (now : nat -> Z) (ids : nat -> string) (pooled : nat -> coreTrace arg pc)
         (ops : list proc_op),
    let p := proc_run now ids pooled ops in
    (g_maxEvents (p_globals p), map ct_eventsmax (p_traces p)) = limits ops.
Proof. intros. apply proc_limits. Qed.
Print Assumptions C13_limits.

(** ... and a trace is not touched at all by limit changes elsewhere. *)
Theorem C13_other_traces_untouched :
  forall (arg pc : Type) (now : nat -> Z) (ids : nat -> string) (pooled : nat -> coreTrace arg pc)
         (p : proc arg pc) (o : proc_op) (j : nat) (tr : coreTrace arg pc),
    nth_error (p_traces p) j = Some tr ->
    (forall n, o <> PSetMaxEvents j n) ->
    nth_error (p_traces (proc_step now ids pooled p o)) j = Some tr.
Proof. exact (@proc_step_frame). Qed.
Print Assumptions C13_other_traces_untouched.

Example C13_instance :
  limits [PNew "s" "a"; PSetTraceMaxEvents 3; PNew "s" "b"; PSetMaxEvents 0 20000; PSetTraceMaxEvents 77;
          PNew "s" "c"; PSetMaxEvents 9 50] = (77, [10000; 10; 77]).
Proof. reflexivity. Qed.

(** C14.  Every read that shows the event (and asks for stacks) shows
    [reported_stack]... *)
Theorem C14_reported_stack :
  forall (arg world pc : Type) (Sprintf : world -> string -> list arg -> string)
         (CallersFrames : list pc -> list rframe) (tr0 : coreTrace arg pc)
         (h1 : history arg (env arg world pc)) e k f a (h2 : history arg (env arg world pc)) er n s p,
    Finished (run Sprintf CallersFrames h1 tr0) = false ->
    zlen (ct_events (run Sprintf CallersFrames h1 tr0)) < ct_eventsmax (run Sprintf CallersFrames h1 tr0) ->
    let i := length (ct_events (run Sprintf CallersFrames h1 tr0)) in
    let tr := run Sprintf CallersFrames (h1 ++ (e, CallLog k f a) :: h2) tr0 in
    position n (zlen (ct_events tr)) (ct_truncated tr) i = Some p ->
    exists ev, nth_error (snd (EventsDetail Sprintf CallersFrames er n s tr)) p = Some ev /\
               Stack ev = if s then reported_stack CallersFrames (ct_nostack tr0) (e_pcs e) else [].
Proof. exact (@event_stack). Qed.
Print Assumptions C14_reported_stack.

(** ... where the frames left out as trc's own are these... *)
Theorem C14_own_frames :
  forall f, ignoreStackFrameFunction f = true <-> own_frame f.
Proof. exact ignore_iff. Qed.
Print Assumptions C14_own_frames.

(** ... and (finding) the last captured frame never appears: a capture of a single
    foreign frame reports nothing. *)
Theorem C14_last_frame_reported_refuted :
  exists pcs : list Z, length (demo_frames pcs) = 1%nat /\
    Forall (fun fr => ~ own_frame (rf_Function fr)) (demo_frames pcs) /\
    reported_stack demo_frames false pcs = [].
Proof.
  exists [5]. split; [reflexivity|]. split; [|vm_compute; reflexivity].
  constructor; [|constructor]. intros H. apply ignore_iff in H. vm_compute in H. discriminate.
Qed.
Print Assumptions C14_last_frame_reported_refuted.

Example C14_instance :
  map Function (reported_stack demo_frames false [0; 1; 2; 3; 4; 5; 6; 7; 8; 9]) =
    ["main.f1"; "main.f2"; "main.f3"; "main.f4"; "main.f5"; "main.f6"] /\
  reported_stack demo_frames true [0; 1; 2] = [].
Proof. vm_compute. auto. Qed.

(** C15.  New does not depend on the pooled object, and neither does anything that
    happens later depend on the pooled events and stringers: two histories that
    differ only in what the pools handed out give the same trace. *)
Theorem C15_new_trace_is_pristine :
  forall (arg pc : Type) g now id (pooled pooled' : coreTrace arg pc) source category,
    let tr := newCoreTrace g now id pooled source category in
    tr = newCoreTrace g now id pooled' source category /\
    ct_events tr = [] /\ Errored tr = false /\ Finished tr = false /\ ct_truncated tr = 0 /\
    ct_eventsmax tr = g_maxEvents g /\ ct_nostack tr = g_noStacks g /\
    ID tr = id /\ Source tr = source /\ Category tr = category /\ Started tr = now.
Proof. intros. repeat split. Qed.
Print Assumptions C15_new_trace_is_pristine.

Theorem C15_pooled_objects_do_not_matter :
  forall (arg world pc : Type) (Sprintf : world -> string -> list arg -> string)
         (CallersFrames : list pc -> list rframe) g now id (pooled : coreTrace arg pc) source category
         (h h' : history arg (env arg world pc)),
    Forall2 (fun c c' => snd c = snd c' /\ e_now (fst c) = e_now (fst c') /\
                         e_world (fst c) = e_world (fst c') /\ e_pcs (fst c) = e_pcs (fst c')) h h' ->
    run Sprintf CallersFrames h (newCoreTrace g now id pooled source category) =
    run Sprintf CallersFrames h' (newCoreTrace g now id pooled source category).
Proof. intros. apply run_pools. assumption. Qed.
Print Assumptions C15_pooled_objects_do_not_matter.

Example C15_instance :
  ct_events demo_dirty <> [] /\ Errored demo_dirty = true /\ ct_truncated demo_dirty = 5 /\
  Started (demo_new 10) = 100 /\
  newCoreTrace (MkGlobals 10 false) 100 "id" (fst (Free demo_dirty)) "src" "cat" = demo_new 10.
Proof. vm_compute. repeat split; discriminate. Qed.

(** C76: what is published about a trace after a call on it. *)
From Verif Require Import Go L_List M_Strings M_Types S_RingBuf S_Trace M_Trace L_Trace M_Mutex M_Steps P_Mutex M_Heap L_Heap S_Heap P_Heap S_System P_Trace P_System D_Demo.
From Coq Require Import Lia.
Open Scope string_scope.
Open Scope list_scope.
Open Scope nat_scope.

(** What a reader sees who has trace n at a moment (decorators.go:130-153, 78-91: Publish and
    the last line of the log read the trace again after the call on it returned). *)
Definition message {arg world pc} (Sprintf : world -> string -> list arg -> string) (CallersFrames : list pc -> list rframe)
           (er : env arg world pc) (m : machine arg world pc) (n : nat) : option StaticTrace :=
  option_map (fun t => seen Sprintf CallersFrames er (trace_value (hm_heap m) t)) (nth_error (hm_handles m) n).

(** As long as nobody finished the trace, what is published about it is what was done through
    it; after Finish, as long as it has not been freed. *)
Theorem C76_message :
  forall (arg world pc : Type) (Sprintf : world -> string -> list arg -> string) (CallersFrames : list pc -> list rframe)
         (programs : list (list (hop arg world pc))) (sched : list nat) m n t er,
    proper Sprintf CallersFrames [] sched (hm_start programs) -> h_run Sprintf CallersFrames sched (hm_start programs) = Ok m ->
    let log := acts Sprintf CallersFrames sched (hm_start programs) in
    nth_error (hm_handles m) n = Some t ->
    existsb is_finish (calls_through n log) = false \/ (owner m t = Some n /\ (In t (in_categories m) \/ In t (with_goroutines m))) ->
    message Sprintf CallersFrames er m n = Some (told Sprintf CallersFrames er log n).
Proof.
  intros arg world pc Sp CF programs sched m n t er P R log Hn Hc.
  destruct (sound_run Sp CF sched [] _ m (inv_start programs) (sound_start Sp CF programs) P R) as [I J]. cbn [app] in J. fold log in J.
  assert (V : exists key, should_be Sp CF log n key (trace_value (hm_heap m) t)).
  { destruct Hc as [U|[U1 U2]].
    - destruct (j_open _ _ _ _ J n t Hn U) as [Q1 Q2]. exact (j_value _ _ _ _ J n t Q1 Q2 (or_introl U)).
    - exact (j_value _ _ _ _ J n t U1 (nodup_apart m t I U2) (or_intror U2)). }
  destruct V as [key V]. unfold message. rewrite Hn. cbn [option_map]. f_equal. exact (seen_told Sp CF er log n key _ V).
Qed.
Print Assumptions C76_message.

(** From the moment a trace is created until it is freed, it keeps its object: so the
    condition after Finish says no more than that nobody dropped the trace and freed it. *)
Theorem C76_owner_until_freed :
  forall (arg world pc : Type) (Sprintf : world -> string -> list arg -> string) (CallersFrames : list pc -> list rframe)
         (programs : list (list (hop arg world pc))) (sched : list nat) m i m1 t g now id src cat later m2,
    h_run Sprintf CallersFrames sched (hm_start programs) = Ok m -> effect_of m i = [Created t g now id src cat] -> h_step Sprintf CallersFrames m i = Ok m1 ->
    h_run Sprintf CallersFrames later m1 = Ok m2 -> Forall (fun x => freed t x = false) (effects Sprintf CallersFrames later m1) ->
    owner m2 t = Some (length (hm_handles m)).
Proof.
  intros arg world pc Sp CF programs sched m i m1 t g now id src cat later m2 R E S R2 F.
  destruct (run_fun Sp CF _ _ _ (inv_start programs) R) as [I _]. pose proof (step_fun Sp CF _ _ _ I S) as SO. pose proof (inv_step Sp CF _ _ _ I SO) as I1.
  destruct (C16_not_reused_before_freed arg world pc Sp CF programs sched m i m1 t g now id src cat later m2 R E S R2 F) as [C _].
  assert (O1 : owner m1 t = Some (length (hm_handles m))).
  { unfold owner. rewrite (so_handles _ _ _ _ _ SO), E. cbn [flat_map app]. rewrite last_index_app, Nat.eqb_refl. reflexivity. }
  rewrite <- O1. clear - I1 R2 C. revert m1 I1 R2 C. induction later as [|j later IH]; intros m1 I1 R2 C; cbn [M_Heap.h_run effects] in *; [injection R2 as <-; reflexivity|].
  destruct (h_step Sp CF m1 j) as [m3|] eqn:E3; [|discriminate]. cbn [bind] in R2. apply Forall_app in C as [C1 C2].
  pose proof (step_fun Sp CF _ _ _ I1 E3) as S3. rewrite (IH m3 (inv_step Sp CF _ _ _ I1 S3) R2 C2). unfold owner. rewrite (so_handles _ _ _ _ _ S3).
  clear - C1. destruct (effect_of_one m1 j) as [E|[x E]]; rewrite E in *; [cbn; rewrite app_nil_r; reflexivity|]. inversion C1 as [|? ? H _]. subst. destruct x as [t' ? ? ? ? ?| |]; cbn [flat_map app]; rewrite ?app_nil_r; try reflexivity.
  rewrite last_index_app. cbn in H. rewrite H. reflexivity.
Qed.
Print Assumptions C76_owner_until_freed.

(** Two goroutines: categories of size 1.  One creates A, logs an error through it and
    finishes it.  The other creates B in the same category and then C in another one. *)
Definition demo_race : list (list (hop nat demo_world Z)) :=
  [[HSetCategorySize 0 1; demo_create "one" "A" None; demo_use 0 (CallLog KErrorf "bad" []); demo_use 0 CallFinish];
   [demo_create "one" "B" None; demo_create "two" "C" (Some 0)]].
Definition demo_before : list nat := repeat 0 6.
Definition demo_after : list nat := repeat 0 6 ++ repeat 1 4.
Ltac properly := vm_compute; repeat (split; [first [exact Logic.I|intros t [= <-]; first [left; reflexivity|right; split; [reflexivity|auto]]]|]); exact Logic.I.
(** If the first goroutine publishes at once, the message about A is right. *)
Example C76_instance :
  exists m, demo_heap demo_before (hm_start demo_race) = Ok m /\ proper demo_Sprintf demo_frames [] demo_before (hm_start demo_race) /\
    nth_error (hm_handles m) 0 = Some 0 /\ owner m 0 = Some 0 /\ In 0 (in_categories m) /\
    option_map (fun s => (TraceID s, TraceCategory s, TraceFinished s, TraceErrored s, map What (TraceEvents s))) (message demo_Sprintf demo_frames (demo_e 120) m 0) =
      Some ("A", "one", true, true, ["bad"]).
Proof.
  eexists. split; [vm_compute; reflexivity|]. split; [properly|]. split; [vm_compute; reflexivity|]. split; [vm_compute; reflexivity|]. split; [vm_compute; auto|]. vm_compute. reflexivity.
Qed.
(** Finding: if the other goroutine gets in between, what is published when A is finished is
    about C: another ID, category, not finished, not errored, without A's events.  Nobody used
    a trace after finishing it: Finish itself does. *)
Theorem C76_recycled_refuted :
  exists m, demo_heap demo_after (hm_start demo_race) = Ok m /\ proper demo_Sprintf demo_frames [] demo_after (hm_start demo_race) /\
    (let log := acts demo_Sprintf demo_frames demo_after (hm_start demo_race) in
     let s := told demo_Sprintf demo_frames (demo_e 120) log 0 in
     (TraceID s, TraceCategory s, TraceFinished s, TraceErrored s, map What (TraceEvents s)) = ("A", "one", true, true, ["bad"])) /\
    option_map (fun s => (TraceID s, TraceCategory s, TraceFinished s, TraceErrored s, map What (TraceEvents s))) (message demo_Sprintf demo_frames (demo_e 120) m 0) =
      Some ("C", "two", false, false, []).
Proof.
  eexists. split; [vm_compute; reflexivity|]. split; [properly|]. split; vm_compute; reflexivity.
Qed.
Print Assumptions C76_recycled_refuted.

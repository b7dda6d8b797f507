(** C50: methods that hold a mutex are atomic. *)
From Verif Require Import Go L_List M_Strings M_Types S_RingBuf M_RingBuf P_RingBuf S_Trace M_Trace L_Trace M_Mutex M_Steps D_Demo.
From Coq Require Import Lia.
Open Scope string_scope.
Open Scope list_scope.
Open Scope Z_scope.

Section Spec.
Context {St R O : Type}.
Variable body : O -> code St R.
(** One operation after the other. *)
Fixpoint serial (s : St) (ops : list O) : St * list R :=
  match ops with
  | [] => (s, [])
  | o :: ops => let (s1, r) := exec (body o) s in let (s2, rs) := serial s1 ops in (s2, r :: rs)
  end.
Definition of_goroutine (i : nat) (l : list (nat * O * R)) : list O := map (fun x => snd (fst x)) (filter (fun x => Nat.eqb (fst (fst x)) i) l).
Definition current (t : thread St R O) : list O := match th_now t with Some (o, _) => [o] | None => [] end.

Lemma serial_snoc s ops o : serial s (ops ++ [o]) =
  let (s1, rs) := serial s ops in let (s2, r) := exec (body o) s1 in (s2, rs ++ [r]).
Proof.
  revert s. induction ops as [|o' ops IH]; intros s; cbn [app serial].
  - destruct (exec (body o) s). reflexivity.
  - destruct (exec (body o') s) as [s1 r]. rewrite IH. destruct (serial s1 ops) as [s2 rs]. destruct (exec (body o) s2). reflexivity.
Qed.
Lemma nth_update_eq {A} i j (x : A) l : nth_error (update i x l) j = if Nat.eqb i j then (if Nat.ltb i (length l) then Some x else None) else nth_error l j.
Proof.
  revert i j. induction l as [|y l IH]; intros [|i] [|j]; cbn; try reflexivity.
  - destruct (Nat.eqb i j); reflexivity.
  - rewrite IH. reflexivity.
Qed.

Record inv (s0 : St) (programs : list (list O)) (m : mutex St R O) : Prop := {
  inv_programs : forall i, match nth_error programs i with
                           | Some p => exists t, nth_error (mu_threads m) i = Some t /\ of_goroutine i (mu_results m) ++ current t ++ th_todo t = p
                           | None => nth_error (mu_threads m) i = None /\ of_goroutine i (mu_results m) = []
                           end;
  inv_holder : forall i t, nth_error (mu_threads m) i = Some t -> th_now t <> None -> mu_holder m = Some i;
  inv_state : match mu_holder m with
              | None => serial s0 (map (fun x => snd (fst x)) (mu_results m)) = (mu_state m, map snd (mu_results m))
              | Some i => exists o c todo s1, nth_error (mu_threads m) i = Some (MkTh (Some (o, c)) todo) /\
                            serial s0 (map (fun x => snd (fst x)) (mu_results m)) = (s1, map snd (mu_results m)) /\
                            exec c (mu_state m) = exec (body o) s1
              end
}.
Lemma inv_step s0 programs m i : inv s0 programs m -> inv s0 programs (mu_step body m i).
Proof.
  intros I. unfold mu_step. destruct (nth_error (mu_threads m) i) as [[now todo]|] eqn:Ei; [|exact I].
  assert (Li : (i < length (mu_threads m))%nat) by (apply nth_error_Some; congruence).
  assert (Lb : Nat.ltb i (length (mu_threads m)) = true) by (apply Nat.ltb_lt; exact Li).
  destruct now as [[o [r|upd k]]|].
  - (* Unlock *)
    pose proof (inv_holder _ _ _ I i _ Ei) as Hh. cbn in Hh. specialize (Hh ltac:(discriminate)).
    pose proof (inv_state _ _ _ I) as Hs. rewrite Hh in Hs. destruct Hs as (o' & c & todo' & s1 & E1 & E2 & E3). rewrite Ei in E1. injection E1 as <- <- <-.
    constructor; cbn [mu_threads mu_results mu_holder mu_state].
    + intros j. pose proof (inv_programs _ _ _ I j) as Hp. unfold of_goroutine. rewrite filter_app, map_app. cbn [filter fst]. rewrite nth_update_eq, Lb.
      destruct (Nat.eqb_spec i j) as [<-|Nj].
      * destruct (nth_error programs i) as [p|]; [|destruct Hp; congruence]. destruct Hp as (t & E & Hp). rewrite Ei in E. injection E as <-.
        eexists. split; [reflexivity|]. cbn [map fst snd current th_now th_todo app] in *. rewrite <- app_assoc. exact Hp.
      * cbn [map]. rewrite app_nil_r. exact Hp.
    + intros j t. rewrite nth_update_eq, Lb. destruct (Nat.eqb_spec i j) as [<-|Nj]; [intros [= <-] H; contradiction|].
      intros Ej Hn. pose proof (inv_holder _ _ _ I j t Ej Hn) as H. congruence.
    + rewrite !map_app. cbn [map fst snd]. rewrite serial_snoc, E2, <- E3. reflexivity.
  - (* a statement *)
    pose proof (inv_holder _ _ _ I i _ Ei) as Hh. cbn in Hh. specialize (Hh ltac:(discriminate)).
    pose proof (inv_state _ _ _ I) as Hs. rewrite Hh in Hs. destruct Hs as (o' & c & todo' & s1 & E1 & E2 & E3). rewrite Ei in E1. injection E1 as <- <- <-.
    constructor; cbn [mu_threads mu_results mu_holder mu_state].
    + intros j. pose proof (inv_programs _ _ _ I j) as Hp. rewrite nth_update_eq, Lb.
      destruct (Nat.eqb_spec i j) as [<-|Nj]; [|exact Hp].
      destruct (nth_error programs i) as [p|]; [|destruct Hp; congruence]. destruct Hp as (t & E & Hp). rewrite Ei in E. injection E as <-.
      eexists. split; [reflexivity|]. exact Hp.
    + intros j t. rewrite nth_update_eq, Lb. destruct (Nat.eqb_spec i j) as [<-|Nj]; [intros _ _; exact Hh|]. apply (inv_holder _ _ _ I).
    + rewrite Hh. exists o, (k (mu_state m)), todo, s1. rewrite nth_update_eq, Lb, Nat.eqb_refl. split; [reflexivity|]. split; [exact E2|]. rewrite <- E3. reflexivity.
  - (* Lock *)
    destruct todo as [|o todo]; [exact I|]. destruct (mu_holder m) as [h|] eqn:Eh; [exact I|].
    pose proof (inv_state _ _ _ I) as Hs. rewrite Eh in Hs.
    constructor; cbn [mu_threads mu_results mu_holder mu_state].
    + intros j. pose proof (inv_programs _ _ _ I j) as Hp. rewrite nth_update_eq, Lb.
      destruct (Nat.eqb_spec i j) as [<-|Nj]; [|exact Hp].
      destruct (nth_error programs i) as [p|]; [|destruct Hp; congruence]. destruct Hp as (t & E & Hp). rewrite Ei in E. injection E as <-.
      eexists. split; [reflexivity|]. exact Hp.
    + intros j t. rewrite nth_update_eq, Lb. destruct (Nat.eqb_spec i j) as [<-|Nj]; [intros _ _; reflexivity|].
      intros Ej Hn. pose proof (inv_holder _ _ _ I j t Ej Hn) as H. congruence.
    + exists o, (body o), todo, (mu_state m). rewrite nth_update_eq, Lb, Nat.eqb_refl. split; [reflexivity|]. split; [exact Hs|reflexivity].
Qed.
Lemma inv_run s0 programs sched : inv s0 programs (mu_run body sched (mu_start s0 programs)).
Proof.
  assert (G : forall m, inv s0 programs m -> inv s0 programs (mu_run body sched m)).
  { induction sched as [|i sched IH]; intros m H; [exact H|]. cbn. apply IH. apply inv_step. exact H. }
  apply G. constructor; cbn.
  - intros i. rewrite nth_error_map. destruct (nth_error programs i) as [p|]; cbn; [|auto]. eexists. split; [reflexivity|]. reflexivity.
  - intros i t E. rewrite nth_error_map in E. destruct (nth_error programs i); [|discriminate]. injection E as <-. intros H. contradiction.
  - reflexivity.
Qed.

(** C50.  Whatever the goroutines do and however their statements interleave: the results, in
    the order in which the operations released the lock, are those of running the operations
    one after the other; each goroutine's operations are in its own order; and whenever
    nobody holds the lock, the state is that of running them one after the other, too.  (While
    somebody holds it, finishing that operation alone leads there.) *)
Theorem C50_atomic :
  forall (s0 : St) programs sched,
    let m := mu_run body sched (mu_start s0 programs) in
    let order := map (fun x => snd (fst x)) (mu_results m) in
    snd (serial s0 order) = map snd (mu_results m) /\
    (forall i p, nth_error programs i = Some p -> exists rest, of_goroutine i (mu_results m) ++ rest = p) /\
    match mu_holder m with
    | None => fst (serial s0 order) = mu_state m
    | Some i => exists o c todo, nth_error (mu_threads m) i = Some (MkTh (Some (o, c)) todo) /\
                  exec c (mu_state m) = exec (body o) (fst (serial s0 order))
    end.
Proof.
  intros s0 programs sched m order. pose proof (inv_run s0 programs sched) as I. fold m in I.
  assert (Hs := inv_state _ _ _ I). split; [|split].
  - destruct (mu_holder m); [destruct Hs as (o & c & todo & s1 & _ & E & _)|]; unfold order; [rewrite E|rewrite Hs]; reflexivity.
  - intros i p Hp. pose proof (inv_programs _ _ _ I i) as H. rewrite Hp in H. destruct H as (t & _ & H). eauto.
  - destruct (mu_holder m); [destruct Hs as (o & c & todo & s1 & E1 & E2 & E3)|]; unfold order.
    + exists o, c, todo. rewrite E2. auto.
    + rewrite Hs. reflexivity.
Qed.

(** When all is done, everything has run, one after the other. *)
Theorem C50_atomic_to_the_end :
  forall (s0 : St) programs sched,
    let m := mu_run body sched (mu_start s0 programs) in
    let order := map (fun x => snd (fst x)) (mu_results m) in
    Forall (fun t => th_now t = None /\ th_todo t = []) (mu_threads m) ->
    serial s0 order = (mu_state m, map snd (mu_results m)) /\
    forall i p, nth_error programs i = Some p -> of_goroutine i (mu_results m) = p.
Proof.
  intros s0 programs sched m order Hd. pose proof (inv_run s0 programs sched) as I. fold m in I. split.
  - pose proof (inv_state _ _ _ I) as Hs. destruct (mu_holder m) as [i|]; [|exact Hs].
    destruct Hs as (o & c & todo & s1 & E & _). apply nth_error_In in E. rewrite Forall_forall in Hd. destruct (Hd _ E). discriminate.
  - intros i p Hp. pose proof (inv_programs _ _ _ I i) as H. rewrite Hp in H. destruct H as (t & E & H).
    rewrite Forall_forall in Hd. destruct (Hd _ (nth_error_In _ _ E)) as [H1 H2]. unfold current in H. rewrite H1, H2, !app_nil_r in H. exact H.
Qed.

(** Somebody can always go on. *)
Theorem C50_somebody_can_go_on :
  forall (s0 : St) programs sched,
    let m := mu_run body sched (mu_start s0 programs) in
    Forall (fun t => th_now t = None /\ th_todo t = []) (mu_threads m) \/
    exists i t o, nth_error (mu_threads m) i = Some t /\
      (th_now t <> None /\ mu_holder m = Some i \/ th_now t = None /\ (exists todo, th_todo t = o :: todo) /\ mu_holder m = None).
Proof.
  intros s0 programs sched m. pose proof (inv_run s0 programs sched) as I. fold m in I.
  destruct (mu_holder m) as [i|] eqn:Eh.
  - right. pose proof (inv_state _ _ _ I) as Hs. rewrite Eh in Hs. destruct Hs as (o & c & todo & s1 & E & _).
    exists i, (MkTh (Some (o, c)) todo), o. split; [exact E|]. left. split; [discriminate|reflexivity].
  - assert (G : forall l, (forall i t, nth_error l i = Some t -> th_now t = None) ->
       Forall (fun t : thread St R O => th_now t = None /\ th_todo t = []) l \/
       exists i t o, nth_error l i = Some t /\ th_now t = None /\ exists todo, th_todo t = o :: todo).
    { induction l as [|t l IH]; intros H; [left; constructor|]. destruct (th_todo t) as [|o todo] eqn:Et.
      - destruct IH as [IH|(i & t' & o & E & H1 & H2)].
        + intros i t' E. exact (H (S i) t' E).
        + left. constructor; [|exact IH]. split; [exact (H 0%nat t eq_refl)|exact Et].
        + right. exists (S i), t', o. auto.
      - right. exists 0%nat, t, o. split; [reflexivity|]. split; [exact (H 0%nat t eq_refl)|eauto]. }
    destruct (G (mu_threads m)) as [H|(i & t & o & E & H1 & H2)].
    + intros i t E. destruct (th_now t) eqn:En; [|reflexivity]. assert (Hn : th_now t <> None) by congruence.
      pose proof (inv_holder _ _ _ I i t E Hn). congruence.
    + left. exact H.
    + right. exists i, t, o. auto.
Qed.
End Spec.
Print Assumptions C50_atomic.
Print Assumptions C50_atomic_to_the_end.
Print Assumptions C50_somebody_can_go_on.

(** The ring buffer. *)
Section Ring.
Context {T : Type}.
Variable zero : T.
Lemma exec_back (r : rb T) rdcur k : exec (back_code rdcur k) r = exec (k (rd_back (rb_buf r) rdcur)) r.
Proof. unfold back_code, rd_back. destruct (rdcur - 1 <? 0); reflexivity. Qed.
Lemma exec_copy (r : rb T) n : forall buf rdcur k b c,
  resize_copy n (rb_buf r) buf rdcur = Ok (b, c) -> exec (copy_code n buf rdcur k) r = exec (k b c) r.
Proof.
  induction n as [|n IH]; cbn [resize_copy copy_code]; intros buf rdcur k b c E.
  - injection E as <- <-. reflexivity.
  - cbn [Read exec]. unfold bind in E. destruct (slice_get (rb_buf r) rdcur) as [v|]; [|discriminate].
    cbn [Try]. destruct (slice_set buf (Z.of_nat n) v) as [buf'|]; [|discriminate]. cbn [Try]. rewrite exec_back. apply IH. exact E.
Qed.
Lemma exec_drop (r : rb T) n : forall rdcur acc k d,
  resize_drop n (rb_buf r) rdcur acc = Ok d -> exec (drop_code n rdcur acc k) r = exec (k d) r.
Proof.
  induction n as [|n IH]; cbn [resize_drop drop_code]; intros rdcur acc k d E.
  - injection E as <-. reflexivity.
  - cbn [Read exec]. unfold bind in E. destruct (slice_get (rb_buf r) rdcur) as [v|]; [|discriminate].
    cbn [Try]. rewrite exec_back. apply IH. exact E.
Qed.
Lemma exec_walk (r : rb T) n : forall i seen vs e,
  walk_loop (Err := unit) (fun s v => (s ++ [v], None)) r n i seen = Ok (vs, e) -> exec (walk_code n i seen) r = (r, Ok (RWalk vs)).
Proof.
  induction n as [|n IH]; cbn [walk_loop walk_code]; intros i seen vs e E.
  - injection E as <- <-. reflexivity.
  - cbn [Read exec]. unfold walk_index in E. unfold bind in E. unfold rlen.
    destruct (rb_cur r - 1 - i <? 0); cbn [Read exec].
    + destruct (slice_get (rb_buf r) (rb_cur r - 1 - i + zlen (rb_buf r))) as [v|]; [|discriminate]. cbn [Try]. eapply IH. exact E.
    + destruct (slice_get (rb_buf r) (rb_cur r - 1 - i)) as [v|]; [|discriminate]. cbn [Try]. eapply IH. exact E.
Qed.
Lemma exec_add_rest (r : rb T) val d buf : slice_set (rb_buf r) (rb_cur r) val = Ok buf ->
  exec (add_rest val d) r =
    (MkRB buf (let cur := rb_cur r + 1 in if zlen buf <=? cur then cur - zlen buf else cur) (if rb_len r <? zlen buf then rb_len r + 1 else rb_len r),
     Ok (RAdd (fst d) (snd d))).
Proof.
  intros E. unfold add_rest. cbn [Read exec]. rewrite E. cbn [Try Write Read exec]. unfold rlen. cbn [set_buf rb_len rb_buf rb_cur].
  change (rb_len (set_buf buf r)) with (rb_len r). change (rb_buf (set_buf buf r)) with buf.
  destruct (rb_len r <? zlen buf); cbn [Write Read exec];
    change (rb_cur (set_buf buf r)) with (rb_cur r); change (rb_buf (set_buf buf r)) with buf; destruct (zlen buf <=? rb_cur r + 1) eqn:E2;
    cbn; rewrite ?E2; reflexivity.
Qed.
(** Alone, the statements do what rb_step does. *)
Lemma exec_ring (r r' : rb T) o x : rb_step zero r o = Ok (r', x) -> exec (ring_code zero o) r = (r', Ok x).
Proof.
  destruct o as [v|cap| |]; cbn [rb_step ring_code].
  - unfold Add, add_code, bind. cbn [Read exec]. unfold rlen at 1. destruct (zlen (rb_buf r) <=? 0); [intros [= <- <-]; reflexivity|].
    cbn [Read exec]. unfold rlen at 1. destruct (zlen (rb_buf r) <=? rb_len r); cbn [Read exec].
    + destruct (slice_get (rb_buf r) (rb_cur r)) as [d|]; [|discriminate]. cbn [Try].
      destruct (slice_set (rb_buf r) (rb_cur r) v) as [buf|] eqn:E; [|discriminate]. intros [= <- <-]. apply exec_add_rest. exact E.
    + destruct (slice_set (rb_buf r) (rb_cur r) v) as [buf|] eqn:E; [|discriminate]. intros [= <- <-]. apply exec_add_rest. exact E.
  - unfold Resize, resize_code, bind. destruct (cap <=? 0); [intros [= <- <-]; reflexivity|]. cbn [Read exec].
    intros E. destruct (go_make zero cap) as [buf|] eqn:Em; [|discriminate].
    destruct (resize_copy (Z.to_nat (if cap <? rb_len r then cap else rb_len r)) (rb_buf r) buf
                (if rb_cur r - 1 <? 0 then rb_cur r - 1 + rb_len r else rb_cur r - 1)) as [[b c]|] eqn:Ec; [|discriminate].
    destruct (resize_drop (Z.to_nat (rb_len r - cap)) (rb_buf r) c []) as [d|] eqn:Ed; [|discriminate].
    injection E as <- <-.
    destruct (rb_cur r - 1 <? 0); cbn [Read exec]; rewrite ?Em; cbn [Try]; rewrite (exec_copy _ _ _ _ _ _ _ Ec);
      cbn [Read exec]; rewrite (exec_drop _ _ _ _ _ _ Ed); reflexivity.
  - unfold Walk, bind. cbn [Read exec]. destruct (walk_loop _ r (Z.to_nat (rb_len r)) 0 []) as [[vs e]|] eqn:E; [|discriminate].
    intros [= <- <-]. eapply exec_walk. exact E.
  - unfold Stats, stats_code, bind. cbn [Read exec]. destruct (rb_len r =? 0); [intros [= <- <-]; reflexivity|]. unfold rlen.
    cbn [Read exec]. destruct (rb_cur r - 1 <? 0); cbn [Read exec]; destruct (_ <? 0); cbn [Read exec];
      repeat (destruct (slice_get _ _); [|discriminate]; cbn [Try Read exec]); intros [= <- <-]; reflexivity.
Qed.
Lemma serial_ring : forall ops (r r' : rb T) outs, rb_run zero r ops = Ok (r', outs) -> serial (ring_code zero) r ops = (r', map Ok outs).
Proof.
  induction ops as [|o ops IH]; cbn [rb_run serial]; intros r r' outs E; [injection E as <- <-; reflexivity|].
  unfold bind in E. destruct (rb_step zero r o) as [[r1 x]|] eqn:E1; [|discriminate]. rewrite (exec_ring _ _ _ _ E1).
  destruct (rb_run zero r1 ops) as [[r2 xs]|] eqn:E2; [|discriminate]. rewrite (IH _ _ _ E2). injection E as <- <-. reflexivity.
Qed.
End Ring.

(** C50, the ring buffer: any number of goroutines, any calls, any interleaving of their
    statements.  There is one order of the calls, which respects the order within each
    goroutine, in which the bounded list of S_RingBuf gives all their answers; in particular
    no call panics. *)
Theorem C50_ring_buffer_linearizable :
  forall (T : Type) (zero : T) (cap : Z) (programs : list (list (rb_op T))) (sched : list nat),
    0 <= cap ->
    exists r0, NewRingBuffer zero cap = Ok r0 /\
      let m := mu_run (ring_code zero) sched (mu_start r0 programs) in
      let order := map (fun x => snd (fst x)) (mu_results m) in
      map snd (mu_results m) = map Ok (snd (bl_run zero (MkBL (Z.to_nat cap) []) order)) /\
      (forall i p, nth_error programs i = Some p -> exists rest, of_goroutine i (mu_results m) ++ rest = p) /\
      (mu_holder m = None -> rb_run zero r0 order = Ok (mu_state m, snd (bl_run zero (MkBL (Z.to_nat cap) []) order))).
Proof.
  intros T zero cap programs sched Hc. destruct (C01_ringbuf_is_bounded_list T zero cap [] Hc) as (r0 & _ & E0 & _).
  exists r0. split; [exact E0|]. intros m order.
  destruct (C01_ringbuf_is_bounded_list T zero cap order Hc) as (r0' & r' & E0' & E1). rewrite E0 in E0'. injection E0' as <-.
  pose proof (serial_ring zero _ _ _ _ E1) as Es.
  destruct (C50_atomic (ring_code zero) r0 programs sched) as (H1 & H2 & H3). fold m in H1, H2, H3. fold order in H1, H3.
  rewrite Es in H1, H3. cbn [fst snd] in H1, H3. split; [symmetry; exact H1|]. split; [exact H2|]. intros Hh. rewrite Hh in H3. rewrite <- H3. exact E1.
Qed.
Print Assumptions C50_ring_buffer_linearizable.

(** The core trace. *)
Section CoreTrace.
Context {arg world pc : Type}.
Variable Sprintf : world -> string -> list arg -> string.
Variable CallersFrames : list pc -> list rframe.
Notation env := (env arg world pc).
Notation coreTrace := (coreTrace arg pc).
Notation trace_code := (trace_code Sprintf CallersFrames).
(** What a call returns to its caller. *)
Definition answer (c : coreTrace) (x : env * call arg) : list Event :=
  match snd x with CallEvents n s => snd (EventsDetail Sprintf CallersFrames (fst x) n s c) | _ => [] end.
Lemma set_events_id (c : coreTrace) : set_events (ct_events c) c = c.
Proof. destruct c. reflexivity. Qed.
Lemma update_app_here {A} (pre : list A) x y l : update (length pre) x (pre ++ y :: l) = pre ++ x :: l.
Proof. induction pre as [|z pre IH]; cbn; [reflexivity|]. rewrite IH. reflexivity. Qed.
Lemma exec_snapshot e s : forall (l : list (coreEvent arg pc)) pre acc (c : coreTrace) k,
  ct_events c = pre ++ l ->
  exec (snapshot_code Sprintf CallersFrames e s (length l) (length pre) acc k) c =
    exec (k (acc ++ snd (snapshotEvents Sprintf CallersFrames (e_world e) l s)))
         (set_events (pre ++ fst (snapshotEvents Sprintf CallersFrames (e_world e) l s)) c).
Proof.
  induction l as [|ce l IH]; intros pre acc c k E; cbn [length snapshot_code snapshotEvents].
  - cbn [fst snd]. rewrite !app_nil_r in *. rewrite <- E, set_events_id. reflexivity.
  - cbn [exec]. rewrite E, nth_error_app2, Nat.sub_diag by lia. cbn [nth_error].
    rewrite update_app_here. destruct (snapshotEvent Sprintf CallersFrames (e_world e) ce s) as [ce' ev] eqn:Es. cbn [fst snd].
    replace (S (length pre)) with (length (pre ++ [ce'])) by (rewrite app_length; cbn; lia).
    rewrite (IH (pre ++ [ce'])) by (cbn [set_events ct_events]; rewrite <- app_assoc; reflexivity).
    destruct (snapshotEvents Sprintf CallersFrames (e_world e) l s) as [l' evs]. cbn [fst snd]. rewrite <- !app_assoc. reflexivity.
Qed.
(** Alone, the statements do what the model's methods do. *)
Lemma exec_trace x (c : coreTrace) : exec (trace_code x) c = (do_call Sprintf CallersFrames c x, answer c x).
Proof.
  destruct x as [e [k f a| |n|n s]]; unfold M_Steps.trace_code, do_call, answer; cbn [fst snd].
  - unfold log_code. cbn [Read exec]. unfold log_call, Tracef, LazyTracef, Errorf, LazyErrorf, add_event, mark_errored.
    destruct c as [src id cat st er fi du ns evs mx tru]. cbn [ct_finished].
    destruct k; cbn [is_error_kind is_lazy_kind]; (destruct fi; [reflexivity|]); unfold switch_code; cbn [Read Write exec];
      cbn [set_errored ct_events ct_eventsmax]; destruct (mx <=? zlen evs); reflexivity.
  - unfold finish_code, Finish. cbn [Read exec]. destruct (ct_finished c); reflexivity.
  - unfold setmax_code, SetMaxEvents. destruct (n <? traceMaxEventsMin); [reflexivity|]. destruct (traceMaxEventsMax <? n); reflexivity.
  - unfold events_code, EventsDetail. cbn [Read exec]. set (n' := if (n <=? 0) || (zlen (ct_events c) <? n) then zlen (ct_events c) else n).
    assert (Hn : 0 <= n' <= zlen (ct_events c)) by (unfold n', zlen; destruct (n <=? 0) eqn:E1; destruct (Z.of_nat (length (ct_events c)) <? n) eqn:E2; cbn; lia).
    set (j := Z.to_nat (zlen (ct_events c) - n')).
    assert (Hj : (j <= length (ct_events c))%nat) by (unfold j, zlen in *; lia).
    replace (Z.to_nat n') with (length (skipn j (ct_events c))) by (rewrite skipn_length; unfold j, zlen in *; lia).
    replace j with (length (firstn j (ct_events c))) at 2 by (rewrite firstn_length; lia).
    rewrite exec_snapshot by (symmetry; apply firstn_skipn).
    destruct (snapshotEvents Sprintf CallersFrames (e_world e) (skipn j (ct_events c)) s) as [l evs]. cbn [fst snd app].
    unfold Read. cbn [exec set_events ct_truncated]. destruct (0 <? ct_truncated c); reflexivity.
Qed.
Fixpoint answers (c : coreTrace) (h : history arg env) : list (list Event) :=
  match h with [] => [] | x :: h => answer c x :: answers (do_call Sprintf CallersFrames c x) h end.
Lemma serial_trace : forall h (c : coreTrace), serial trace_code c h = (run Sprintf CallersFrames h c, answers c h).
Proof.
  induction h as [|x h IH]; intros c; cbn [serial answers]; [reflexivity|]. rewrite exec_trace, IH. reflexivity.
Qed.

(** C50, the core trace: any number of goroutines, any calls, any interleaving of their
    statements.  The reads return what they return in a history of whole calls, and such a
    history leads to the trace. *)
Theorem C50_core_trace_linearizable :
  forall (c0 : coreTrace) (programs : list (history arg env)) (sched : list nat),
    let m := mu_run trace_code sched (mu_start c0 programs) in
    let order := map (fun x => snd (fst x)) (mu_results m) in
    map snd (mu_results m) = answers c0 order /\
    (forall i p, nth_error programs i = Some p -> exists rest, of_goroutine i (mu_results m) ++ rest = p) /\
    (mu_holder m = None -> mu_state m = run Sprintf CallersFrames order c0).
Proof.
  intros c0 programs sched m order.
  destruct (C50_atomic trace_code c0 programs sched) as (H1 & H2 & H3). fold m in H1, H2, H3. fold order in H1, H3.
  rewrite serial_trace in H1, H3. cbn [fst snd] in H1, H3. split; [symmetry; exact H1|]. split; [exact H2|]. intros Hh. rewrite Hh in H3. symmetry. exact H3.
Qed.
End CoreTrace.
Print Assumptions C50_core_trace_linearizable.

(** Two goroutines add to a ring buffer at the same time; the second has to wait. *)
Definition alternate (n : nat) : list nat := flat_map (fun _ => [0%nat; 1%nat]) (seq 0 n).
Example C50_instance :
  let m := mu_run (ring_code 0) (alternate 60) (mu_start (MkRB [0; 0; 0] 0 0) [[OAdd 1; OWalk]; [OAdd 2; OStats]]) in
  mu_holder m = None /\ mu_results m = [(0%nat, OAdd 1, Ok (RAdd 0 false)); (1%nat, OAdd 2, Ok (RAdd 0 false));
                                      (0%nat, OWalk, Ok (RWalk [2; 1])); (1%nat, OStats, Ok (RStats 2 1 2))].
Proof. vm_compute. split; reflexivity. Qed.
(** Without the mutex, the same schedule loses a value: the lock is what the theorems rest on. *)
Example C50_without_lock :
  let m := fold_left (racy_step (ring_code 0)) (alternate 60) (mu_start (MkRB [0; 0; 0] 0 0) [[OAdd 1]; [OAdd 2]]) in
  rb_buf (mu_state m) = [2; 0; 0].
Proof. vm_compute. reflexivity. Qed.
(** Two goroutines log and read at the same time. *)
Example C50_trace_instance :
  let m := mu_run (trace_code demo_Sprintf demo_frames) (alternate 60)
             (mu_start (demo_new 1000) [[demo_log 1 KTracef "a"; (demo_e 2, CallFinish)]; [demo_log 3 KErrorf "b"; (demo_e 4, CallEvents 0 false)]]) in
  mu_holder m = None /\ map snd (mu_results m) = [[]; []; []; [MkEvent 1 "a" [] false; MkEvent 3 "b" [] true]].
Proof. vm_compute. split; reflexivity. Qed.

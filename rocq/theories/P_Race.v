(** Theorems about data races: C77. *)
From Verif Require Import Go L_List M_Strings M_Types S_RingBuf S_Trace M_Trace M_Mutex M_Steps P_Mutex M_Heap L_Heap S_Heap P_Heap S_Race M_Race L_Race L_RaceT L_RaceO L_RaceR L_RaceJ L_RaceStep L_RaceSteps L_RaceRest L_RaceRing L_RaceBool D_Demo.
From Coq Require Import Lia Permutation.
Open Scope list_scope.
Open Scope nat_scope.

Section Race.
Context {arg world pc : Type}.
Variable Sprintf : world -> string -> list arg -> string.
Variable CallersFrames : list pc -> list rframe.
Notation rmachine := (rmachine arg world pc).
Notation rop := (rop arg world pc).
Notation h_step := (h_step Sprintf CallersFrames).
Notation r_step := (r_step Sprintf CallersFrames).
Notation r_run := (r_run Sprintf CallersFrames).

Lemma step_good (r : rmachine) i : K r -> good r i (r_step r i).
Proof.
  intros HK. pose proof (k_inv r HK) as I. unfold M_Race.r_step. destruct (nth_error (r_threads r) i) as [[w p]|] eqn:Hi; [|apply good_same; exact HK].
  destruct (k_sync r HK i w p Hi) as (st & q & Hst & So). rewrite Hst.
  pose proof (nth_keep (r_m r) i st q Hst) as Hts.
  destruct w as [|c|[|k ks] v|k [|[t [|[| |e n stacks ch] gs]] todo] ks v]; cbn [sync_ok] in So.
  - (* WNone *)
    destruct st as [|t k|ks cap d|[|t ts]].
    + destruct p as [|[[c cat g now id src pick|n x ch|c cap|kt ke kz]|n|n|c order v|a|x|x] p].
      * apply good_same. exact HK.
      * exact (step_new Sprintf CallersFrames r i c cat g now id src pick p q HK Hi Hst).
      * exact (step_call Sprintf CallersFrames r i n x ch p q HK Hi Hst).
      * destruct (cap <=? 0)%Z eqn:Ec.
        -- assert (Es : h_step (give (r_m r) i (HSetCategorySize c cap)) i = Ok (MkHM (hm_heap (r_m r)) (hm_sizes (r_m r)) (hm_cats (r_m r)) (hm_handles (r_m r)) (set_thread (give (r_m r) i (HSetCategorySize c cap)) i HIdle []) (hm_results (r_m r)))).
           { unfold M_Heap.h_step. rewrite (threads_give (r_m r) i q _ Hst), Ec. reflexivity. }
           assert (I' := inv_step Sprintf CallersFrames _ _ _ (inv_give (r_m r) i q _ I Hst) (step_fun Sprintf CallersFrames _ _ _ (inv_give (r_m r) i q _ I Hst) Es)).
           rewrite Es. apply (good_silent r i [] WNone _ HIdle q WNone p HIdle [] _ HK Hi Hst I'); auto; try apply incl_refl; try reflexivity; try constructor; auto.
           ++ exact (nth_set_give (r_m r) i q _ HIdle [] Hst).
           ++ split; [|split]; apply incl_refl.
        -- apply Z.leb_gt in Ec. exact (step_resize_begin Sprintf CallersFrames r i c cap p q Ec HK Hi Hst).
      * set (o := HGC kt ke kz).
        assert (Es : exists h', h_step (give (r_m r) i o) i = Ok (MkHM h' (hm_sizes (r_m r)) (hm_cats (r_m r)) (hm_handles (r_m r)) (set_thread (give (r_m r) i o) i HIdle []) (hm_results (r_m r))) /\ same_objects (hm_heap (r_m r)) h').
        { eexists. split; [unfold M_Heap.h_step; rewrite (threads_give (r_m r) i q _ Hst); reflexivity|]. constructor; cbn; auto. split; [|split]; intros y Q; apply filter_In in Q; tauto. }
        destruct Es as (h' & Es & SO).
        assert (I' := inv_step Sprintf CallersFrames _ _ _ (inv_give (r_m r) i q _ I Hst) (step_fun Sprintf CallersFrames _ _ _ (inv_give (r_m r) i q _ I Hst) Es)).
        rewrite Es. apply (good_silent r i [] WNone _ HIdle q WNone p HIdle [] _ HK Hi Hst I'); auto; try apply incl_refl; try reflexivity; try constructor; auto; try apply SO.
        exact (nth_set_give (r_m r) i q _ HIdle [] Hst).
      * exact (step_look r i n p q HK Hi Hst).
      * exact (step_state r i n p q HK Hi Hst).
      * exact (step_search_begin r i c order v p q HK Hi Hst).
      * apply good_emit; [exact HK| |].
        -- intros _. apply (K_emit r i _ _ (r_m r) WNone p HIdle q _ HK Hi I Hts); auto; [intros k []|intros t []].
        -- intros _ _ _ N. destruct (N _ _ a p Hi eq_refl).
      * apply (good_silent r i [Rel (SChan x)] WNone _ HIdle q WNone p HIdle q _ HK Hi Hst I Hts So (same_objects_refl _)); auto; try apply incl_refl; try reflexivity. repeat constructor.
      * apply (good_silent r i [Acq (SChan x)] WNone _ HIdle q WNone p HIdle q _ HK Hi Hst I Hts So (same_objects_refl _)); auto; try apply incl_refl; try reflexivity. repeat constructor.
    + destruct p as [|[] p]; exact (step_add Sprintf CallersFrames r i t k _ q HK Hi Hst).
    + destruct (So ks cap d eq_refl).
    + assert (Es : h_step (r_m r) i = Ok (MkHM (hm_heap (r_m r)) (hm_sizes (r_m r)) (hm_cats (r_m r)) (hm_handles (r_m r)) (set_thread (r_m r) i HIdle q) (hm_results (r_m r)))).
      { unfold M_Heap.h_step. rewrite Hst. destruct q; reflexivity. }
      assert (I' := inv_step Sprintf CallersFrames _ _ _ I (step_fun Sprintf CallersFrames _ _ _ I Es)).
      assert (G : good r i (emit r i [] (h_step (r_m r) i) WNone p)).
      { rewrite Es. apply (good_silent r i [] WNone _ (HFreeing []) q WNone p HIdle q _ HK Hi Hst I' (nth_set (r_m r) i _ q HIdle q Hst)); auto; try apply incl_refl; try reflexivity; try constructor; auto.
        + intros ? ? ?. discriminate.
        + split; [|split]; apply incl_refl. }
      destruct p as [|[] p]; exact G.
    + destruct p as [|[] p]; exact (step_free Sprintf CallersFrames r i t ts _ q HK Hi Hst).
  - (* WResize *)
    destruct So as (ks & cap & d & -> & _). destruct ks as [|k ks].
    + exact (step_resize_end Sprintf CallersFrames r i c cap d p q HK Hi Hst).
    + exact (step_resize_one Sprintf CallersFrames r i c k ks cap d p q HK Hi Hst).
  - subst st. apply (good_silent r i [] _ p HIdle q WNone p HIdle q _ HK Hi Hst I Hts); auto; try apply incl_refl; try reflexivity; try constructor; auto.
    + intros; discriminate.
    + split; [|split]; apply incl_refl.
  - exact (step_walk_begin r i k ks v p HK Hi).
  - exact (step_walk_end r i k ks v p HK Hi).
  - subst st. apply (good_silent r i [] _ p HIdle q (WIn k todo ks v) p HIdle q _ HK Hi Hst I Hts eq_refl (same_objects_refl _) eq_refl eq_refl (Forall_nil _)); try apply incl_refl; try reflexivity.
    intros y Hy. right. exact Hy.
  - subst st. exact (step_walk_id r i k t gs todo ks v p q HK Hi Hst).
  - subst st. exact (step_walk_state r i k t gs todo ks v p q HK Hi Hst).
  - subst st. exact (step_walk_events Sprintf CallersFrames r i k t e n stacks ch gs todo ks v p q HK Hi Hst).
Qed.

(** *** The start *)
Lemma start_threads (programs : list (list rop)) i x : nth_error (r_threads (r_start (arg := arg) (world := world) (pc := pc) programs)) i = Some x -> fst x = WNone /\ nth_error programs i = Some (snd x).
Proof. cbn [r_start r_threads]. rewrite nth_error_map. destruct (nth_error programs i) as [p|]; [|discriminate]. intros [= <-]. auto. Qed.
Lemma K_start programs : K (r_start (arg := arg) (world := world) (pc := pc) programs).
Proof.
  constructor.
  - apply inv_start.
  - intros j w p H. destruct (start_threads _ _ _ H) as [E1 E2]. cbn [fst snd] in *. subst w. exists HIdle, []. split; [|intros ks cap d; discriminate].
    cbn [r_start r_m hm_start hm_threads]. rewrite !nth_error_map, E2. reflexivity.
  - intros j k (w & p & st & q & H1 & H2 & H3). destruct (start_threads _ _ _ H1) as [E1 _]. cbn [fst] in E1. subst w. destruct H3.
  - intros j w p t H1 H2. destruct (start_threads _ _ _ H1) as [E1 _]. cbn [fst] in E1. subst w. destruct H2.
Qed.
Lemma no_log p x : nth_error (@nil (nat * action)) p = Some x -> False.
Proof. destruct p; discriminate. Qed.
Lemma no_touch p c : touched [] p c -> False.
Proof. intros (w & i & a & H & _). exact (no_log p _ H). Qed.
Lemma J_start programs : J (r_start (arg := arg) (world := world) (pc := pc) programs).
Proof.
  assert (NW : forall j k, ~ walks (r_threads (r_start (arg := arg) (world := world) (pc := pc) programs)) j k).
  { intros j k (w & p & H & Q). destruct (start_threads _ _ _ H) as [E _]. cbn [fst] in E. subst w. destruct Q. }
  assert (NR : forall j k, ~ resizing (r_threads (r_start (arg := arg) (world := world) (pc := pc) programs)) j k).
  { intros j k (w & p & H & Q). destruct (start_threads _ _ _ H) as [E _]. cbn [fst] in E. subst w. destruct Q. }
  assert (Nway : forall j t, ~ In t (way (hm_threads (r_m (r_start (arg := arg) (world := world) (pc := pc) programs))) j)).
  { intros j t Q. unfold way in Q. cbn [r_start r_m hm_start hm_threads] in Q. rewrite !nth_error_map in Q. destruct (nth_error programs j); destruct Q. }
  constructor.
  - intros p q _ (gi & ai & gj & aj & c & wi & wj & H & _). destruct (no_log _ _ H).
  - constructor; intros; try (exfalso; eapply no_touch; eassumption). exfalso. destruct H as [H|H]; exact (no_touch _ _ H).
  - constructor.
    + intros [|n] t H; discriminate.
    + intros n t c g H. destruct (no_log _ _ H).
    + intros n t t' c c' g g' H. destruct (no_log _ _ H).
    + intros n n' t c c' g g' H. destruct (no_log _ _ H).
    + intros t [(j & H)|(k & H)]; [destruct (Nway j t H)|destruct H].
    + intros t p [].
    + intros t c n g [].
    + intros t c n p [(g & H) _]. destruct (no_log _ _ H).
    + intros t c n p [(g & H) _]. destruct (no_log _ _ H).
    + intros t c n p [(g & H) _]. destruct (no_log _ _ H).
    + intros j t c n H. destruct (Nway j t H).
    + intros k t c n H. destruct H.
    + intros t c n [(g & H) _]. destruct (no_log _ _ H).
  - constructor; intros; try (exfalso; eapply no_touch; eassumption).
    + destruct (NR _ _ H).
    + destruct (NW _ _ H).
  - intros j k w p t H Q. destruct (NW j k). exists w, p. auto.
  - intros q g n t H. destruct (no_log _ _ H).
Qed.

(** *** Runs *)
Lemma run_log sched : forall r r' : rmachine, r_run sched r = Ok r' -> exists more, r_log r' = r_log r ++ more.
Proof.
  assert (Emit : forall (r r' : rmachine) i s m w p, emit r i s m w p = Ok r' -> exists more, r_log r' = r_log r ++ more).
  { intros r r' i s m w p. unfold emit. destruct (blocked _ _); [intros [= <-]; exists []; rewrite app_nil_r; reflexivity|]. destruct m; [|discriminate]. intros [= <-]. cbn [r_log]. eauto. }
  assert (Same : forall r r' : rmachine, Ok r = Ok r' -> exists more, r_log r' = r_log r ++ more) by (intros r r' [= <-]; exists []; rewrite app_nil_r; reflexivity).
  assert (Step : forall (r r' : rmachine) i, r_step r i = Ok r' -> exists more, r_log r' = r_log r ++ more).
  { intros r r' i. unfold M_Race.r_step.
    repeat match goal with
           | |- Panic = Ok _ -> _ => discriminate
           | |- Ok _ = Ok _ -> _ => apply Same
           | |- emit _ _ _ _ _ _ = Ok _ -> _ => apply Emit
           | |- bind ?x _ = Ok _ -> _ => destruct x as [[? ?]|]; cbn [bind]
           | |- match ?x with _ => _ end = Ok _ -> _ => destruct x
           end. }
  induction sched as [|i sched IH]; intros r r'; cbn [M_Race.r_run]; [apply Same|]. destruct (r_step r i) as [r1|] eqn:E; [|discriminate]. cbn [bind]. intros H.
  destruct (Step _ _ _ E) as [m1 E1]. destruct (IH _ _ H) as [m2 E2]. exists (m1 ++ m2). rewrite E2, E1, app_assoc. reflexivity.
Qed.
Definition frames_free (p : list rop) : Prop := Forall (fun o => match o with RFrames _ => False | _ => True end) p.
Lemma step_programs (r r' : rmachine) i : r_step r i = Ok r' -> (forall j w p, nth_error (r_threads r) j = Some (w, p) -> frames_free p) -> forall j w p, nth_error (r_threads r') j = Some (w, p) -> frames_free p.
Proof.
  intros E H. assert (Emit : forall s m w p, frames_free p -> emit r i s m w p = Ok r' -> forall j w p, nth_error (r_threads r') j = Some (w, p) -> frames_free p).
  { intros s m w p F. unfold emit. destruct (blocked _ _); [intros [= <-]; exact H|]. destruct m; [|discriminate]. intros [= <-] j w0 p0. cbn [r_threads]. rewrite nth_update_eq.
    destruct (Nat.eqb i j); [|apply H]. destruct (Nat.ltb i (length (r_threads r))); [|discriminate]. intros [= <- <-]. exact F. }
  assert (Same : Ok r = Ok r' -> forall j w p, nth_error (r_threads r') j = Some (w, p) -> frames_free p) by (intros [= <-]; exact H).
  revert E. unfold M_Race.r_step. destruct (nth_error (r_threads r) i) as [[w p]|] eqn:Hi; [|apply Same]. pose proof (H i w p Hi) as F.
  repeat match goal with
         | |- Panic = Ok _ -> _ => discriminate
         | |- Ok _ = Ok _ -> _ => apply Same
         | |- emit _ _ _ _ _ _ = Ok _ -> _ => apply Emit; first [exact F|inversion F; assumption]
         | |- bind ?x _ = Ok _ -> _ => destruct x as [[? ?]|]; cbn [bind]
         | |- match ?x with _ => _ end = Ok _ -> _ => destruct x
         end.
Qed.
Lemma run_K sched : forall r : rmachine, K r -> exists r', r_run sched r = Ok r' /\ K r'.
Proof.
  induction sched as [|i sched IH]; intros r HK; [exists r; auto|]. cbn [M_Race.r_run]. destruct (step_good r i HK) as (r1 & E & K1 & _). rewrite E. cbn [bind]. exact (IH r1 K1).
Qed.
Lemma run_J sched : forall r r' : rmachine, K r -> J r -> (forall j w p, nth_error (r_threads r) j = Some (w, p) -> frames_free p) -> r_run sched r = Ok r' -> orderly (r_log r') -> J r'.
Proof.
  induction sched as [|i sched IH]; intros r r' HK HJ HF; cbn [M_Race.r_run]; [intros [= <-]; auto|]. destruct (step_good r i HK) as (r1 & E & K1 & J1). rewrite E. cbn [bind]. intros R O.
  apply (IH r1 r'); auto.
  - apply J1; auto.
    + destruct (run_log _ _ _ R) as [more Q]. rewrite Q in O. exact (orderly_prefix _ _ O).
    + intros w p a p0 Hi ->. pose proof (HF i w _ Hi) as F. inversion F as [|? ? F1]. exact F1.
  - exact (step_programs r r1 i E HF).
Qed.

(** Whatever the programs and the schedule, nothing panics. *)
Theorem C77_runs : forall sched programs, exists r, r_run sched (r_start programs) = Ok r.
Proof. intros sched programs. destruct (run_K sched _ (K_start programs)) as (r & E & _). eauto. Qed.
(** An orderly program that leaves the stack frames of events alone has no data race. *)
Theorem C77_no_race : forall sched programs r,
  (forall p a, In p programs -> ~ In (RFrames a) p) ->
  r_run sched (r_start programs) = Ok r -> orderly (r_log r) -> race_free (r_log r).
Proof.
  intros sched programs r HF R O. apply j_race. apply (run_J sched _ r (K_start programs) (J_start programs)); auto.
  intros j w p H. destruct (start_threads _ _ _ H) as [_ E]. cbn [snd] in E. apply Forall_forall. intros o Ho. destruct o; auto. exact (HF p a (nth_error_In _ _ E) Ho).
Qed.
End Race.

(** *** Concrete runs *)
Definition demo_race := r_run demo_Sprintf demo_frames.
Notation demo_rop := (rop nat demo_world Z).
Definition demo_op (o : hop nat demo_world Z) : demo_rop := ROp o.
Definition demo_text (n : nat) : demo_rop := ROp (demo_use n (CallLog KTracef "hello" [])).
Definition demo_read (n : nat) : demo_rop := ROp (demo_use n (CallEvents 0 true)).
Definition demo_finish (n : nat) : demo_rop := ROp (demo_use n CallFinish).
Definition demo_visit (t : nat) : list (getter nat demo_world Z) := [GId; GState; GEvents (demo_e 130) 0%Z true no_choice].
(** Goroutine 0 creates trace 0, tells goroutine 1, waits for it, finishes the trace, and
    creates trace 1, which pushes trace 0 out of its category: its memory goes to the pool.
    Goroutine 1 uses trace 0, lets goroutine 0 finish it, and creates trace 2, in the
    memory of trace 0.  Goroutine 2 searches twice. *)
Definition demo_three : list (list demo_rop) :=
  [[demo_op (HSetCategorySize 0 1); demo_op (demo_create "one" "A" None); RSend 0; demo_text 0; demo_read 0; RRecv 1; demo_finish 0; demo_op (demo_create "one" "B" None)];
   [RRecv 0; RLook 0; RState 0; demo_text 0; RSend 1; demo_op (demo_create "two" "C" (Some 0)); demo_text 2; demo_read 2];
   [RSearch 0 [(0, "one"); (0, "two")] demo_visit; RSearch 0 [(0, "one"); (0, "two")] demo_visit]]%string.
Definition demo_order : list nat := [0; 0; 0; 0; 0; 1; 1; 2; 2; 0; 2; 1; 2; 1; 2; 0; 2; 2; 1; 0; 0; 0; 0; 0; 1; 1; 1; 1] ++ repeat 2 13.
Example C77_instance : exists r, demo_race demo_order (r_start demo_three) = Ok r /\ orderly (r_log r) /\ race_free (r_log r) /\
  map (fun wp => length (snd wp)) (r_threads r) = [0; 0; 0] /\
  nth_error (r_log r) 5 = Some (0, New 0 0) /\ nth_error (r_log r) 99 = Some (0, Recycle 0) /\ nth_error (r_log r) 105 = Some (1, New 2 0) /\
  length (r_log r) = 158.
Proof.
  destruct (C77_runs demo_Sprintf demo_frames demo_order demo_three) as [r E]. exists r. split; [exact E|].
  assert (O : orderly (r_log r)).
  { constructor; [apply toldb_sound|apply lookedb_sound|apply usedb_sound]; unfold demo_race in E; vm_compute in E; injection E as <-; vm_compute; reflexivity. }
  split; [exact O|]. split.
  - apply (C77_no_race demo_Sprintf demo_frames demo_order demo_three r); auto. intros p a [<-|[<-|[<-|[]]]] H; cbn in H; repeat (destruct H as [H|H]; [discriminate|]); exact H.
  - vm_compute in E. injection E as <-. vm_compute. repeat split; reflexivity.
Qed.

(** Goroutine 0 creates trace 0, tells goroutine 1, finishes the trace, creates trace 1,
    which pushes trace 0 out, and trace 2, in its memory. *)
Definition demo_owner : list demo_rop :=
  [demo_op (HSetCategorySize 0 1); demo_op (demo_create "one" "A" None); RSend 0; demo_finish 0; demo_op (demo_create "one" "B" None); demo_op (demo_create "two" "C" (Some 0))].
(** ID, called by goroutine 1 before Finish in time but not in order, races with the creation
    of trace 2: it reads without a lock what newCoreTrace writes. *)
Theorem C77_look_refuted : exists sched programs r,
  (forall p a, In p programs -> ~ In (RFrames a) p) /\ demo_race sched (r_start programs) = Ok r /\
  told (r_log r) /\ used_first (r_log r) /\ ~ race_free (r_log r).
Proof.
  exists ([0; 0; 0; 0; 0; 1; 1] ++ repeat 0 8), [demo_owner; [RRecv 0; RLook 0]].
  match goal with |- context [demo_race ?s ?p] => destruct (demo_race s p) as [r|] eqn:E; [|vm_compute in E; discriminate] end. exists r.
  split; [intros p a [<-|[<-|[]]] H; cbn in H; repeat (destruct H as [H|H]; [discriminate|]); exact H|]. split; [reflexivity|]. vm_compute in E. injection E as <-.
  split; [apply toldb_sound; vm_compute; reflexivity|]. split; [apply usedb_sound; vm_compute; reflexivity|]. apply (racesb_sound _ 16 40). vm_compute. reflexivity.
Qed.
(** Tracef on a trace that was finished and freed races with the creation of the next trace
    in its memory. *)
Theorem C77_late_use_refuted : exists sched programs r,
  (forall p a, In p programs -> ~ In (RFrames a) p) /\ demo_race sched (r_start programs) = Ok r /\
  told (r_log r) /\ looked_first (r_log r) /\ ~ race_free (r_log r).
Proof.
  exists ([0; 0; 0; 0; 0; 1] ++ repeat 0 8 ++ [1]), [demo_owner; [RRecv 0; demo_text 0]].
  match goal with |- context [demo_race ?s ?p] => destruct (demo_race s p) as [r|] eqn:E; [|vm_compute in E; discriminate] end. exists r.
  split; [intros p a [<-|[<-|[]]] H; cbn in H; repeat (destruct H as [H|H]; [discriminate|]); exact H|]. split; [reflexivity|]. vm_compute in E. injection E as <-.
  split; [apply toldb_sound; vm_compute; reflexivity|]. split; [apply lookedb_sound; vm_compute; reflexivity|]. apply (racesb_sound _ 40 52). vm_compute. reflexivity.
Qed.
(** The stack frames of the events of a trace, read by whoever got them while the trace was
    in use, race with the writing of the frames of an event of another trace, and change. *)
Definition demo_owner2 : list demo_rop :=
  [demo_op (HSetCategorySize 0 1); demo_op (demo_create "one" "A" None); demo_text 0; RSend 0; RRecv 1; demo_finish 0; demo_op (demo_create "one" "B" None);
   demo_op (demo_create "two" "C" (Some 0)); demo_op demo_elsewhere; demo_read 2].
Theorem C77_frames_refuted : exists s1 s2 programs r1 r a,
  demo_race s1 (r_start programs) = Ok r1 /\ demo_race s2 r1 = Ok r /\
  (exists n e k evs he len, hm_results (r_m r1) = [(n, e, k, true, evs)] /\ In he evs /\ he_stack he = Some (a, S len)) /\
  nth a (h_arrays (hm_heap (r_m r1))) [] <> nth a (h_arrays (hm_heap (r_m r))) [] /\
  orderly (r_log r) /\ ~ race_free (r_log r).
Proof.
  exists (repeat 0 6 ++ [1; 1; 1]), (repeat 0 10 ++ [1]), [demo_owner2; [RRecv 0; demo_read 0; RSend 1; RFrames 0]].
  match goal with |- context [demo_race ?s (r_start ?p)] => destruct (demo_race s (r_start p)) as [r1|] eqn:E1; [|vm_compute in E1; discriminate] end. exists r1.
  match goal with |- context [demo_race ?s r1] => destruct (demo_race s r1) as [r|] eqn:E; [|exfalso; vm_compute in E1; injection E1 as <-; vm_compute in E; discriminate] end. exists r, 0.
  split; [reflexivity|]. split; [reflexivity|]. vm_compute in E1. injection E1 as <-. vm_compute in E. injection E as <-. split.
  - vm_compute. do 6 eexists. split; [reflexivity|]. split; [left; reflexivity|reflexivity].
  - split; [vm_compute; discriminate|]. split; [constructor; [apply toldb_sound|apply lookedb_sound|apply usedb_sound]; vm_compute; reflexivity|]. apply (racesb_sound _ 84 88). vm_compute. reflexivity.
Qed.

Print Assumptions C77_runs.
Print Assumptions C77_no_race.
Print Assumptions C77_look_refuted.
Print Assumptions C77_late_use_refuted.
Print Assumptions C77_frames_refuted.

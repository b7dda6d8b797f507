(** Every step of the machine of M_Race preserves the invariant behind C77: creation and Free. *)
From Verif Require Import Go L_List M_Strings M_Types S_RingBuf S_Trace M_Trace M_Mutex M_Steps P_Mutex M_Heap L_Heap S_Heap P_Heap S_Race M_Race L_Race L_RaceT L_RaceO L_RaceR L_RaceJ L_RaceStep L_RaceSteps.
From Coq Require Import Lia Permutation.
Open Scope list_scope.
Open Scope nat_scope.

Section Steps.
Context {arg world pc : Type}.
Variable Sprintf : world -> string -> list arg -> string.
Variable CallersFrames : list pc -> list rframe.
Notation env := (env arg world pc).
Notation heap := (heap arg pc).
Notation machine := (machine arg world pc).
Notation rmachine := (rmachine arg world pc).
Notation hop := (hop arg world pc).
Notation walk := (walk arg world pc).
Notation rop := (rop arg world pc).
Notation inv := (inv (arg := arg) (world := world) (pc := pc)).
Notation h_step := (h_step Sprintf CallersFrames).
Notation r_step := (r_step Sprintf CallersFrames).
Notation h_call := (h_call Sprintf CallersFrames).


Lemma JT_weaken way' ring pool handles (fin fin' : nat -> bool) (walks walks' : nat -> key -> Prop) l : JT way' ring pool handles fin walks l ->
  (forall t, fin' t = true -> fin t = true) -> (forall j k, walks j k -> walks' j k) -> JT way' ring pool handles fin' walks' l.
Proof.
  intros [A1 A2 A3 A4 A5 A6 A7 A8 A9 A10 A11 A12 A13] HF HW. constructor; auto.
  - intros k t c n H1 H2. destruct (A12 k t c n H1 H2) as [B1 B2]. split; [exact B1|]. intros p H3 H4. destruct (B2 p H3 H4) as [Q|[Q|[Q|(j & Q1 & Q2)]]]; [auto|auto|auto|]. do 3 right. exists j. auto.
Qed.

(** *** Steps without accesses *)
Lemma good_silent (r : rmachine) i s w p st q w' p' st' q' (m' : machine) : K r -> nth_error (r_threads r) i = Some (w, p) -> nth_error (hm_threads (r_m r)) i = Some (st, q) ->
  inv m' -> (forall j, nth_error (hm_threads m') j = if Nat.eqb j i then Some (st', q') else nth_error (hm_threads (r_m r)) j) -> sync_ok w' st' ->
  same_objects (hm_heap (r_m r)) (hm_heap m') -> hm_handles m' = hm_handles (r_m r) -> hm_cats m' = hm_cats (r_m r) -> silent s ->
  incl (on_the_way st') (on_the_way st) -> (forall k, is_in w k <-> is_in w' k) -> (forall c, is_rs w c <-> is_rs w' c) -> incl (list_of w' st') (list_of w st) -> incl (todo_of w') (todo_of w) ->
  good r i (emit r i s (Ok m') w' p').
Proof.
  intros HK Hi Hst I' Hts So SO HH HC S HW HI HR HL HT. apply good_emit; [exact HK| |].
  - intros _. apply (K_emit r i w p m' w' p' st' q' _ HK Hi I' Hts So).
    + rewrite HC. auto.
    + rewrite (sm_traces _ _ SO). lia.
    + intros k Q. rewrite HC. apply (k_list r HK i). exists w, p, st, q. auto.
    + intros t Q. rewrite (sm_traces _ _ SO). exact (k_todo r HK i w p t Hi (HT t Q)).
  - intros _ HJ _ _. exact (J_silent r i s w p st q w' p' st' q' m' HK HJ Hi Hst Hts SO HH HC S HW HI HR HL HT).
Qed.

(** *** Creation *)
Lemma h_new_rest g now id pick src cat (h h' : heap) t : h_new g now id pick src cat h = (h', t) -> h_stringers h' = h_stringers h /\ h_epool h' = h_epool h /\ h_zpool h' = h_zpool h.
Proof. unfold h_new. destruct (pool_get zeroTO pick (h_tpool h) (h_traces h)) as [[x a] b]. intros [= <- <-]. auto. Qed.
Lemma step_new (r : rmachine) i c cat g now id src pick p q : K r -> nth_error (r_threads r) i = Some (WNone, ROp (HNewTrace c cat g now id src pick) :: p) -> nth_error (hm_threads (r_m r)) i = Some (HIdle, q) ->
  good r i (emit r i (new_script (length (hm_handles (r_m r))) (snd (h_new g now id pick src cat (hm_heap (r_m r)))) (hm_heap (r_m r))) (h_step (give (r_m r) i (HNewTrace c cat g now id src pick)) i) WNone p).
Proof.
  intros HK Hi Hst. pose proof (k_inv r HK) as I. set (m := r_m r) in *. set (o := HNewTrace c cat g now id src pick : hop). set (h := hm_heap m) in *.
  destruct (h_new g now id pick src cat h) as [h' t] eqn:E. cbn [snd].
  assert (Es : h_step (give m i o) i = Ok (MkHM h' (hm_sizes m) (hm_cats m) (hm_handles m ++ [t]) (set_thread (give m i o) i (HAdding t (c, cat)) []) (hm_results m))).
  { unfold M_Heap.h_step. rewrite (threads_give m i q o Hst). unfold o at 1. change (hm_heap (give m i o)) with h. rewrite E. reflexivity. }
  assert (I' := inv_step Sprintf CallersFrames _ _ _ (inv_give m i q o I Hst) (step_fun Sprintf CallersFrames _ _ _ (inv_give m i q o I Hst) Es)).
  rewrite Es. set (m' := MkHM _ _ _ _ _ _) in *. pose proof (nth_set_give m i q o (HAdding t (c, cat)) [] Hst) as Hts. change (set_thread (give m i o) i (HAdding t (c, cat)) []) with (hm_threads m') in Hts.
  destruct (h_new_ok _ _ _ _ _ _ _ _ _ (i_wf m I) E) as (W' & Wh & NP & IP & Ll & Lt & V & Ot & _ & Ev0 & Ee & Ea). destruct (h_new_rest _ _ _ _ _ _ _ _ _ E) as (Ez & Eep & Ezp).
  apply good_emit; [exact HK| |].
  - intros _. apply (K_emit r i _ _ m' WNone p (HAdding t (c, cat)) [] _ HK Hi I' Hts); auto.
    + intros ks cap d. discriminate.
    + intros k [].
    + intros t' [].
  - intros _ HJ HO _. set (s := new_script (length (hm_handles m)) t h).
    assert (Cs : s = [Wr (LId t); Wr (LState t); New (length (hm_handles m)) t] /\ ~ In t (h_tpool h) \/ s = Acq (SPoolT t) :: [Wr (LId t); Wr (LState t); New (length (hm_handles m)) t] /\ In t (h_tpool h)).
    { unfold s, new_script. destruct (got_cases t SPoolT (h_tpool h)) as [[Q ->]|[Q ->]]; [right|left]; auto. }
    assert (Fresh : ~ In t (h_tpool h) -> t = length (h_traces h)) by (destruct Wh; tauto).
    assert (FT : ~ In t (h_tpool h) -> forall p, ~ touched (r_log r) p (LId t) /\ ~ touched (r_log r) p (LState t)).
    { intros Q p0. apply Fresh in Q. split; intros H; pose proof (o_trace _ _ (j_o r HJ) t p0) as B; change (hm_heap (r_m r)) with h in B; [specialize (B (or_introl H))|specialize (B (or_intror H))]; rewrite Q in B; exact (Nat.lt_irrefl _ B). }
    assert (Only : (forall k, ~ In t (ringi (hm_cats m) k)) /\ (forall j, ~ In t (way (hm_threads m) j))).
    { destruct Wh as [Q|Q]; [exact (pool_only m t I Q)|]. apply (fresh_only m t I). exact (Nat.eq_le_incl _ _ (eq_sym Q)). }
    destruct Only as [OR OW].
    assert (Ins : forall a, In a s -> a = Acq (SPoolT t) \/ a = Wr (LId t) \/ a = Wr (LState t) \/ a = New (length (hm_handles m)) t).
    { intros a Ha. destruct Cs as [[Q _]|[Q _]]; rewrite Q in Ha; cbn [In] in Ha; repeat match type of Ha with _ \/ _ => destruct Ha as [<-|Ha]; [auto 6|] end; destruct Ha. }
    assert (Ev' : to_events (tr_at h' t) = []).
    { apply (f_equal (@ct_events arg pc)) in V. unfold trace_value in V. cbn in V. apply map_eq_nil in V. exact V. }
    assert (HL : incl (list_of (WNone : walk) (HAdding t (c, cat))) (list_of (WNone : walk) HIdle)) by apply incl_refl.
    assert (WS : forall j k0, walks (r_threads r) j k0 <-> walks (update i (WNone, p) (r_threads r)) j k0) by (apply (walks_same _ _ _ _ _ _ Hi); intros k0; reflexivity).
    constructor; cbn [r_m r_threads r_log].
    + apply race_free_script; [exact (j_race r HJ)|].
      assert (Cov : forall c0, c0 = LId t \/ c0 = LState t -> forall ys, (In t (h_tpool h) -> In (SPoolT t) ys) -> covered (r_log r) i (c0, true, ys)).
      { intros c0 Hc ys Hy p0 y Ha _. assert (T : touched (r_log r) p0 (LId t) \/ touched (r_log r) p0 (LState t)) by (destruct Hc as [-> | ->]; [left|right]; exists y; exact Ha).
        destruct Cs as [[_ Q]|[_ Q]]; [destruct (FT Q p0); tauto|]. right. exists (SPoolT t). split; [exact (Hy Q)|]. exact (t_pool _ _ _ _ _ _ _ (j_t r HJ) t p0 Q T). }
      destruct Cs as [[-> Q]|[-> Q]]; simpl accs; (constructor; [apply Cov; cbn; tauto|constructor; [apply Cov; cbn; tauto|constructor]]).
    + apply (JO_quiet h); auto.
      * exact (j_o r HJ).
      * intros t0. cbv beta. destruct (Nat.eq_dec t0 t) as [->|n]; [cbn [m' hm_heap]; rewrite Ev'; intros x []|cbn [m' hm_heap]; rewrite (Ot t0 n); apply incl_refl].
      * cbn [m' hm_heap]. rewrite Eep. apply incl_refl.
      * cbn [m' hm_heap]. rewrite Ezp. apply incl_refl.
      * intros a c0 y Ha Hw. destruct (Ins a Ha) as [->|[->|[->| ->]]]; cbn in Hw; try discriminate; injection Hw as <- <-; reflexivity.
      * intros a t0 y Ha Hw. assert (t0 = t) as ->; [|exact Lt]. destruct (Ins a Ha) as [->|[->|[->| ->]]]; cbn in Hw; destruct Hw as [Hw|Hw]; congruence.
    + apply (JT_weaken _ _ _ _ (fin h') _ (walks (r_threads r))); [|auto|intros j k Q; apply WS; exact Q].
      apply (JT_new (way (hm_threads m)) _ (h_tpool h) _ (fin h)); auto.
      * exact (j_t r HJ).
      * destruct Cs as [[Q _]|[Q _]]; auto.
      * destruct Cs as [[Q1 Q]|[Q1 Q]]; [|left; split; [exact Q|rewrite Q1; left; reflexivity]]. right. split; [|exact (FT Q)]. intros H. apply (i_handles m I) in H. rewrite (Fresh Q) in H. exact (Nat.lt_irrefl _ H).
      * intros j t' Q. unfold way in Q. rewrite Hts in Q. destruct (Nat.eqb_spec j i) as [->|n]; [destruct Q as [<-|[]]; auto|left; exact Q].
      * apply (f_equal (@ct_finished arg pc)) in V. exact V.
      * intros t' n. unfold fin. rewrite (Ot t' n). reflexivity.
    + apply (JR_private (there (hm_cats m)) _ (listed (r_threads r) (hm_threads m)) _ (walks (r_threads r)) _ (resizing (r_threads r))); auto.
      * exact (j_r r HJ).
      * unfold private. apply Forall_forall. intros a Ha. destruct (Ins a Ha) as [->|[->|[->| ->]]]; exact Logic.I.
      * intros j k0 Q. apply (listed_less _ _ _ _ _ _ _ _ _ _ _ _ Hi Hst Hts HL) in Q. split; [exact (k_list r HK j k0 Q)|exact Q].
      * apply (resizing_same _ _ _ _ _ _ Hi). intros c0. reflexivity.
    + apply (todo_keep r i _ m' _ _ WNone p HJ Hi); auto; try apply incl_refl.
      intros j k0 t0 _ Q. split; [exact Q|]. intros n' Q'. destruct (Ins _ Q') as [X|[X|[X|X]]]; try discriminate. injection X as _ ->. exact (OR k0 Q).
    + apply (looks_keep _ i s _ [t] (j_looks r HJ)). intros n' t' Q. destruct (Ins _ Q) as [X|[X|[X|X]]]; discriminate.
Qed.

(** *** Free *)
Lemma step_free (r : rmachine) i t ts p q : K r -> nth_error (r_threads r) i = Some (WNone, p) -> nth_error (hm_threads (r_m r)) i = Some (HFreeing (t :: ts), q) ->
  good r i (emit r i (free_script t (hm_heap (r_m r))) (h_step (r_m r) i) WNone p).
Proof.
  intros HK Hi Hst. pose proof (k_inv r HK) as I. set (m := r_m r) in *. set (h := hm_heap m) in *.
  assert (Hw : In t (way (hm_threads m) i)) by (unfold way; rewrite Hst; left; reflexivity).
  destruct (way_only m i t I Hw) as (NP & NR & Lt). destruct (h_free_ok t h (i_wf m I) Lt NP) as (h' & E & W' & Ll & Fp & V & Ot & _ & _).
  assert (Es : h_step m i = Ok (MkHM h' (hm_sizes m) (hm_cats m) (hm_handles m) (set_thread m i (finish_state ts) q) (hm_results m))).
  { unfold M_Heap.h_step. rewrite Hst. fold h. rewrite E. reflexivity. }
  assert (I' := inv_step Sprintf CallersFrames _ _ _ I (step_fun Sprintf CallersFrames _ _ _ I Es)).
  rewrite Es. set (m' := MkHM _ _ _ _ _ _) in *. pose proof (nth_set m i _ q (finish_state ts) q Hst) as Hts. change (set_thread m i (finish_state ts) q) with (hm_threads m') in Hts.
  assert (HW : incl (on_the_way (finish_state ts)) (on_the_way (HFreeing (t :: ts)))) by (rewrite finish_state_way; intros x Hx; right; exact Hx).
  apply good_emit; [exact HK| |].
  - intros _. apply (K_emit r i _ _ m' WNone p (finish_state ts) q _ HK Hi I' Hts); auto.
    + intros ks cap d. apply finish_state_not.
    + cbn [m' hm_heap]. rewrite Ll. change (hm_heap (r_m r)) with h. lia.
    + intros k [].
    + intros t' [].
  - intros _ HJ HO _. destruct (t_alive _ _ _ _ _ _ _ (j_t r HJ) t (or_introl (ex_intro _ i Hw))) as (c & n & A).
    destruct (t_own _ _ _ _ _ _ _ (j_t r HJ) i t c n Hw A) as [Kc _].
    destruct (ct_finished (to_head (tr_at h t))) eqn:F.
    + set (s1 := Acq (SMtx t) :: Rd (LState t) :: free_loop h (to_events (tr_at h t)) ++ [Wr (LState t)]).
      assert (Sc : free_script t h = s1 ++ [Recycle t; Rel (SPoolT t); Rel (SMtx t)]).
      { unfold free_script. fold (tr_at h t). rewrite F. unfold locked, s1, free_loop. cbn [app]. do 2 f_equal. rewrite <- !app_assoc. reflexivity. }
      assert (Il : forall a, In a (free_loop h (to_events (tr_at h t))) -> (exists z, a = Rel (SPoolZ z)) \/ (exists e, a = Wr (LEvent e) \/ a = Rel (SPoolE e))).
      { intros a Ha. apply in_flat_map in Ha. destruct Ha as (ev & _ & Ha). apply in_app_or in Ha. destruct Ha as [Ha|[<-|[<-|[]]]]; [apply in_map_iff in Ha; destruct Ha as (z & <- & _); eauto|eauto|eauto]. }
      assert (I1 : forall a, In a s1 -> a = Acq (SMtx t) \/ a = Rd (LState t) \/ a = Wr (LState t) \/ (exists z, a = Rel (SPoolZ z)) \/ (exists e, a = Wr (LEvent e) \/ a = Rel (SPoolE e))).
      { intros a [<-|[<-|Ha]]; auto. apply in_app_or in Ha. destruct Ha as [Ha|[<-|[]]]; [|auto]. destruct (Il a Ha); auto 6. }
      assert (Is : forall a, In a (free_script t h) -> In a s1 \/ a = Recycle t \/ a = Rel (SPoolT t) \/ a = Rel (SMtx t)).
      { intros a. rewrite Sc. intros Ha. apply in_app_or in Ha. destruct Ha as [Ha|[<-|[<-|[<-|[]]]]]; auto. }
      assert (WS : forall j k0, walks (r_threads r) j k0 <-> walks (update i (WNone, p) (r_threads r)) j k0) by (apply (walks_same _ _ _ _ _ _ Hi); intros k0; reflexivity).
      assert (HL : incl (list_of (WNone : walk) (finish_state ts)) (list_of (WNone : walk) (HFreeing (t :: ts)))) by (intros x []).
      constructor; cbn [r_m r_threads r_log].
      * apply race_free_script; [exact (j_race r HJ)|]. apply cov_free; [exact (j_o r HJ)|]. intros p0. exact (may_lock _ _ _ _ _ _ _ _ _ _ _ p0 (j_t r HJ) A Kc).
      * apply (JO_free h h'); auto; [exact (j_o r HJ)|exact (i_wf m I)|]. exact (free_frees t h h' (i_wf m I) Lt F E).
      * apply (JT_weaken _ _ _ _ (fin h) _ (walks (r_threads r))); [| |intros j k Q; apply WS; exact Q].
        -- cbn [m' hm_heap hm_cats hm_handles]. rewrite Fp, Sc. apply (JT_free (way (hm_threads m))); auto.
           ++ exact (j_t r HJ).
           ++ unfold no_marks. apply Forall_forall. intros a Ha. destruct (I1 a Ha) as [->|[->|[->|[(z & ->)|(e & [->| ->])]]]]; exact Logic.I.
           ++ left. reflexivity.
           ++ intros a Ha t' w. destruct (I1 a Ha) as [->|[->|[->|[(z & ->)|(e & [->| ->])]]]]; discriminate.
           ++ intros a Ha t' w Hw'. destruct (I1 a Ha) as [->|[->|[->|[(z & ->)|(e & [->| ->])]]]]; cbn in Hw'; congruence.
           ++ apply (pool_only m' t I'). cbn [m' hm_heap]. rewrite Fp. left. reflexivity.
           ++ exact (way_less _ _ _ _ _ _ _ Hst Hts HW).
        -- intros t' Q. destruct (Nat.eq_dec t' t) as [->|Ne]; [exact F|]. unfold fin in *. cbn [m' hm_heap] in Q. rewrite (Ot t' Ne) in Q. exact Q.
      * apply (JR_private (there (hm_cats m)) _ (listed (r_threads r) (hm_threads m)) _ (walks (r_threads r)) _ (resizing (r_threads r))); auto.
        -- exact (j_r r HJ).
        -- unfold private. apply Forall_forall. intros a Ha. destruct (Is a Ha) as [Hb|[->|[->| ->]]]; try exact Logic.I. destruct (I1 a Hb) as [->|[->|[->|[(z & ->)|(e & [->| ->])]]]]; exact Logic.I.
        -- intros j k0 Q. apply (listed_less _ _ _ _ _ _ _ _ _ _ _ _ Hi Hst Hts HL) in Q. split; [exact (k_list r HK j k0 Q)|exact Q].
        -- apply (resizing_same _ _ _ _ _ _ Hi). intros c0. reflexivity.
      * apply (todo_keep r i _ m' _ _ WNone p HJ Hi); auto; try apply incl_refl.
        intros j k0 t0 _ Q. split; [exact Q|]. intros n' Q'. destruct (Is _ Q') as [Hb|[X|[X|X]]]; try discriminate. destruct (I1 _ Hb) as [X|[X|[X|[(z & X)|(e & [X|X])]]]]; discriminate.
      * assert (NL : forall n' t', ~ In (Look n' t') (free_script t h)).
        { intros n' t' Q'. destruct (Is _ Q') as [Hb|[X|[X|X]]]; try discriminate. destruct (I1 _ Hb) as [X|[X|[X|[(z & X)|(e & [X|X])]]]]; discriminate. }
        intros q0 g n0 t0 Hq. pose proof (looks_keep _ i (free_script t h) _ [] (j_looks r HJ) NL q0 g n0 t0 Hq) as Q. rewrite app_nil_r in Q. exact Q.
    + subst h'. assert (Sc : free_script t h = [] ++ locked t [Rd (LState t)]) by (unfold free_script; fold (tr_at h t); rewrite F; reflexivity). rewrite Sc.
      apply (J_locked r i WNone p _ q WNone p (finish_state ts) q m' [] t [Rd (LState t)] c n HK HJ Hi Hst Hts); auto; try apply incl_refl; try (intros k; reflexivity).
      * intros a [].
      * intros a [<-|[]]. reflexivity.
      * cbn [accs access app]. constructor; [|constructor]. intros p0 y Ha _. destruct (may_lock _ _ _ _ _ _ _ _ _ _ _ p0 (j_t r HJ) A Kc (ex_intro _ y Ha)) as [Q|Q]; [auto|]. right. exists (SMtx t). split; [left; reflexivity|exact Q].
      * apply (quiet_JO t h); auto.
        -- exact (j_o r HJ).
        -- intros a [].
        -- intros a [<-|[]]. reflexivity.
        -- intros a c0 y [<-|[]]. intros [= <- <-]. reflexivity.
Qed.
End Steps.

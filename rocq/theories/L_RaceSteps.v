(** Every step of the machine of M_Race preserves the invariant behind C77. *)
From Verif Require Import Go L_List M_Strings M_Types S_RingBuf S_Trace M_Trace M_Mutex M_Steps P_Mutex M_Heap L_Heap S_Heap P_Heap S_Race M_Race L_Race L_RaceT L_RaceO L_RaceR L_RaceJ L_RaceStep.
From Coq Require Import Lia Permutation.
Open Scope list_scope.
Open Scope nat_scope.

Section Steps.
Context {arg world pc : Type}.
Variable Sprintf : world -> string -> list arg -> string.
Variable CallersFrames : list pc -> list rframe.
Notation env := (env arg world pc).
Notation heap := (heap arg pc).
Notation machine := (machine arg world pc).
Notation rmachine := (rmachine arg world pc).
Notation hop := (hop arg world pc).
Notation walk := (walk arg world pc).
Notation rop := (rop arg world pc).
Notation inv := (inv (arg := arg) (world := world) (pc := pc)).
Notation h_step := (h_step Sprintf CallersFrames).
Notation r_step := (r_step Sprintf CallersFrames).
Notation h_call := (h_call Sprintf CallersFrames).

(** *** Calls *)
Lemma step_call (r : rmachine) i n x ch p q : K r -> nth_error (r_threads r) i = Some (WNone, ROp (HCall n x ch) :: p) -> nth_error (hm_threads (r_m r)) i = Some (HIdle, q) ->
  good r i (match nth_error (hm_handles (r_m r)) n with
            | None => Ok r
            | Some t => '(h', _) <- h_call t x ch (hm_heap (r_m r)) ;;
                emit r i ([Use n] ++ (match snd x with CallFinish => [Fin n] | _ => [] end) ++ locked t (call_script t (snd x) ch (hm_heap (r_m r)) h')) (h_step (give (r_m r) i (HCall n x ch)) i) WNone p
            end).
Proof.
  intros HK Hi Hst. destruct (nth_error (hm_handles (r_m r)) n) as [t|] eqn:Hn; [|apply good_same; exact HK]. set (m := r_m r) in *. pose proof (k_inv r HK) as I. fold m in I.
  assert (Lt : t < length (h_traces (hm_heap m))) by (apply (i_handles m I); exact (nth_error_In _ _ Hn)).
  destruct (h_call_ok Sprintf CallersFrames t x ch (hm_heap m) (i_wf m I) Lt) as (h' & evs & E & C). rewrite E. cbn [bind].
  assert (Es : h_step (give m i (HCall n x ch)) i = Ok (MkHM h' (hm_sizes m) (hm_cats m) (hm_handles m) (set_thread (give m i (HCall n x ch)) i HIdle []) (hm_results m ++ match snd x with CallEvents k s => [(n, fst x, k, s, evs)] | _ => [] end))).
  { unfold M_Heap.h_step. rewrite (threads_give m i q _ Hst). change (hm_handles (give m i (HCall n x ch))) with (hm_handles m). change (hm_heap (give m i (HCall n x ch))) with (hm_heap m). rewrite Hn, E. reflexivity. }
  assert (I' := inv_step Sprintf CallersFrames _ _ _ (inv_give m i q (HCall n x ch) I Hst) (step_fun Sprintf CallersFrames _ _ _ (inv_give m i q (HCall n x ch) I Hst) Es)).
  rewrite Es. set (m' := MkHM _ _ _ _ _ _) in *. pose proof (nth_set_give m i q (HCall n x ch) HIdle [] Hst) as Hts. change (set_thread (give m i (HCall n x ch)) i HIdle []) with (hm_threads m') in Hts.
  apply good_emit; [exact HK| |].
  - intros _. apply (K_emit r i _ _ m' WNone p HIdle [] _ HK Hi I' Hts).
    + intros ks cap d. discriminate.
    + auto.
    + cbn [m' hm_heap]. rewrite (co_len _ _ _ _ _ _ _ C). fold m. lia.
    + intros k [].
    + intros t' [].
  - intros _ HJ HO _. set (pre := [Use n] ++ match snd x with CallFinish => [Fin n] | _ => [] end).
    assert (Hpre : forall a, In a pre -> marker a) by (intros a [<-|Q]; [exists n; auto|]; destruct (snd x); cbn in Q; try contradiction; destruct Q as [<-|[]]; exists n; auto).
    rewrite app_assoc in *. fold pre in HO. fold pre.
    assert (OU : orderly (r_log r ++ [(i, Use n)])) by (apply (orderly_prefix _ (by_ i (tl pre ++ locked t (call_script t (snd x) ch (hm_heap m) h')))); rewrite <- app_assoc; exact HO).
    destruct (use_alive _ _ _ _ _ _ _ _ _ _ _ (j_t r HJ) OU (or_introl eq_refl) Hn) as (c & A & Kc & NP).
    destruct (call_body Sprintf CallersFrames t x ch (hm_heap m) h' evs (r_log r) i pre (i_wf m I) Lt (j_o r HJ) E C (fun p => may_lock _ _ _ _ _ _ _ _ _ _ _ p (j_t r HJ) A Kc) (fun p => may_look _ _ _ _ _ _ _ _ _ _ _ p (j_t r HJ) A Kc) Hpre) as (B1 & B2 & B3).
    apply (J_locked r i WNone (ROp (HCall n x ch) :: p) HIdle q WNone p HIdle [] m' pre t _ c n HK HJ Hi Hst Hts); auto.
    + apply incl_refl.
    + exact (co_tpool _ _ _ _ _ _ _ C).
    + intros k. reflexivity.
    + intros k. reflexivity.
    + apply incl_refl.
    + apply incl_refl.
    + intros t' c' n' Al F. destruct (call_fin Sprintf CallersFrames t x (hm_heap m) h' evs t' C F) as [Q|[-> Q]]; [auto|]. right.
      destruct (alive_fun _ _ _ _ _ _ A Al) as [<- <-]. assert (Hin : In (Fin n) pre) by (unfold pre; rewrite Q; right; left; reflexivity). split; [exact Hin|].
      intros p0 L Lk. apply (finish_looks _ _ _ _ _ _ _ _ _ _ _ c n _ (j_t r HJ) (j_looks r HJ) Hin HO A L Lk).
Qed.
Lemma state_body t l i : (forall p, touched l p (LState t) -> know l i p \/ passed l (SMtx t) p) -> (forall p, acc l p (LId t) true -> know l i p) ->
  (forall a, In a [Rd (LState t); Rd (LId t)] -> plain t a) /\ Forall (covered l i) (accs [SMtx t] [Rd (LState t); Rd (LId t)]).
Proof.
  intros HS HI. split; [intros b [<-|[<-|[]]]; reflexivity|]. cbn [accs access app]. constructor; [|constructor; [|constructor]].
  - intros p w' A _. destruct (HS p (ex_intro _ w' A)) as [Q|Q]; [auto|]. right. exists (SMtx t). split; [left; reflexivity|exact Q].
  - intros p w' A [->|Q]; [|discriminate]. left. exact (HI p A).
Qed.
Lemma state_JO t (h : heap) l i pre : JO h l -> t < length (h_traces h) -> (forall a, In a pre -> marker a) -> JO h (l ++ by_ i (pre ++ locked t [Rd (LState t); Rd (LId t)])).
Proof.
  intros HO L H1. apply (quiet_JO t h); auto.
  - intros b [<-|[<-|[]]]; reflexivity.
  - intros b c w [<-|[<-|[]]]; intros [= <- <-]; reflexivity.
Qed.
Lemma step_state (r : rmachine) i n p q : K r -> nth_error (r_threads r) i = Some (WNone, RState n :: p) -> nth_error (hm_threads (r_m r)) i = Some (HIdle, q) ->
  good r i (match nth_error (hm_handles (r_m r)) n with
            | None => Ok r
            | Some t => emit r i (Use n :: locked t [Rd (LState t); Rd (LId t)]) (Ok (r_m r)) WNone p
            end).
Proof.
  intros HK Hi Hst. destruct (nth_error (hm_handles (r_m r)) n) as [t|] eqn:Hn; [|apply good_same; exact HK]. pose proof (k_inv r HK) as I.
  assert (Lt : t < length (h_traces (hm_heap (r_m r)))) by (apply (i_handles (r_m r) I); exact (nth_error_In _ _ Hn)).
  pose proof (nth_keep (r_m r) i HIdle q Hst) as Hts. apply good_emit; [exact HK| |].
  - intros _. apply (K_emit r i _ _ (r_m r) WNone p HIdle q _ HK Hi I Hts); auto.
    + intros ks cap d. discriminate.
    + intros k [].
    + intros t' [].
  - intros _ HJ HO _. assert (OU : orderly (r_log r ++ [(i, Use n)])) by (apply (orderly_prefix _ (by_ i (locked t [Rd (LState t); Rd (LId t)]))); rewrite <- app_assoc; exact HO).
    destruct (use_alive _ _ _ _ _ _ _ _ _ _ _ (j_t r HJ) OU (or_introl eq_refl) Hn) as (c & A & Kc & NP).
    assert (Hpre : forall a, In a [Use n] -> marker a) by (intros a [<-|[]]; exists n; auto).
    destruct (state_body t (r_log r) i (fun p => may_lock _ _ _ _ _ _ _ _ _ _ _ p (j_t r HJ) A Kc) (fun p => may_look _ _ _ _ _ _ _ _ _ _ _ p (j_t r HJ) A Kc)) as [B1 B2].
    apply (J_locked r i WNone (RState n :: p) HIdle q WNone p HIdle q (r_m r) [Use n] t _ c n HK HJ Hi Hst Hts); auto; try apply incl_refl; try (intros k; reflexivity).
    apply (state_JO t (hm_heap (r_m r)) (r_log r) i [Use n] (j_o r HJ) Lt Hpre).
Qed.

(** *** Walkers *)
Lemma walker_knows (r : rmachine) i k t gs todo ks v p : K r -> J r -> nth_error (r_threads r) i = Some (WIn k ((t, gs) :: todo) ks v, p) ->
  t < length (h_traces (hm_heap (r_m r))) /\ exists c n, alive (r_log r) t c n /\ know (r_log r) i c /\ ~ In t (h_tpool (hm_heap (r_m r))) /\
    (forall k', In t (ringi (hm_cats (r_m r)) k') -> k' = k) /\ (forall j, ~ In t (way (hm_threads (r_m r)) j)).
Proof.
  intros HK HJ Hi. destruct (j_todo r HJ i k _ p t Hi eq_refl (or_introl eq_refl)) as [Hr Hk]. destruct (ring_only (r_m r) k t (k_inv r HK) Hr) as (NP & Uk & NW & Lt). split; [exact Lt|].
  destruct (t_alive _ _ _ _ _ _ _ (j_t r HJ) t (or_intror (ex_intro _ k Hr))) as (c & n & A). exists c, n. split; [exact A|]. split; [exact (Hk c n A)|]. auto.
Qed.
Lemma K_walk (r : rmachine) i k t gs gs' todo ks v p m' l' q : K r -> nth_error (r_threads r) i = Some (WIn k ((t, gs) :: todo) ks v, p) -> nth_error (hm_threads (r_m r)) i = Some (HIdle, q) ->
  inv m' -> hm_threads m' = hm_threads (r_m r) -> hm_cats m' = hm_cats (r_m r) -> length (h_traces (hm_heap m')) = length (h_traces (hm_heap (r_m r))) ->
  K (MkRM m' (update i (WIn k ((t, gs') :: todo) ks v, p) (r_threads r)) l').
Proof.
  intros HK Hi Hst I' E1 E2 E3. apply (K_emit r i _ _ m' _ p HIdle q _ HK Hi I').
  - intros j. rewrite E1. apply (nth_keep (r_m r) i HIdle q Hst).
  - reflexivity.
  - rewrite E2. auto.
  - lia.
  - intros k' Hk'. rewrite E2. apply (k_list r HK i). exists (WIn k ((t, gs) :: todo) ks v), p, HIdle, q. auto.
  - intros t' Ht'. rewrite E3. apply (k_todo r HK i _ p t' Hi). exact Ht'.
Qed.
Lemma step_walk_events (r : rmachine) i k t e n stacks ch gs todo ks v p q : K r -> nth_error (r_threads r) i = Some (WIn k ((t, GEvents e n stacks ch :: gs) :: todo) ks v, p) ->
  nth_error (hm_threads (r_m r)) i = Some (HIdle, q) ->
  good r i ('(h', _) <- h_call t (e, CallEvents n stacks) ch (hm_heap (r_m r)) ;;
            emit r i (locked t (events_script t n stacks (hm_heap (r_m r)) h')) (Ok (set_heap (r_m r) h')) (WIn k ((t, gs) :: todo) ks v) p).
Proof.
  intros HK Hi Hst. pose proof (k_inv r HK) as I. assert (Lt : t < length (h_traces (hm_heap (r_m r)))) by (apply (k_todo r HK i _ p t Hi); left; reflexivity).
  destruct (h_call_ok Sprintf CallersFrames t (e, CallEvents n stacks) ch (hm_heap (r_m r)) (i_wf _ I) Lt) as (h' & evs & E & C). rewrite E. cbn [bind].
  pose proof (inv_set_heap Sprintf CallersFrames (r_m r) t _ h' evs I C) as I'. pose proof (nth_keep (r_m r) i HIdle q Hst) as Hts.
  apply good_emit; [exact HK| |].
  - intros _. apply (K_walk r i k t (GEvents e n stacks ch :: gs) gs todo ks v p (set_heap (r_m r) h') _ q HK Hi Hst I'); auto. exact (co_len _ _ _ _ _ _ _ C).
  - intros _ HJ HO _. destruct (walker_knows r i k t _ todo ks v p HK HJ Hi) as (_ & c & n0 & A & Kc & NP & _).
    assert (Hpre : forall a, In a (@nil action) -> marker a) by (intros a []).
    destruct (call_body Sprintf CallersFrames t (e, CallEvents n stacks) ch (hm_heap (r_m r)) h' evs (r_log r) i [] (i_wf _ I) Lt (j_o r HJ) E C (fun p => may_lock _ _ _ _ _ _ _ _ _ _ _ p (j_t r HJ) A Kc) (fun p => may_look _ _ _ _ _ _ _ _ _ _ _ p (j_t r HJ) A Kc) Hpre) as (B1 & B2 & B3).
    apply (J_locked r i _ p HIdle q (WIn k ((t, gs) :: todo) ks v) p HIdle q (set_heap (r_m r) h') [] t (events_script t n stacks (hm_heap (r_m r)) h') c n0 HK HJ Hi Hst Hts); auto; try apply incl_refl; try (intros x; reflexivity).
    + exact (co_tpool _ _ _ _ _ _ _ C).
    + intros t' c' n' Al F. left. destruct (call_fin Sprintf CallersFrames t _ _ h' evs t' C F) as [Q|[_ Q]]; [exact Q|discriminate].
Qed.
Lemma step_walk_state (r : rmachine) i k t gs todo ks v p q : K r -> nth_error (r_threads r) i = Some (WIn k ((t, GState :: gs) :: todo) ks v, p) ->
  nth_error (hm_threads (r_m r)) i = Some (HIdle, q) ->
  good r i (emit r i (locked t [Rd (LState t); Rd (LId t)]) (Ok (r_m r)) (WIn k ((t, gs) :: todo) ks v) p).
Proof.
  intros HK Hi Hst. pose proof (k_inv r HK) as I. pose proof (nth_keep (r_m r) i HIdle q Hst) as Hts. apply good_emit; [exact HK| |].
  - intros _. apply (K_walk r i k t (GState :: gs) gs todo ks v p (r_m r) _ q HK Hi Hst I); auto.
  - intros _ HJ HO _. destruct (walker_knows r i k t _ todo ks v p HK HJ Hi) as (Lt & c & n0 & A & Kc & NP & _).
    destruct (state_body t (r_log r) i (fun p => may_lock _ _ _ _ _ _ _ _ _ _ _ p (j_t r HJ) A Kc) (fun p => may_look _ _ _ _ _ _ _ _ _ _ _ p (j_t r HJ) A Kc)) as [B1 B2].
    apply (J_locked r i _ p HIdle q (WIn k ((t, gs) :: todo) ks v) p HIdle q (r_m r) [] t _ c n0 HK HJ Hi Hst Hts); auto; try apply incl_refl; try (intros x; reflexivity).
    + intros a [].
    + apply (state_JO t (hm_heap (r_m r)) (r_log r) i [] (j_o r HJ) Lt). intros a [].
Qed.
Lemma step_walk_id (r : rmachine) i k t gs todo ks v p q : K r -> nth_error (r_threads r) i = Some (WIn k ((t, GId :: gs) :: todo) ks v, p) ->
  nth_error (hm_threads (r_m r)) i = Some (HIdle, q) ->
  good r i (emit r i [Rd (LId t)] (Ok (r_m r)) (WIn k ((t, gs) :: todo) ks v) p).
Proof.
  intros HK Hi Hst. pose proof (k_inv r HK) as I. pose proof (nth_keep (r_m r) i HIdle q Hst) as Hts. apply good_emit; [exact HK| |].
  - intros _. apply (K_walk r i k t (GId :: gs) gs todo ks v p (r_m r) _ q HK Hi Hst I); auto.
  - intros _ HJ HO _. destruct (walker_knows r i k t _ todo ks v p HK HJ Hi) as (Lt & c & n0 & A & Kc & NP & Uk & NW). set (w' := WIn k ((t, gs) :: todo) ks v).
    assert (Hl : incl (list_of w' HIdle) (list_of (WIn k ((t, GId :: gs) :: todo) ks v) HIdle)) by apply incl_refl.
    assert (WS : forall j k0, walks (r_threads r) j k0 <-> walks (update i (w', p) (r_threads r)) j k0) by (apply (walks_same _ _ _ _ _ _ Hi); intros k0; reflexivity).
    assert (Nw : forall p0 c0, length (r_log r) <= p0 -> touched (r_log r ++ by_ i [Rd (LId t)]) p0 c0 -> c0 = LId t).
    { intros p0 c0 L H. destruct (touched_by _ _ _ _ _ H) as [(y & H')|(_ & a & y & Ha & Hw)]; [apply acc_bound in H'; lia|]. apply nth_error_In in Ha. destruct Ha as [<-|[]]. injection Hw as <- <-. reflexivity. }
    assert (Nm : no_marks [Rd (LId t)]) by (constructor; [exact Logic.I|constructor]).
    constructor; cbn [r_m r_threads r_log].
    + apply race_free_script; [exact (j_race r HJ)|]. cbn [accs access app]. constructor; [|constructor]. intros p0 y Ha [->|Q]; [|discriminate]. left. exact (may_look _ _ _ _ _ _ _ _ _ _ _ p0 (j_t r HJ) A Kc Ha).
    + apply (JO_quiet (hm_heap (r_m r))); auto; try apply incl_refl.
      * exact (j_o r HJ).
      * intros t0. apply incl_refl.
      * intros a c0 y [<-|[]]; intros [= <- <-]; reflexivity.
      * intros a t0 y [<-|[]]; intros [[= <- _]|Q]; [exact Lt|discriminate].
    + apply (JT_step (way (hm_threads (r_m r))) (ringi (hm_cats (r_m r))) (h_tpool (hm_heap (r_m r))) _ (fin (hm_heap (r_m r))) (walks (r_threads r))); auto.
      * exact (j_t r HJ).
      * apply incl_refl.
      * intros t0 p0 L H. apply Nw in H; [discriminate|exact L].
      * intros t0 p0 y L H. assert (E := Nw p0 _ L (ex_intro _ y H)). injection E as ->. split; [exact NP|]. split.
        -- destruct (acc_by _ _ _ _ _ _ H) as [H'|(_ & a & Ha & Hw)]; [apply acc_bound in H'; lia|]. apply nth_error_In in Ha. destruct Ha as [<-|[]]. injection Hw as <-. reflexivity.
        -- right. split; [|exact NW]. intros k0 Hk0. rewrite (Uk k0 Hk0). apply WS. exists (WIn k ((t, GId :: gs) :: todo) ks v), p. split; [exact Hi|reflexivity].
      * intros j k0 Q. left. apply WS. exact Q.
    + apply (JR_private (there (hm_cats (r_m r))) _ (listed (r_threads r) (hm_threads (r_m r))) _ (walks (r_threads r)) _ (resizing (r_threads r))); auto.
      * exact (j_r r HJ).
      * constructor; [exact Logic.I|constructor].
      * intros j k0 Q. apply (listed_less _ _ _ _ _ _ _ _ _ _ _ _ Hi Hst Hts Hl) in Q. split; [exact (k_list r HK j k0 Q)|exact Q].
      * apply (resizing_same _ _ _ _ _ _ Hi). intros c0. reflexivity.
    + apply (todo_keep r i _ (r_m r) _ p w' p HJ Hi); auto; try apply incl_refl.
      intros j k0 t0 _ Q. split; [exact Q|]. intros n' [Q'|[]]; discriminate.
    + intros q0 g m t0 Hq. pose proof (looks_keep _ i [Rd (LId t)] _ [] (j_looks r HJ) (fun n t' Q => match Q with or_introl E => ltac:(discriminate E) | or_intror E => E end) q0 g m t0 Hq) as Q. rewrite app_nil_r in Q. exact Q.
Qed.
(** *** ID, Source, Category and Started *)
Lemma step_look (r : rmachine) i n p q : K r -> nth_error (r_threads r) i = Some (WNone, RLook n :: p) -> nth_error (hm_threads (r_m r)) i = Some (HIdle, q) ->
  good r i (match nth_error (hm_handles (r_m r)) n with None => Ok r | Some t => emit r i [Look n t] (Ok (r_m r)) WNone p end).
Proof.
  intros HK Hi Hst. destruct (nth_error (hm_handles (r_m r)) n) as [t|] eqn:Hn; [|apply good_same; exact HK]. pose proof (k_inv r HK) as I.
  assert (Lt : t < length (h_traces (hm_heap (r_m r)))) by (apply (i_handles (r_m r) I); exact (nth_error_In _ _ Hn)).
  pose proof (nth_keep (r_m r) i HIdle q Hst) as Hts. apply good_emit; [exact HK| |].
  - intros _. apply (K_emit r i _ _ (r_m r) WNone p HIdle q _ HK Hi I Hts); auto.
    + intros ks cap d. discriminate.
    + intros k [].
    + intros t' [].
  - intros _ HJ HO _. destruct (use_alive _ _ _ _ _ _ _ _ _ _ _ (j_t r HJ) HO (or_intror eq_refl) Hn) as (c & A & Kc & NP).
    assert (Hl : incl (list_of (WNone : walk) HIdle) (list_of (WNone : walk) HIdle)) by apply incl_refl.
    assert (WS : forall j k0, walks (r_threads r) j k0 <-> walks (update i (WNone, p) (r_threads r)) j k0) by (apply (walks_same _ _ _ _ _ _ Hi); intros k0; reflexivity).
    constructor; cbn [r_m r_threads r_log].
    + apply race_free_script; [exact (j_race r HJ)|]. cbn [accs access app]. constructor; [|constructor]. intros p0 y Ha [->|Q]; [|discriminate]. left. exact (may_look _ _ _ _ _ _ _ _ _ _ _ p0 (j_t r HJ) A Kc Ha).
    + apply (JO_quiet (hm_heap (r_m r))); auto; try apply incl_refl.
      * exact (j_o r HJ).
      * intros t0. apply incl_refl.
      * intros a c0 y [<-|[]]; intros [= <- <-]; reflexivity.
      * intros a t0 y [<-|[]]; intros [[= <- _]|Q]; [exact Lt|discriminate].
    + apply (JT_look (way (hm_threads (r_m r))) _ _ _ _ (walks (r_threads r))); auto.
      * exact (j_t r HJ).
      * intros j k0 Q. apply WS. exact Q.
    + apply (JR_private (there (hm_cats (r_m r))) _ (listed (r_threads r) (hm_threads (r_m r))) _ (walks (r_threads r)) _ (resizing (r_threads r))); auto.
      * exact (j_r r HJ).
      * constructor; [exact Logic.I|constructor].
      * intros j k0 Q. apply (listed_less _ _ _ _ _ _ _ _ _ _ _ _ Hi Hst Hts Hl) in Q. split; [exact (k_list r HK j k0 Q)|exact Q].
      * apply (resizing_same _ _ _ _ _ _ Hi). intros c0. reflexivity.
    + apply (todo_keep r i _ (r_m r) _ _ WNone p HJ Hi); auto; try apply incl_refl.
      intros j k0 t0 _ Q. split; [exact Q|]. intros n' [Q'|[]]; discriminate.
    + intros q0 g m t0 Hq. destruct (nth_by_old _ _ _ _ _ Hq) as [H'|(_ & _ & H')]; [exact (j_looks r HJ q0 g m t0 H')|]. cbn [snd] in H'. apply nth_error_In in H'. destruct H' as [Q|[]]. injection Q as <- <-. exact Hn.
Qed.
End Steps.

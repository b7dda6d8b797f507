(** Lemmas about the memory of traces. *)
From Verif Require Import Go L_List M_Strings M_Types S_RingBuf S_Trace M_Trace M_Steps M_Heap.
From Coq Require Import Lia Permutation.
Open Scope string_scope.
Open Scope list_scope.
Open Scope nat_scope.

Section Gen.
Context {A : Type}.
Lemma nth_update (d x : A) i j l : nth j (update i x l) d = if Nat.eqb i j && Nat.ltb i (length l) then x else nth j l d.
Proof.
  revert i j. induction l as [|y l IH]; intros [|i] [|j]; cbn [update nth length]; try reflexivity.
  - cbn [Nat.eqb]. destruct (Nat.eqb i j); reflexivity.
  - rewrite IH. cbn [Nat.eqb]. destruct (Nat.eqb i j); reflexivity.
Qed.
Lemma nth_update_at (d x : A) i l : i < length l -> nth i (update i x l) d = x.
Proof. intros H. rewrite nth_update, Nat.eqb_refl. apply Nat.ltb_lt in H. rewrite H. reflexivity. Qed.
Lemma nth_update_ne (d x : A) i j l : i <> j -> nth j (update i x l) d = nth j l d.
Proof. intros H. rewrite nth_update. apply Nat.eqb_neq in H. rewrite H. reflexivity. Qed.
Lemma length_update (x : A) i l : length (update i x l) = length l.
Proof. revert i. induction l as [|y l IH]; intros [|i]; cbn; auto. Qed.
Lemma nth_snoc_default (d : A) y l : nth y (l ++ [d]) d = nth y l d.
Proof.
  destruct (Nat.lt_ge_cases y (length l)) as [H|H]; [apply app_nth1; exact H|].
  rewrite app_nth2 by exact H. rewrite (nth_overflow l) by exact H. destruct (y - length l) as [|[|n]]; reflexivity.
Qed.
Lemma remove_nth_perm (l : list A) j x : nth_error l j = Some x -> Permutation l (x :: remove_nth j l).
Proof.
  revert j. induction l as [|y l IH]; intros [|j] E; try discriminate; cbn in E.
  - injection E as ->. reflexivity.
  - unfold remove_nth. cbn [firstn skipn app]. rewrite (IH j E) at 1. apply perm_swap.
Qed.
End Gen.
Lemma pool_get_spec {A} (zero : A) pick pool objs x pool' objs' :
  NoDup pool -> (forall y, In y pool -> y < length objs) -> pool_get zero pick pool objs = (x, pool', objs') ->
  NoDup pool' /\ incl pool' pool /\ ~ In x pool' /\ (In x pool \/ x = length objs) /\ x < length objs' /\ length objs <= length objs' /\
  (forall y, nth y objs' zero = nth y objs zero).
Proof.
  intros N B.
  assert (Fresh : forall x pool' objs', (length objs, pool, objs ++ [zero]) = (x, pool', objs') ->
    NoDup pool' /\ incl pool' pool /\ ~ In x pool' /\ (In x pool \/ x = length objs) /\ x < length objs' /\ length objs <= length objs' /\
    (forall y, nth y objs' zero = nth y objs zero)).
  { intros x' p' o' [= <- <- <-]. repeat split; try assumption; try (rewrite app_length; cbn; lia).
    - apply incl_refl.
    - intros H. specialize (B _ H). lia.
    - right. reflexivity.
    - intros y. apply nth_snoc_default. }
  unfold pool_get. destruct pick as [j|]; [|apply Fresh]. destruct (nth_error pool j) as [x'|] eqn:E; [|apply Fresh].
  intros [= <- <- <-]. pose proof (remove_nth_perm _ _ _ E) as P. pose proof (Permutation_NoDup P N) as N'. apply NoDup_cons_iff in N'. destruct N' as [N1 N2].
  assert (Hin : In x' pool) by (apply nth_error_In in E; exact E).
  repeat split; try assumption.
  - intros y Hy. apply (Permutation_in y (Permutation_sym P)). right. exact Hy.
  - left. exact Hin.
  - apply B. exact Hin.
  - lia.
Qed.

Section Heap.
Context {arg world pc : Type}.
Variable Sprintf : world -> string -> list arg -> string.
Variable CallersFrames : list pc -> list rframe.
Notation env := (env arg world pc).
Notation coreTrace := (coreTrace arg pc).
Notation heap := (heap arg pc).
Notation tobj := (tobj arg pc).
Notation eobj := (eobj pc).

(** The value that an event object, and a trace object, stand for. *)
Definition ev_at (h : heap) (e : nat) : eobj := nth e (h_events h) zeroEO.
Definition tr_at (h : heap) (t : nat) : tobj := nth t (h_traces h) zeroTO.
Definition z_at (h : heap) (z : nat) : stringer arg := nth z (h_stringers h) zeroStringer.
Definition what_at (h : heap) (w : option nat) : stringer arg := match w with Some z => z_at h z | None => zeroStringer end.
Definition event_value (h : heap) (e : nat) : coreEvent arg pc :=
  let o := ev_at h e in MkCE (eo_when o) (what_at h (eo_what o)) (eo_pc o) (frames_of (h_arrays h) (eo_stack o)) (eo_iserr o).
Definition trace_value (h : heap) (t : nat) : coreTrace := set_events (map (event_value h) (to_events (tr_at h t))) (to_head (tr_at h t)).
(** An event handed out, as a value. *)
Definition hevent_value (h : heap) (x : hevent) : Event := MkEvent (he_when x) (he_what x) (frames_of (h_arrays h) (he_stack x)) (he_iserr x).

(** Nobody shares anything. *)
Record wf (h : heap) : Prop := {
  wf_t_own : forall t t' e, In e (to_events (tr_at h t)) -> In e (to_events (tr_at h t')) -> t = t';
  wf_t_nodup : forall t, NoDup (to_events (tr_at h t));
  wf_t_pool : forall t e, In e (to_events (tr_at h t)) -> ~ In e (h_epool h) /\ e < length (h_events h) /\ eo_what (ev_at h e) <> None;
  wf_ep : NoDup (h_epool h) /\ forall e, In e (h_epool h) -> e < length (h_events h) /\ eo_what (ev_at h e) = None;
  wf_z_own : forall e e' z, eo_what (ev_at h e) = Some z -> eo_what (ev_at h e') = Some z -> e = e';
  wf_z_pool : forall e z, eo_what (ev_at h e) = Some z -> ~ In z (h_zpool h) /\ z < length (h_stringers h);
  wf_zp : NoDup (h_zpool h) /\ forall z, In z (h_zpool h) -> z < length (h_stringers h);
  wf_a_own : forall e e' a n n', eo_stack (ev_at h e) = Some (a, n) -> eo_stack (ev_at h e') = Some (a, n') -> e = e';
  wf_a_bound : forall e a n, eo_stack (ev_at h e) = Some (a, n) -> a < length (h_arrays h) /\ n <= length (nth a (h_arrays h) []);
  wf_tp : NoDup (h_tpool h) /\ forall t, In t (h_tpool h) -> t < length (h_traces h) /\ ct_finished (to_head (tr_at h t)) = true /\ to_events (tr_at h t) = []
}.

Lemma wf_empty : wf empty_heap.
Proof.
  assert (E : forall e, ev_at (empty_heap : heap) e = zeroEO) by (intros [|e]; reflexivity).
  assert (T : forall t, tr_at (empty_heap : heap) t = zeroTO) by (intros [|t]; reflexivity).
  constructor.
  - intros t t' e. rewrite T. intros [].
  - intros t. rewrite T. constructor.
  - intros t e. rewrite T. intros [].
  - split; [constructor|intros e []].
  - intros e e' z. rewrite E. discriminate.
  - intros e z. rewrite E. discriminate.
  - split; [constructor|intros e []].
  - intros e e' a n n'. rewrite E. discriminate.
  - intros e a n. rewrite E. discriminate.
  - split; [constructor|intros e []].
Qed.

Lemma trace_value_ext h h' t : tr_at h' t = tr_at h t -> (forall e, In e (to_events (tr_at h t)) -> event_value h' e = event_value h e) ->
  trace_value h' t = trace_value h t.
Proof. intros E H. unfold trace_value. rewrite E. f_equal. apply map_ext_in. exact H. Qed.

(** *** h_new *)
Lemma h_new_ok g now id pick src cat h h' t : wf h -> h_new g now id pick src cat h = (h', t) ->
  wf h' /\ (In t (h_tpool h) \/ t = length (h_traces h)) /\ ~ In t (h_tpool h') /\ incl (h_tpool h') (h_tpool h) /\
  length (h_traces h) <= length (h_traces h') /\ t < length (h_traces h') /\
  trace_value h' t = newCoreTrace g now id zeroCoreTrace src cat /\
  (forall t', t' <> t -> tr_at h' t' = tr_at h t') /\ (forall e, event_value h' e = event_value h e) /\
  to_events (tr_at h t) = [] /\ h_events h' = h_events h /\ h_arrays h' = h_arrays h.
Proof.
  intros W E. unfold h_new in E. destruct (pool_get zeroTO pick (h_tpool h) (h_traces h)) as [[x tpool] traces] eqn:Ep.
  destruct (wf_tp h W) as [Wt1 Wt2].
  destruct (pool_get_spec _ _ _ _ _ _ _ Wt1 (fun y Hy => proj1 (Wt2 y Hy)) Ep) as (N & I & X & O & L & L2 & D).
  injection E as <- <-. set (h' := MkHeap _ _ _ _ _ _ _).
  assert (Hx : to_events (tr_at h x) = []).
  { destruct O as [O|O]; [apply Wt2; exact O|]. unfold tr_at. rewrite nth_overflow by lia. reflexivity. }
  assert (Nx : tr_at h' x = MkTO (newCoreTrace g now id (to_head (nth x traces zeroTO)) src cat) []).
  { unfold tr_at, h'. cbn [h_traces]. rewrite nth_update_at by exact L. reflexivity. }
  assert (No : forall t', t' <> x -> tr_at h' t' = tr_at h t').
  { intros t' Ht. unfold tr_at, h'. cbn [h_traces]. rewrite nth_update_ne by congruence. apply D. }
  assert (Ev : forall t' e, In e (to_events (tr_at h' t')) -> In e (to_events (tr_at h t'))).
  { intros t' e. destruct (Nat.eq_dec t' x) as [->|n]; [rewrite Nx; intros []|rewrite (No _ n); auto]. }
  split; [|repeat split].
  - constructor.
    + intros t t' e H1 H2. exact (wf_t_own h W t t' e (Ev _ _ H1) (Ev _ _ H2)).
    + intros t. destruct (Nat.eq_dec t x) as [->|n]; [rewrite Nx; constructor|rewrite (No _ n); apply (wf_t_nodup h W)].
    + intros t e H. exact (wf_t_pool h W t e (Ev _ _ H)).
    + exact (wf_ep h W).
    + exact (wf_z_own h W).
    + exact (wf_z_pool h W).
    + exact (wf_zp h W).
    + exact (wf_a_own h W).
    + exact (wf_a_bound h W).
    + split; [exact N|]. intros t Ht. cbn [h_tpool h'] in Ht.
      assert (n : t <> x) by (intros ->; exact (X Ht)). destruct (Wt2 t (I t Ht)) as (H1 & H2 & H3). rewrite (No _ n).
      unfold h' at 1. cbn [h_traces]. rewrite length_update. split; [lia|]. split; assumption.
  - exact O.
  - exact X.
  - exact I.
  - unfold h'. cbn [h_traces]. rewrite length_update. exact L2.
  - unfold h'. cbn [h_traces]. rewrite length_update. exact L.
  - unfold trace_value. rewrite Nx. reflexivity.
  - exact No.
  - exact Hx.
Qed.

(** *** set_trace with the same events *)
Lemma tr_at_set t o h t' : t < length (h_traces h) -> tr_at (set_trace t o h) t' = if Nat.eqb t t' then o else tr_at h t'.
Proof.
  intros L. unfold tr_at, set_trace. cbn [h_traces]. rewrite nth_update. apply Nat.ltb_lt in L. rewrite L, Bool.andb_true_r. reflexivity.
Qed.
Lemma set_head_ok t head h : wf h -> t < length (h_traces h) ->
  (ct_finished (to_head (tr_at h t)) = true -> ct_finished head = true) ->
  wf (set_trace t (MkTO head (to_events (tr_at h t))) h).
Proof.
  intros W L F. set (h' := set_trace _ _ _).
  assert (Ev : forall t', to_events (tr_at h' t') = to_events (tr_at h t')).
  { intros t'. unfold h'. rewrite tr_at_set by exact L. destruct (Nat.eqb_spec t t') as [<-|n]; reflexivity. }
  constructor.
  - intros t1 t2 e. rewrite !Ev. apply (wf_t_own h W).
  - intros t1. rewrite Ev. apply (wf_t_nodup h W).
  - intros t1 e. rewrite Ev. apply (wf_t_pool h W).
  - exact (wf_ep h W).
  - exact (wf_z_own h W).
  - exact (wf_z_pool h W).
  - exact (wf_zp h W).
  - exact (wf_a_own h W).
  - exact (wf_a_bound h W).
  - destruct (wf_tp h W) as [N P]. split; [exact N|]. intros t' Ht. destruct (P t' Ht) as (H1 & H2 & H3). rewrite Ev.
    unfold h' at 1. cbn [set_trace h_traces]. rewrite length_update. split; [exact H1|]. split; [|exact H3].
    unfold h'. rewrite tr_at_set by exact L. destruct (Nat.eqb_spec t t') as [<-|n]; [apply F; exact H2|exact H2].
Qed.
Lemma set_head_value t head h : t < length (h_traces h) ->
  trace_value (set_trace t (MkTO head (to_events (tr_at h t))) h) t = set_events (map (event_value h) (to_events (tr_at h t))) head.
Proof. intros L. unfold trace_value. rewrite tr_at_set, Nat.eqb_refl by exact L. reflexivity. Qed.

(** *** h_new_event *)
Lemma newCoreEvent_value (e : env) lazy iserr nostack f a z0 :
  newCoreEvent Sprintf e lazy iserr nostack f a =
  MkCE (e_now e) (if lazy then newLazyStringer z0 f a else newNormalStringer Sprintf z0 (e_world e) f a)
       (if nostack then [] else firstn 8 (e_pcs e)) [] iserr.
Proof. unfold newCoreEvent. cbn. destruct lazy; reflexivity. Qed.
Lemma log_event_ok e ep zp lazy iserr nostack f a h h1 ev t head : wf h -> t < length (h_traces h) -> ct_finished (to_head (tr_at h t)) = false ->
  h_new_event Sprintf e ep zp lazy iserr nostack f a h = (h1, ev) ->
  let h' := set_trace t (MkTO head (to_events (tr_at h t) ++ [ev])) h1 in
  wf h' /\ h_tpool h' = h_tpool h /\ length (h_traces h') = length (h_traces h) /\
  event_value h' ev = newCoreEvent Sprintf e lazy iserr nostack f a /\
  (In ev (h_epool h) \/ length (h_events h) <= ev) /\
  (forall e', e' <> ev -> event_value h' e' = event_value h e' /\ ev_at h' e' = ev_at h e') /\
  (forall t', t' <> t -> tr_at h' t' = tr_at h t') /\ tr_at h' t = MkTO head (to_events (tr_at h t) ++ [ev]) /\ h_arrays h' = h_arrays h.
Proof.
  intros W L NF E. unfold h_new_event in E. destruct (wf_ep h W) as [We1 We2]. destruct (wf_zp h W) as [Wz1 Wz2].
  destruct (pool_get zeroEO ep (h_epool h) (h_events h)) as [[ev' epool] events] eqn:Ep.
  destruct (pool_get_spec _ _ _ _ _ _ _ We1 (fun y Hy => proj1 (We2 y Hy)) Ep) as (Ne & Ie & Xe & Oe & Le & L2e & De).
  destruct (pool_get zeroStringer zp (h_zpool h) (h_stringers h)) as [[z zpool] stringers] eqn:Zp.
  destruct (pool_get_spec _ _ _ _ _ _ _ Wz1 Wz2 Zp) as (Nz & Iz & Xz & Oz & Lz & L2z & Dz).
  injection E as <- <-. set (zo := if lazy then _ else _). set (o := MkEO _ _ _ _ _).
  match goal with |- let h' := set_trace _ _ ?x in _ => set (h1 := x) end. intros h'.
  assert (L1 : t < length (h_traces h1)) by exact L.
  assert (Eev : ev_at h' ev' = o). { unfold ev_at, h', set_trace, h1. cbn [h_events]. apply nth_update_at. exact Le. }
  assert (Eo : forall e', e' <> ev' -> ev_at h' e' = ev_at h e').
  { intros e' n. unfold ev_at, h', set_trace, h1. cbn [h_events]. rewrite nth_update_ne by congruence. apply De. }
  assert (Zz : z_at h' z = zo). { unfold z_at, h', set_trace, h1. cbn [h_stringers]. apply nth_update_at. exact Lz. }
  assert (Zo : forall z', z' <> z -> z_at h' z' = z_at h z').
  { intros z' n. unfold z_at, h', set_trace, h1. cbn [h_stringers]. rewrite nth_update_ne by congruence. apply Dz. }
  assert (Tt : tr_at h' t = MkTO head (to_events (tr_at h t) ++ [ev'])).
  { unfold h'. rewrite tr_at_set by exact L1. rewrite Nat.eqb_refl. reflexivity. }
  assert (To : forall t', t' <> t -> tr_at h' t' = tr_at h t').
  { intros t' n. unfold h'. rewrite tr_at_set by exact L1. apply Nat.eqb_neq in n. rewrite Nat.eqb_sym, n. reflexivity. }
  (* z is used by no other event *)
  assert (Zfree : forall e', e' <> ev' -> eo_what (ev_at h e') <> Some z).
  { intros e' n Q. destruct (wf_z_pool h W e' z Q) as [Q1 Q2]. destruct Oz as [Oz|Oz]; [exact (Q1 Oz)|]. rewrite Oz in Q2. apply (Nat.lt_irrefl _ Q2). }
  (* ev' is in no trace *)
  assert (Efree : forall t', ~ In ev' (to_events (tr_at h t'))).
  { intros t' Q. destruct (wf_t_pool h W t' ev' Q) as (Q1 & Q2 & Q3). destruct Oe as [Oe|Oe]; [exact (Q1 Oe)|lia]. }
  assert (Evt : forall t' e', In e' (to_events (tr_at h' t')) -> In e' (to_events (tr_at h t')) \/ (t' = t /\ e' = ev')).
  { intros t' e'. destruct (Nat.eq_dec t' t) as [->|n]; [rewrite Tt|rewrite (To _ n); auto]. cbn [to_events]. intros H. apply in_app_or in H.
    destruct H as [H|[->|[]]]; auto. }
  assert (Ostack : eo_stack o = truncate (eo_stack (ev_at h ev'))). { unfold o. cbn [eo_stack]. rewrite De. reflexivity. }
  split; [|split; [reflexivity|split; [|split; [|split; [|split; [|split; [|split; [|]]]]]]]].
  - constructor.
    + intros t1 t2 e' H1 H2. destruct (Evt _ _ H1) as [H1'|[-> ->]], (Evt _ _ H2) as [H2'|[-> Q]].
      * exact (wf_t_own h W _ _ _ H1' H2').
      * subst e'. destruct (Efree _ H1').
      * destruct (Efree _ H2').
      * reflexivity.
    + intros t1. destruct (Nat.eq_dec t1 t) as [->|n]; [|rewrite (To _ n); apply (wf_t_nodup h W)]. rewrite Tt. cbn [to_events].
      apply (Permutation_NoDup (Permutation_cons_append _ _)). constructor; [apply Efree|apply (wf_t_nodup h W)].
    + intros t1 e' H1. change (h_epool h') with epool. assert (Ll : length (h_events h') = length events) by (unfold h', set_trace, h1; cbn [h_events]; apply length_update).
      rewrite Ll. destruct (Nat.eq_dec e' ev') as [->|n]; [rewrite Eev; repeat split; [exact Xe|exact Le|discriminate]|].
      destruct (Evt _ _ H1) as [H1'|[_ Q]]; [|contradiction]. destruct (wf_t_pool h W _ _ H1') as (Q1 & Q2 & Q3). rewrite (Eo _ n).
      split; [intros Q; apply Q1; apply Ie; exact Q|]. split; [lia|exact Q3].
    + change (h_epool h') with epool. split; [exact Ne|]. intros e' He. assert (n : e' <> ev') by (intros ->; exact (Xe He)).
      assert (Ll : length (h_events h') = length events) by (unfold h', set_trace, h1; cbn [h_events]; apply length_update). rewrite Ll, (Eo _ n).
      destruct (We2 e' (Ie _ He)) as [Q1 Q2]. split; [lia|exact Q2].
    + intros e1 e2 z' H1 H2. destruct (Nat.eq_dec e1 ev') as [->|n1], (Nat.eq_dec e2 ev') as [->|n2].
      * reflexivity.
      * rewrite Eev in H1. rewrite (Eo _ n2) in H2. injection H1 as <-. destruct (Zfree _ n2 H2).
      * rewrite Eev in H2. rewrite (Eo _ n1) in H1. injection H2 as <-. destruct (Zfree _ n1 H1).
      * rewrite (Eo _ n1) in H1. rewrite (Eo _ n2) in H2. exact (wf_z_own h W _ _ _ H1 H2).
    + intros e1 z' H1. change (h_zpool h') with zpool. assert (Ll : length (h_stringers h') = length stringers) by (unfold h', set_trace, h1; cbn [h_stringers]; apply length_update).
      rewrite Ll. destruct (Nat.eq_dec e1 ev') as [->|n1].
      * rewrite Eev in H1. injection H1 as <-. split; [exact Xz|exact Lz].
      * rewrite (Eo _ n1) in H1. destruct (wf_z_pool h W _ _ H1) as [Q1 Q2]. split; [intros Q; apply Q1; apply Iz; exact Q|lia].
    + change (h_zpool h') with zpool. split; [exact Nz|]. intros z' Hz. assert (Ll : length (h_stringers h') = length stringers) by (unfold h', set_trace, h1; cbn [h_stringers]; apply length_update).
      rewrite Ll. specialize (Wz2 z' (Iz _ Hz)). lia.
    + assert (Sub : forall e1 a n, eo_stack (ev_at h' e1) = Some (a, n) -> exists n', eo_stack (ev_at h e1) = Some (a, n')).
      { intros e1 a' n. destruct (Nat.eq_dec e1 ev') as [->|n1]; [rewrite Eev, Ostack|rewrite (Eo _ n1); eauto].
        destruct (eo_stack (ev_at h ev')) as [[b m]|]; cbn; [intros [= <- <-]; eauto|discriminate]. }
      intros e1 e2 a' n n' H1 H2. destruct (Sub _ _ _ H1) as [m1 Q1]. destruct (Sub _ _ _ H2) as [m2 Q2]. exact (wf_a_own h W _ _ _ _ _ Q1 Q2).
    + intros e1 a' n H1. change (h_arrays h') with (h_arrays h). destruct (Nat.eq_dec e1 ev') as [->|n1]; [|rewrite (Eo _ n1) in H1; exact (wf_a_bound h W _ _ _ H1)].
      rewrite Eev, Ostack in H1. destruct (eo_stack (ev_at h ev')) as [[b m]|] eqn:Q; cbn in H1; [|discriminate]. injection H1 as <- <-.
      split; [exact (proj1 (wf_a_bound h W _ _ _ Q))|lia].
    + change (h_tpool h') with (h_tpool h). destruct (wf_tp h W) as [N P]. split; [exact N|]. intros t' Ht. destruct (P t' Ht) as (Q1 & Q2 & Q3).
      assert (n : t' <> t) by (intros ->; congruence). rewrite (To _ n). split; [|split; assumption].
      unfold h', set_trace, h1. cbn [h_traces]. rewrite length_update. exact Q1.
  - unfold h', set_trace, h1. cbn [h_traces]. apply length_update.
  - rewrite (newCoreEvent_value _ _ _ _ _ _ (nth z stringers zeroStringer)). unfold event_value. rewrite Eev. unfold o at 1 2 3 4 5. cbn [eo_when eo_what eo_pc eo_iserr what_at].
    rewrite Zz. f_equal. rewrite De. destruct (eo_stack (nth ev' (h_events h) zeroEO)) as [[b m]|]; reflexivity.
  - destruct Oe as [Oe|Oe]; [left; exact Oe|right; lia].
  - intros e' n. split; [|apply Eo; exact n]. unfold event_value. rewrite (Eo _ n). f_equal.
    destruct (eo_what (ev_at h e')) as [z'|] eqn:Q; [|reflexivity]. cbn [what_at]. apply Zo. intros ->. exact (Zfree _ n Q).
  - exact To.
  - exact Tt.
  - reflexivity.
Qed.

Ltac sp := repeat match goal with |- _ /\ _ => split end.
(** *** Stacks *)
Definition at_array (s : fslice) (a : nat) : Prop := exists n, s = Some (a, n).
Definition slice_ok (arrays : list (list Frame)) (s : fslice) : Prop := forall a n, s = Some (a, n) -> a < length arrays /\ n <= length (nth a arrays []).
Lemma frames_len arrays s : slice_ok arrays s -> length (frames_of arrays s) = slice_len s.
Proof.
  intros H. destruct s as [[a n]|]; [|reflexivity]. destruct (H a n eq_refl) as [H1 H2]. cbn [frames_of slice_len]. rewrite firstn_length. apply Nat.min_l. exact H2.
Qed.
Lemma append_frame_ok arrays s fr spare arrays' s' : slice_ok arrays s -> append_frame arrays s fr spare = (arrays', s') ->
  frames_of arrays' s' = frames_of arrays s ++ [fr] /\ slice_ok arrays' s' /\
  (forall b, b < length arrays -> ~ at_array s b -> nth b arrays' [] = nth b arrays []) /\ length arrays <= length arrays' /\
  (forall a, at_array s' a -> at_array s a \/ length arrays <= a).
Proof.
  intros Hs. destruct s as [[a n]|]; cbn [append_frame].
  - destruct (Hs a n eq_refl) as [Ha Hn]. destruct (Nat.ltb_spec n (length (nth a arrays []))) as [Hlt|Hge]; intros [= <- <-].
    + assert (Hf : length (firstn n (nth a arrays [])) = n) by (rewrite firstn_length; lia).
      split; [|split; [|split; [|split]]].
      * cbn [frames_of]. rewrite nth_update_at by exact Ha. rewrite firstn_app, Hf.
        replace (S n - n) with 1 by lia. rewrite (firstn_all2 (firstn n _)) by (rewrite Hf; lia). reflexivity.
      * intros a' n' [= <- <-]. rewrite length_update, nth_update_at by exact Ha. split; [exact Ha|]. rewrite app_length, Hf. cbn [length]. lia.
      * intros b Hb Nb. apply nth_update_ne. intros ->. apply Nb. exists n. reflexivity.
      * rewrite length_update. lia.
      * intros a' [n' [= <- <-]]. left. exists n. reflexivity.
    + assert (n = length (nth a arrays [])) by lia. split; [|split; [|split; [|split]]].
      * cbn [frames_of]. rewrite app_nth2, Nat.sub_diag by lia. cbn [nth]. rewrite firstn_app, firstn_length.
        replace (S n - Nat.min n (length (nth a arrays []))) with 1 by lia. rewrite (firstn_all2 (firstn n _)) by (rewrite firstn_length; lia). reflexivity.
      * intros a' n' [= <- <-]. rewrite app_length, app_nth2, Nat.sub_diag by apply Nat.le_refl. cbn [nth length]. rewrite app_length, firstn_length. cbn [length]. lia.
      * intros b Hb _. apply app_nth1. exact Hb.
      * rewrite app_length. lia.
      * intros a' [n' [= <- <-]]. right. lia.
  - intros [= <- <-]. split; [|split; [|split; [|split]]].
    + cbn [frames_of]. rewrite app_nth2, Nat.sub_diag by lia. reflexivity.
    + intros a' n' [= <- <-]. rewrite app_length, app_nth2, Nat.sub_diag by apply Nat.le_refl. cbn [nth length]. lia.
    + intros b Hb _. apply app_nth1. exact Hb.
    + rewrite app_length. lia.
    + intros a' [n' [= <- <-]]. right. lia.
Qed.
Lemma stack_loop_ok spares : forall frames arrays s arrays' s', slice_ok arrays s -> h_stack_loop frames spares arrays s = (arrays', s') ->
  frames_of arrays' s' = getStack_loop frames (frames_of arrays s) /\ slice_ok arrays' s' /\
  (forall b, b < length arrays -> ~ at_array s b -> nth b arrays' [] = nth b arrays []) /\ length arrays <= length arrays' /\
  (forall a, at_array s' a -> at_array s a \/ length arrays <= a).
Proof.
  induction frames as [|fr [|fr2 rest] IH]; intros arrays s arrays' s' Hs E.
  - injection E as <- <-. sp; auto.
  - injection E as <- <-. sp; auto.
  - change (h_stack_loop (fr :: fr2 :: rest) spares arrays s) with
      (if negb (ignoreStackFrameFunction (rf_Function fr))
       then let '(arrays, s') := append_frame arrays s (MkFrame (rf_Function fr) (rf_File fr ++ ":" ++ itoa (rf_Line fr))) (spares (slice_len s)) in
            h_stack_loop (fr2 :: rest) spares arrays s'
       else h_stack_loop (fr2 :: rest) spares arrays s) in E.
    change (getStack_loop (fr :: fr2 :: rest) (frames_of arrays s)) with
      (getStack_loop (fr2 :: rest) (if negb (ignoreStackFrameFunction (rf_Function fr))
         then frames_of arrays s ++ [MkFrame (rf_Function fr) (rf_File fr ++ ":" ++ itoa (rf_Line fr))] else frames_of arrays s)).
    destruct (negb (ignoreStackFrameFunction (rf_Function fr))); [|exact (IH _ _ _ _ Hs E)].
    destruct (append_frame arrays s _ _) as [arrays1 s1] eqn:E1. destruct (append_frame_ok _ _ _ _ _ _ Hs E1) as (F1 & S1 & U1 & L1 & A1).
    destruct (IH _ _ _ _ S1 E) as (F2 & S2 & U2 & L2 & A2). rewrite F2, F1. split; [reflexivity|]. split; [exact S2|]. split; [|split; [lia|]].
    + intros b Hb Nb. rewrite U2; [apply U1; assumption|lia|]. intros Q. destruct (A1 b Q) as [Q'|Q']; [exact (Nb Q')|lia].
    + intros a Q. destruct (A2 a Q) as [Q'|Q']; [exact (A1 a Q')|right; lia].
Qed.

(** *** Reading an event *)
Definition others_same (h h' : heap) (ev : nat) : Prop := forall e', e' <> ev -> event_value h' e' = event_value h e' /\ ev_at h' e' = ev_at h e'.
(** Only the objects of events, their texts and their stacks may differ. *)
Definition events_only (h h' : heap) : Prop :=
  h_traces h' = h_traces h /\ h_tpool h' = h_tpool h /\ h_epool h' = h_epool h /\ h_zpool h' = h_zpool h /\ length (h_events h') = length (h_events h).
(** Stacks that were made stay. *)
Definition stable (h h' : heap) : Prop := forall ev, slice_len (eo_stack (ev_at h ev)) <> 0 ->
  eo_stack (ev_at h' ev) = eo_stack (ev_at h ev) /\ frames_of (h_arrays h') (eo_stack (ev_at h ev)) = frames_of (h_arrays h) (eo_stack (ev_at h ev)).
Lemma stable_trans h1 h2 h3 : stable h1 h2 -> stable h2 h3 -> stable h1 h3.
Proof.
  intros H1 H2 ev Hl. destruct (H1 ev Hl) as [E1 F1]. destruct (H2 ev) as [E2 F2]; [rewrite E1; exact Hl|]. rewrite E1 in *. split; congruence.
Qed.
Lemma snapshot_event_ok w stacks spares ev h t : wf h -> In ev (to_events (tr_at h t)) ->
  exists h' he, h_snapshot_event Sprintf CallersFrames w stacks spares ev h = Ok (h', he) /\ wf h' /\ events_only h h' /\
    (event_value h' ev, hevent_value h' he) = snapshotEvent Sprintf CallersFrames w (event_value h ev) stacks /\
    others_same h h' ev /\ (he_stack he = None \/ he_stack he = eo_stack (ev_at h' ev)) /\ stable h h'.
Proof.
  intros W Hin. destruct (wf_t_pool h W t ev Hin) as (Hp & Hlen & Hw). destruct (eo_what (ev_at h ev)) as [z|] eqn:Ez; [|congruence].
  destruct (wf_z_pool h W ev z Ez) as [Hzp Hzl].
  (* the object after getStack *)
  assert (G : exists arrays' o' stack, (if stacks then h_get_stack CallersFrames (ev_at h ev) spares (h_arrays h) else (h_arrays h, ev_at h ev, None)) = (arrays', o', stack) /\
     eo_what o' = Some z /\ eo_when o' = eo_when (ev_at h ev) /\ eo_pc o' = eo_pc (ev_at h ev) /\ eo_iserr o' = eo_iserr (ev_at h ev) /\
     (if stacks then getStack CallersFrames (event_value h ev) else (event_value h ev, [])) =
       (MkCE (eo_when o') (z_at h z) (eo_pc o') (frames_of arrays' (eo_stack o')) (eo_iserr o'), frames_of arrays' stack) /\
     (stack = None \/ stack = eo_stack o') /\ slice_ok arrays' (eo_stack o') /\ length (h_arrays h) <= length arrays' /\
     (forall b, b < length (h_arrays h) -> ~ at_array (eo_stack (ev_at h ev)) b -> nth b arrays' [] = nth b (h_arrays h) []) /\
     (forall a, at_array (eo_stack o') a -> at_array (eo_stack (ev_at h ev)) a \/ length (h_arrays h) <= a) /\
     (slice_len (eo_stack (ev_at h ev)) <> 0 -> eo_stack o' = eo_stack (ev_at h ev) /\ arrays' = h_arrays h)).
  { assert (Hs : slice_ok (h_arrays h) (eo_stack (ev_at h ev))) by (intros a n; apply (wf_a_bound h W)).
    assert (Hv : event_value h ev = MkCE (eo_when (ev_at h ev)) (z_at h z) (eo_pc (ev_at h ev)) (frames_of (h_arrays h) (eo_stack (ev_at h ev))) (eo_iserr (ev_at h ev))).
    { unfold event_value. rewrite Ez. reflexivity. }
    assert (Same : exists arrays' o' stack, (h_arrays h, ev_at h ev, @None (nat * nat)) = (arrays', o', stack) /\
     eo_what o' = Some z /\ eo_when o' = eo_when (ev_at h ev) /\ eo_pc o' = eo_pc (ev_at h ev) /\ eo_iserr o' = eo_iserr (ev_at h ev) /\
     (event_value h ev, @nil Frame) = (MkCE (eo_when o') (z_at h z) (eo_pc o') (frames_of arrays' (eo_stack o')) (eo_iserr o'), frames_of arrays' stack) /\
     (stack = None \/ stack = eo_stack o') /\ slice_ok arrays' (eo_stack o') /\ length (h_arrays h) <= length arrays' /\
     (forall b, b < length (h_arrays h) -> ~ at_array (eo_stack (ev_at h ev)) b -> nth b arrays' [] = nth b (h_arrays h) []) /\
     (forall a, at_array (eo_stack o') a -> at_array (eo_stack (ev_at h ev)) a \/ length (h_arrays h) <= a) /\
     (slice_len (eo_stack (ev_at h ev)) <> 0 -> eo_stack o' = eo_stack (ev_at h ev) /\ arrays' = h_arrays h)).
    { exists (h_arrays h), (ev_at h ev), None. rewrite Hv. cbn [frames_of]. sp; auto. }
    destruct stacks; [|exact Same]. unfold h_get_stack, getStack. rewrite Hv. cbn [ce_pc ce_stack ce_when ce_what ce_iserr].
    destruct (eo_pc (ev_at h ev)) as [|p0 ps] eqn:Ep; [rewrite Hv in Same; exact Same|]. clear Same.
    pose proof (frames_len _ _ Hs) as Hl. destruct (slice_len (eo_stack (ev_at h ev))) as [|n] eqn:El.
    - destruct (frames_of (h_arrays h) (eo_stack (ev_at h ev))) as [|f0 fs] eqn:Ef; [|discriminate].
      destruct (h_stack_loop (CallersFrames (p0 :: ps)) spares (h_arrays h) (eo_stack (ev_at h ev))) as [arrays' s'] eqn:E.
      destruct (stack_loop_ok _ _ _ _ _ _ Hs E) as (F & S & U & L & A). rewrite Ef in F.
      eexists _, _, _. split; [reflexivity|]. cbn [eo_what eo_when eo_pc eo_iserr eo_stack]. rewrite F. rewrite ?Ep. sp; auto; intros Q; contradiction Q; reflexivity.
    - destruct (frames_of (h_arrays h) (eo_stack (ev_at h ev))) as [|f0 fs] eqn:Ef; [discriminate|].
      exists (h_arrays h), (ev_at h ev), (eo_stack (ev_at h ev)). rewrite Ep, Ef. sp; auto. }
  destruct G as (arrays' & o' & stack & Eg & Ow & Owh & Opc & Oe & Ev & Est & Sok & La & Ua & Aa & Kk).
  unfold h_snapshot_event. fold (ev_at h ev). rewrite Eg, Ow. fold (z_at h z).
  destruct (stringer_String Sprintf w (z_at h z)) as [zo what] eqn:Es.
  eexists _, _. split; [reflexivity|]. match goal with |- wf ?x /\ _ => set (h' := x) end.
  assert (Eev : ev_at h' ev = o'). { unfold ev_at, h'. cbn [h_events]. apply nth_update_at. exact Hlen. }
  assert (Eo : forall e', e' <> ev -> ev_at h' e' = ev_at h e'). { intros e' n. unfold ev_at, h'. cbn [h_events]. apply nth_update_ne. congruence. }
  assert (Zz : z_at h' z = zo). { unfold z_at, h'. cbn [h_stringers]. apply nth_update_at. exact Hzl. }
  assert (Zo : forall z', z' <> z -> z_at h' z' = z_at h z'). { intros z' n. unfold z_at, h'. cbn [h_stringers]. apply nth_update_ne. congruence. }
  assert (Ewhat : forall e', eo_what (ev_at h' e') = eo_what (ev_at h e')).
  { intros e'. destruct (Nat.eq_dec e' ev) as [->|n]; [rewrite Eev, Ow, Ez; reflexivity|rewrite (Eo _ n); reflexivity]. }
  assert (Fr : forall e', e' <> ev -> frames_of arrays' (eo_stack (ev_at h e')) = frames_of (h_arrays h) (eo_stack (ev_at h e'))).
  { intros e' n. destruct (eo_stack (ev_at h e')) as [[b k]|] eqn:Q; [|reflexivity]. cbn [frames_of]. destruct (wf_a_bound h W _ _ _ Q) as [Q1 Q2].
    rewrite Ua; [reflexivity|exact Q1|]. intros [k' Q']. apply n. exact (wf_a_own h W _ _ _ _ _ Q Q'). }
  split; [|split; [|split; [|split]]].
  - constructor.
    + exact (wf_t_own h W).
    + exact (wf_t_nodup h W).
    + intros t1 e1 H1. destruct (wf_t_pool h W t1 e1 H1) as (Q1 & Q2 & Q3). split; [exact Q1|]. split; [unfold h'; cbn [h_events]; rewrite length_update; exact Q2|].
      rewrite Ewhat. exact Q3.
    + destruct (wf_ep h W) as [Q1 Q2]. split; [exact Q1|]. intros e1 H1. destruct (Q2 e1 H1) as [Q3 Q4]. split; [unfold h'; cbn [h_events]; rewrite length_update; exact Q3|].
      rewrite Ewhat. exact Q4.
    + intros e1 e2 z'. rewrite !Ewhat. apply (wf_z_own h W).
    + intros e1 z'. rewrite Ewhat. intros H1. destruct (wf_z_pool h W _ _ H1) as [Q1 Q2]. split; [exact Q1|]. unfold h'. cbn [h_stringers]. rewrite length_update. exact Q2.
    + destruct (wf_zp h W) as [Q1 Q2]. split; [exact Q1|]. intros z' H1. unfold h'. cbn [h_stringers]. rewrite length_update. exact (Q2 z' H1).
    + assert (Ne : forall e' a n n', e' <> ev -> eo_stack (ev_at h e') = Some (a, n) -> eo_stack o' = Some (a, n') -> False).
      { intros e' a n n' Ne Q Q'. destruct (Aa a (ex_intro _ n' Q')) as [[k Q1]|Q1]; [exact (Ne (wf_a_own h W _ _ _ _ _ Q Q1))|].
        destruct (wf_a_bound h W _ _ _ Q) as [Q2 _]. apply (Nat.lt_irrefl a). eapply Nat.lt_le_trans; eassumption. }
      intros e1 e2 a n n' H1 H2. destruct (Nat.eq_dec e1 ev) as [->|n1], (Nat.eq_dec e2 ev) as [->|n2].
      * reflexivity.
      * rewrite Eev in H1. rewrite (Eo _ n2) in H2. destruct (Ne _ _ _ _ n2 H2 H1).
      * rewrite Eev in H2. rewrite (Eo _ n1) in H1. destruct (Ne _ _ _ _ n1 H1 H2).
      * rewrite (Eo _ n1) in H1. rewrite (Eo _ n2) in H2. exact (wf_a_own h W _ _ _ _ _ H1 H2).
    + intros e1 a n H1. change (h_arrays h') with arrays'. destruct (Nat.eq_dec e1 ev) as [->|n1]; [rewrite Eev in H1; apply Sok; exact H1|].
      rewrite (Eo _ n1) in H1. destruct (wf_a_bound h W _ _ _ H1) as [Q1 Q2]. split; [lia|]. rewrite Ua; [exact Q2|exact Q1|].
      intros [k Q']. apply n1. exact (wf_a_own h W _ _ _ _ _ H1 Q').
    + exact (wf_tp h W).
  - unfold events_only, h'. cbn. rewrite length_update. auto.
  - unfold snapshotEvent. rewrite Ev. cbn [ce_what ce_when ce_pc ce_stack ce_iserr]. rewrite Es. unfold hevent_value, event_value. cbn [he_when he_what he_stack he_iserr].
    rewrite Eev, Ow. cbn [what_at]. rewrite Zz. reflexivity.
  - intros e' n. split; [|apply Eo; exact n]. unfold event_value. rewrite (Eo _ n). change (h_arrays h') with arrays'. rewrite (Fr _ n). f_equal.
    destruct (eo_what (ev_at h e')) as [z'|] eqn:Q; [|reflexivity]. cbn [what_at]. apply Zo. intros ->. apply n. exact (wf_z_own h W _ _ _ Q Ez).
  - split; [cbn [he_stack]; rewrite Eev; exact Est|]. intros e' Hl. change (h_arrays h') with arrays'. destruct (Nat.eq_dec e' ev) as [->|n].
    + destruct (Kk Hl) as [Q1 Q2]. rewrite Eev, Q1, Q2. auto.
    + rewrite (Eo _ n), (Fr _ n). auto.
Qed.

Lemma snapshot_ok w stacks spares t : forall evs h, wf h -> NoDup evs -> incl evs (to_events (tr_at h t)) ->
  exists h' hes, h_snapshot Sprintf CallersFrames w stacks spares evs h = Ok (h', hes) /\ wf h' /\ events_only h h' /\
    (map (event_value h') evs, map (hevent_value h') hes) = snapshotEvents Sprintf CallersFrames w (map (event_value h) evs) stacks /\
    (forall e', ~ In e' evs -> event_value h' e' = event_value h e' /\ ev_at h' e' = ev_at h e') /\
    Forall2 (fun ev he => he_stack he = None \/ he_stack he = eo_stack (ev_at h' ev)) evs hes /\ stable h h'.
Proof.
  induction evs as [|ev evs IH]; intros h W N I.
  - exists h, []. cbn. sp; auto; [unfold events_only; sp; reflexivity|intros ev Hl; auto].
  - apply NoDup_cons_iff in N. destruct N as [N1 N2].
    destruct (snapshot_event_ok w stacks spares ev h t W (I ev (or_introl eq_refl))) as (h1 & he & E1 & W1 & O1 & V1 & S1 & T1 & K1).
    assert (I1 : incl evs (to_events (tr_at h1 t))).
    { intros e He. unfold tr_at. rewrite (proj1 O1). apply I. right. exact He. }
    destruct (IH h1 W1 N2 I1) as (h2 & hes & E2 & W2 & O2 & V2 & S2 & T2 & K2).
    exists h2, (he :: hes). cbn [h_snapshot]. rewrite E1. cbn [bind]. rewrite E2. cbn [bind]. split; [reflexivity|]. split; [exact W2|].
    split; [destruct O1 as (? & ? & ? & ? & ?), O2 as (? & ? & ? & ? & ?); unfold events_only; repeat split; congruence|].
    assert (Hev : event_value h2 ev = event_value h1 ev /\ ev_at h2 ev = ev_at h1 ev) by (apply S2; exact N1).
    assert (Hhe : hevent_value h2 he = hevent_value h1 he).
    { unfold hevent_value. f_equal. destruct T1 as [->| ->]; [reflexivity|]. destruct Hev as [Q1 Q2]. apply (f_equal (@ce_stack _ _)) in Q1. cbn in Q1. rewrite Q2 in Q1. exact Q1. }
    split; [|split; [|split; [|exact (stable_trans _ _ _ K1 K2)]]].
    + cbn [map snapshotEvents]. rewrite (proj1 Hev), Hhe. rewrite <- V1.
      replace (map (event_value h) evs) with (map (event_value h1) evs); [rewrite <- V2; reflexivity|].
      apply map_ext_in. intros e He. apply S1. intros ->. exact (N1 He).
    + intros e' He'. assert (Q1 : e' <> ev) by (intros ->; apply He'; left; reflexivity). assert (Q2 : ~ In e' evs) by (intros Q; apply He'; right; exact Q).
      destruct (S2 e' Q2) as [-> ->]. exact (S1 e' Q1).
    + constructor; [|exact T2]. rewrite (proj2 Hev). exact T1.
Qed.

(** *** EventsDetail *)
Lemma events_detail_ok t e n stacks spares h : wf h ->
  exists h' hes, h_events_detail Sprintf CallersFrames t e n stacks spares h = Ok (h', hes) /\ wf h' /\ events_only h h' /\
    (trace_value h' t, map (hevent_value h') hes) = EventsDetail Sprintf CallersFrames e n stacks (trace_value h t) /\
    (forall e', ~ In e' (to_events (tr_at h t)) -> event_value h' e' = event_value h e' /\ ev_at h' e' = ev_at h e') /\
    (forall he, In he hes -> he_stack he = None \/ exists ev, In ev (to_events (tr_at h t)) /\ he_stack he = eo_stack (ev_at h' ev)) /\ stable h h'.
Proof.
  intros W. unfold h_events_detail. fold (tr_at h t). set (o := tr_at h t). set (n' := if ((n <=? 0)%Z || (zlen (to_events o) <? n)%Z)%bool then zlen (to_events o) else n).
  set (evs := skipn (Z.to_nat (zlen (to_events o) - n')) (to_events o)).
  assert (Dec : to_events o = firstn (Z.to_nat (zlen (to_events o) - n')) (to_events o) ++ evs) by (symmetry; apply firstn_skipn).
  assert (Nd : NoDup (to_events o)) by apply (wf_t_nodup h W).
  assert (NdE : NoDup evs). { rewrite Dec in Nd. clear - Nd. revert Nd. generalize (firstn (Z.to_nat (zlen (to_events o) - n')) (to_events o)). induction l; [auto|]. intros Q. apply NoDup_cons_iff in Q. apply IHl. apply Q. }
  assert (Disj : forall x, In x (firstn (Z.to_nat (zlen (to_events o) - n')) (to_events o)) -> ~ In x evs).
  { rewrite Dec in Nd. clear - Nd. revert Nd. generalize (firstn (Z.to_nat (zlen (to_events o) - n')) (to_events o)). induction l as [|y l IH]; [intros _ x []|].
    intros Q x. cbn in Q. apply NoDup_cons_iff in Q. destruct Q as [Q1 Q2]. intros [->|Hx]; [intros Hx; apply Q1; apply in_or_app; right; exact Hx|exact (IH Q2 x Hx)]. }
  assert (Inc : incl evs (to_events (tr_at h t))). { intros x Hx. fold o. rewrite Dec. apply in_or_app. right. exact Hx. }
  destruct (snapshot_ok (e_world e) stacks spares t evs h W NdE Inc) as (h' & hes & E & W' & O' & V & S & T & K).
  rewrite E. cbn [bind]. eexists _, _. split; [reflexivity|]. split; [exact W'|]. split; [exact O'|].
  assert (Ttr : tr_at h' t = o) by (unfold tr_at; rewrite (proj1 O'); reflexivity).
  split; [|split; [|split; [|exact K]]].
  - unfold EventsDetail, trace_value. rewrite Ttr. fold o. cbn [set_events ct_events ct_truncated ct_source ct_id ct_category ct_start ct_errored ct_finished ct_duration ct_nostack ct_eventsmax].
    unfold zlen. rewrite map_length. fold (zlen (to_events o)). fold n'. rewrite skipn_map. fold evs. rewrite <- V. f_equal.
    + unfold set_events. f_equal. rewrite firstn_map. rewrite Dec at 1. rewrite map_app. f_equal. apply map_ext_in. intros x Hx. apply S. apply Disj. exact Hx.
    + destruct (0 <? ct_truncated (to_head o))%Z; [|reflexivity]. assert (Tm : forall (f : hevent -> Event) l, map f (tl l) = tl (map f l)) by (intros f [|? ?]; reflexivity).
      rewrite Tm, map_app. reflexivity.
  - intros e' He'. apply S. intros Q. apply He'. apply Inc. exact Q.
  - intros he Hhe.
    assert (Gen : forall he, In he hes -> he_stack he = None \/ exists ev, In ev (to_events (tr_at h t)) /\ he_stack he = eo_stack (ev_at h' ev)).
    { intros x Hx. clear - T Hx Inc. revert Inc. generalize (tr_at h t). intros o' Inc. induction T as [|ev he' evs hes' Q T IH]; [destruct Hx|]. destruct Hx as [->|Hx].
      - destruct Q as [Q|Q]; [left; exact Q|right]. exists ev. split; [apply Inc; left; reflexivity|exact Q].
      - apply IH; [exact Hx|]. intros y Hy. apply Inc. right. exact Hy. }
    destruct (0 <? ct_truncated (to_head o))%Z; [|exact (Gen he Hhe)].
    assert (Hin : In he (hes ++ [MkHE (e_now e) (What (truncated_event (e_now e) (ct_truncated (to_head o)))) None false])).
    { clear - Hhe. destruct hes as [|x l]; cbn [app tl] in *; [destruct Hhe|right; exact Hhe]. }
    apply in_app_or in Hin. destruct Hin as [Hin|[<-|[]]]; [exact (Gen he Hin)|left; reflexivity].
Qed.

(** *** Free *)
(** During Free the trace still points to events that are already in the pool, so well-formedness
    is about what is left of its events. *)
Definition with_events (t : nat) (evs : list nat) (h : heap) : heap := set_trace t (MkTO (to_head (tr_at h t)) evs) h.
Lemma free_events_ok t : forall evs h, t < length (h_traces h) -> ct_finished (to_head (tr_at h t)) = true -> ~ In t (h_tpool h) -> wf (with_events t evs h) ->
  exists h', h_free_events evs h = Ok h' /\ wf (with_events t [] h') /\ h_traces h' = h_traces h /\ h_tpool h' = h_tpool h /\
    (forall e', ~ In e' evs -> event_value h' e' = event_value h e' /\ ev_at h' e' = ev_at h e') /\
    (forall e', In e' evs -> eo_stack (ev_at h' e') = truncate (eo_stack (ev_at h e'))) /\ h_arrays h' = h_arrays h.
Proof.
  induction evs as [|ev evs IH]; intros h L F NP W.
  - exists h. cbn. sp; auto. contradiction.
  - cbn [h_free_events].
    assert (Tt : forall l (g : heap), h_traces g = h_traces h -> tr_at (with_events t l g) t = MkTO (to_head (tr_at h t)) l).
    { intros l g Hg. unfold with_events. rewrite tr_at_set by (rewrite Hg; exact L). rewrite Nat.eqb_refl. unfold tr_at. rewrite Hg. reflexivity. }
    assert (To : forall l (g : heap) t', h_traces g = h_traces h -> t' <> t -> tr_at (with_events t l g) t' = tr_at h t').
    { intros l g t' Hg n. unfold with_events. rewrite tr_at_set by (rewrite Hg; exact L). apply Nat.eqb_neq in n. rewrite Nat.eqb_sym, n. unfold tr_at. rewrite Hg. reflexivity. }
    assert (Hin : In ev (to_events (tr_at (with_events t (ev :: evs) h) t))) by (rewrite (Tt _ h eq_refl); left; reflexivity).
    (* the object of ev *)
    destruct (wf_t_pool _ W t ev Hin) as (Hp & Hlen & Hw). change (ev_at (with_events t (ev :: evs) h)) with (ev_at h) in Hw.
    change (h_epool (with_events t (ev :: evs) h)) with (h_epool h) in Hp. change (h_events (with_events t (ev :: evs) h)) with (h_events h) in Hlen.
    unfold h_free_event. fold (ev_at h ev). destruct (eo_what (ev_at h ev)) as [z|] eqn:Ez; [|congruence]. cbn [bind].
    set (h1 := MkHeap _ _ _ _ _ _ _).
    assert (Eev : ev_at h1 ev = MkEO (eo_when (ev_at h ev)) None [] (truncate (eo_stack (ev_at h ev))) (eo_iserr (ev_at h ev))).
    { unfold ev_at, h1. cbn [h_events]. apply nth_update_at. exact Hlen. }
    assert (Eo : forall e', e' <> ev -> ev_at h1 e' = ev_at h e'). { intros e' n. unfold ev_at, h1. cbn [h_events]. apply nth_update_ne. congruence. }
    destruct (wf_z_pool _ W ev z Ez) as [Hzp Hzl].
    assert (Nd := wf_t_nodup _ W t). rewrite (Tt _ h eq_refl) in Nd. cbn [to_events] in Nd. apply NoDup_cons_iff in Nd. destruct Nd as [Nd1 Nd2].
    assert (Sub : forall t' e', In e' (to_events (tr_at (with_events t evs h1) t')) -> In e' (to_events (tr_at (with_events t (ev :: evs) h) t')) /\ e' <> ev).
    { intros t' e' H. destruct (Nat.eq_dec t' t) as [->|n].
      - rewrite (Tt _ h1 eq_refl) in H. rewrite (Tt _ h eq_refl). cbn [to_events] in *. split; [right; exact H|]. intros ->. exact (Nd1 H).
      - rewrite (To _ h1 t' eq_refl n) in H. rewrite (To _ h t' eq_refl n). split; [exact H|]. intros ->. apply n.
        apply (wf_t_own _ W t' t ev); [rewrite (To _ h t' eq_refl n); exact H|exact Hin]. }
    assert (W1 : wf (with_events t evs h1)).
    { constructor.
      - intros t1 t2 e1 H1 H2. exact (wf_t_own _ W t1 t2 e1 (proj1 (Sub _ _ H1)) (proj1 (Sub _ _ H2))).
      - intros t1. destruct (Nat.eq_dec t1 t) as [->|n]; [rewrite (Tt _ h1 eq_refl); exact Nd2|].
        rewrite (To _ h1 t1 eq_refl n). pose proof (wf_t_nodup _ W t1) as Q. rewrite (To _ h t1 eq_refl n) in Q. exact Q.
      - intros t1 e1 H1. destruct (Sub _ _ H1) as [H2 n]. destruct (wf_t_pool _ W t1 e1 H2) as (Q1 & Q2 & Q3).
        change (h_epool (with_events t evs h1)) with (ev :: h_epool h). split; [intros [Q|Q]; [congruence|exact (Q1 Q)]|].
        split; [unfold with_events, set_trace, h1; cbn [h_events]; rewrite length_update; exact Q2|].
        change (ev_at (with_events t evs h1) e1) with (ev_at h1 e1). rewrite (Eo _ n). exact Q3.
      - change (h_epool (with_events t evs h1)) with (ev :: h_epool h). destruct (wf_ep _ W) as [Q1 Q2]. split; [constructor; assumption|].
        intros e1 [<-|H1].
        + split; [unfold with_events, set_trace, h1; cbn [h_events]; rewrite length_update; exact Hlen|]. change (ev_at (with_events t evs h1) ev) with (ev_at h1 ev). rewrite Eev. reflexivity.
        + assert (n : e1 <> ev) by (intros ->; exact (Hp H1)). destruct (Q2 e1 H1) as [Q3 Q4].
          split; [unfold with_events, set_trace, h1; cbn [h_events]; rewrite length_update; exact Q3|]. change (ev_at (with_events t evs h1) e1) with (ev_at h1 e1). rewrite (Eo _ n). exact Q4.
      - intros e1 e2 z'. change (ev_at (with_events t evs h1)) with (ev_at h1). destruct (Nat.eq_dec e1 ev) as [->|n1]; [rewrite Eev; discriminate|].
        destruct (Nat.eq_dec e2 ev) as [->|n2]; [rewrite Eev; discriminate|]. rewrite (Eo _ n1), (Eo _ n2). apply (wf_z_own _ W).
      - intros e1 z'. change (ev_at (with_events t evs h1)) with (ev_at h1). destruct (Nat.eq_dec e1 ev) as [->|n1]; [rewrite Eev; discriminate|]. rewrite (Eo _ n1). intros H1.
        destruct (wf_z_pool _ W e1 z' H1) as [Q1 Q2]. change (h_zpool (with_events t evs h1)) with (z :: h_zpool h). split; [|exact Q2].
        intros [<-|Q]; [apply n1; exact (wf_z_own _ W _ _ _ H1 Ez)|exact (Q1 Q)].
      - change (h_zpool (with_events t evs h1)) with (z :: h_zpool h). destruct (wf_zp _ W) as [Q1 Q2]. split; [constructor; [exact Hzp|exact Q1]|].
        intros z' [<-|H1]; [exact Hzl|exact (Q2 z' H1)].
      - assert (Sb : forall e1 a n, eo_stack (ev_at h1 e1) = Some (a, n) -> exists n', eo_stack (ev_at h e1) = Some (a, n')).
        { intros e1 a n. destruct (Nat.eq_dec e1 ev) as [->|n1]; [rewrite Eev|rewrite (Eo _ n1); eauto]. cbn [eo_stack].
          destruct (eo_stack (ev_at h ev)) as [[b m]|]; cbn; [intros [= <- <-]; eauto|discriminate]. }
        intros e1 e2 a n n' H1 H2. destruct (Sb _ _ _ H1) as [m1 Q1]. destruct (Sb _ _ _ H2) as [m2 Q2]. exact (wf_a_own _ W _ _ _ _ _ Q1 Q2).
      - intros e1 a n H1. change (ev_at (with_events t evs h1)) with (ev_at h1) in H1. destruct (Nat.eq_dec e1 ev) as [->|n1]; [|rewrite (Eo _ n1) in H1; exact (wf_a_bound _ W _ _ _ H1)].
        rewrite Eev in H1. cbn [eo_stack] in H1. destruct (eo_stack (ev_at h ev)) as [[b m]|] eqn:Q; cbn in H1; [|discriminate]. injection H1 as <- <-.
        split; [exact (proj1 (wf_a_bound _ W _ _ _ Q))|lia].
      - change (h_tpool (with_events t evs h1)) with (h_tpool h). destruct (wf_tp _ W) as [Q1 Q2]. split; [exact Q1|]. intros t1 H1.
        assert (n : t1 <> t) by (intros ->; exact (NP H1)). destruct (Q2 t1 H1) as (Q3 & Q4 & Q5). rewrite (To _ h1 t1 eq_refl n).
        rewrite (To _ h t1 eq_refl n) in Q4, Q5. split; [|split; assumption]. unfold with_events, set_trace in *. cbn [h_traces h1] in *. rewrite length_update in *. exact Q3. }
    destruct (IH h1 L F NP W1) as (h' & E & W' & T' & P' & S' & R' & A'). exists h'. split; [exact E|]. split; [exact W'|]. split; [exact T'|]. split; [exact P'|].
    assert (Zv : forall e', e' <> ev -> event_value h1 e' = event_value h e').
    { intros e' n. unfold event_value. rewrite (Eo _ n). reflexivity. }
    split; [|split].
    + intros e' H. assert (n : e' <> ev) by (intros ->; apply H; left; reflexivity). assert (H2 : ~ In e' evs) by (intros Q; apply H; right; exact Q).
      destruct (S' e' H2) as [-> ->]. split; [apply Zv; exact n|apply Eo; exact n].
    + intros e' [<-|H].
      * destruct (S' ev Nd1) as [_ ->]. rewrite Eev. reflexivity.
      * rewrite (R' e' H). rewrite Eo; [reflexivity|]. intros ->. exact (Nd1 H).
    + rewrite A'. reflexivity.
Qed.
Lemma h_free_ok t h : wf h -> t < length (h_traces h) -> ~ In t (h_tpool h) ->
  exists h', h_free t h = Ok h' /\ wf h' /\ length (h_traces h') = length (h_traces h) /\
    (if ct_finished (to_head (tr_at h t)) then h_tpool h' = t :: h_tpool h else h' = h) /\
    trace_value h' t = fst (Free (trace_value h t)) /\
    (forall t', t' <> t -> tr_at h' t' = tr_at h t') /\
    (forall e', ~ In e' (to_events (tr_at h t)) -> event_value h' e' = event_value h e' /\ ev_at h' e' = ev_at h e') /\ h_arrays h' = h_arrays h.
Proof.
  intros W L NP. unfold h_free. fold (tr_at h t). destruct (ct_finished (to_head (tr_at h t))) eqn:F; cbn [negb].
  2: { exists h. split; [reflexivity|]. split; [exact W|]. split; [reflexivity|]. split; [reflexivity|]. split; [|auto].
       unfold Free, trace_value. cbn [set_events ct_finished]. rewrite F. reflexivity. }
  assert (We : wf (with_events t (to_events (tr_at h t)) h)) by (apply set_head_ok; auto).
  destruct (free_events_ok t _ h L F NP We) as (h1 & E & W1 & T1 & P1 & S1 & R1 & A1). rewrite E. cbn [bind]. eexists. split; [reflexivity|].
  match goal with |- wf ?x /\ _ => set (h' := x) end.
  assert (Eh : forall t', tr_at h' t' = tr_at (with_events t [] h1) t').
  { intros t'. unfold tr_at, h', with_events, set_trace. cbn [h_traces]. rewrite T1. unfold tr_at. rewrite T1. reflexivity. }
  assert (L1 : t < length (h_traces h1)) by (rewrite T1; exact L).
  assert (Tt : tr_at h' t = MkTO (to_head (tr_at h t)) []).
  { rewrite Eh. unfold with_events. rewrite tr_at_set by exact L1. rewrite Nat.eqb_refl. unfold tr_at. rewrite T1. reflexivity. }
  assert (To : forall t', t' <> t -> tr_at h' t' = tr_at h t').
  { intros t' n. rewrite Eh. unfold with_events. rewrite tr_at_set by exact L1. apply Nat.eqb_neq in n. rewrite Nat.eqb_sym, n. unfold tr_at. rewrite T1. reflexivity. }
  split; [|split; [|split; [|split; [|split; [|split]]]]].
  - constructor.
    + intros t1 t2 e1. rewrite !Eh. apply (wf_t_own _ W1).
    + intros t1. rewrite Eh. apply (wf_t_nodup _ W1).
    + intros t1 e1. rewrite Eh. apply (wf_t_pool _ W1).
    + exact (wf_ep _ W1).
    + exact (wf_z_own _ W1).
    + exact (wf_z_pool _ W1).
    + exact (wf_zp _ W1).
    + exact (wf_a_own _ W1).
    + exact (wf_a_bound _ W1).
    + change (h_tpool h') with (t :: h_tpool h1). rewrite P1. destruct (wf_tp h W) as [Q1 Q2]. split; [constructor; assumption|].
      assert (Ll : length (h_traces h') = length (h_traces h)) by (unfold h'; cbn [h_traces]; rewrite T1; apply length_update). rewrite Ll.
      intros t1 [<-|H1]; [rewrite Tt; auto|]. assert (n : t1 <> t) by (intros ->; exact (NP H1)). rewrite (To _ n). exact (Q2 t1 H1).
  - unfold h'. cbn [h_traces]. rewrite T1. apply length_update.
  - unfold h'. cbn [h_tpool]. rewrite P1. reflexivity.
  - unfold trace_value, Free. rewrite Tt. cbn [to_head to_events]. clear - F. destruct (to_head (tr_at h t)). cbn in F. subst. reflexivity.
  - exact To.
  - exact S1.
  - exact A1.
Qed.
End Heap.

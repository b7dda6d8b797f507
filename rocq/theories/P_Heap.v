(** C16, C17, C18: recycling of traces. *)
From Verif Require Import Go L_List M_Strings M_Types S_RingBuf S_Trace M_Trace L_Trace M_Mutex M_Steps P_Mutex M_Heap L_Heap S_Heap D_Demo.
From Coq Require Import Lia Permutation.
Open Scope string_scope.
Open Scope list_scope.
Open Scope nat_scope.

Ltac perm := apply (Permutation_count_occ Nat.eq_dec); let x := fresh "x" in intros x;
  repeat match goal with H : Permutation _ _ |- _ => apply (fun P => proj1 (Permutation_count_occ Nat.eq_dec _ _) P x) in H end;
  repeat (rewrite ?count_occ_app in *; cbn [count_occ] in * ); repeat match goal with |- context [Nat.eq_dec ?a ?b] => destruct (Nat.eq_dec a b) | H : context [Nat.eq_dec ?a ?b] |- _ => destruct (Nat.eq_dec a b) end; lia.

Section Proofs.
Context {arg world pc : Type}.
Variable Sprintf : world -> string -> list arg -> string.
Variable CallersFrames : list pc -> list rframe.
Notation env := (env arg world pc).
Notation coreTrace := (coreTrace arg pc).
Notation machine := (machine arg world pc).
Notation heap := (heap arg pc).
Notation wf := (wf (arg := arg) (pc := pc)).
Notation do_call := (do_call Sprintf CallersFrames).
Notation h_step := (h_step Sprintf CallersFrames).
Notation h_run := (h_run Sprintf CallersFrames).
Notation effects := (effects Sprintf CallersFrames).
Notation values := (values Sprintf CallersFrames).
Notation apply := (apply Sprintf CallersFrames).

(** *** One call *)
(** A slice that was handed out for an event: it stays what it is as long as the event's
    object keeps its frames. *)
Definition pinned (h : heap) (t : nat) (s : fslice) : Prop :=
  slice_len s = 0 \/ exists ev, In ev (to_events (tr_at h t)) /\ s = eo_stack (ev_at h ev).
Record call_ok (t : nat) (x : env * call arg) (h h' : heap) (evs : list hevent) : Prop := {
  co_wf : wf h';
  co_tpool : h_tpool h' = h_tpool h;
  co_len : length (h_traces h') = length (h_traces h);
  co_value : trace_value h' t = do_call (trace_value h t) x;
  co_other : forall t', t' <> t -> tr_at h' t' = tr_at h t' /\ trace_value h' t' = trace_value h t';
  co_answer : map (hevent_value h') evs = answer Sprintf CallersFrames (trace_value h t) x;
  co_pinned : forall he, In he evs -> pinned h' t (he_stack he);
  co_pins : forall t' s, pinned h t' s -> pinned h' t' s /\ frames_of (h_arrays h') s = frames_of (h_arrays h) s
}.
Lemma zero_len_frames arrays s : slice_len s = 0 -> frames_of arrays s = [].
Proof. destruct s as [[a n]|]; cbn; [intros ->; reflexivity|reflexivity]. Qed.
Lemma pins_same (h h' : heap) t' s : wf h ->
  (forall ev, In ev (to_events (tr_at h t')) -> In ev (to_events (tr_at h' t')) /\ ev_at h' ev = ev_at h ev /\ event_value h' ev = event_value h ev) ->
  pinned h t' s -> pinned h' t' s /\ frames_of (h_arrays h') s = frames_of (h_arrays h) s.
Proof.
  intros W H [Hz|(ev & Hin & ->)]; [split; [left; exact Hz|rewrite !zero_len_frames by exact Hz; reflexivity]|].
  destruct (H ev Hin) as (H1 & H2 & H3). split.
  - right. exists ev. rewrite H2. auto.
  - apply (f_equal (@ce_stack _ _)) in H3. cbn in H3. rewrite H2 in H3. exact H3.
Qed.
Lemma set_head_call_ok t head h x : wf h -> t < length (h_traces h) ->
  (ct_finished (to_head (tr_at h t)) = true -> ct_finished head = true) ->
  set_events (map (event_value h) (to_events (tr_at h t))) head = do_call (trace_value h t) x ->
  answer Sprintf CallersFrames (trace_value h t) x = [] ->
  call_ok t x h (set_trace t (MkTO head (to_events (tr_at h t))) h) [].
Proof.
  intros W L F E A.
  assert (To : forall t', t' <> t -> tr_at (set_trace t (MkTO head (to_events (tr_at h t))) h) t' = tr_at h t').
  { intros t' n. rewrite tr_at_set by exact L. apply Nat.eqb_neq in n. rewrite Nat.eqb_sym, n. reflexivity. }
  constructor.
  - apply set_head_ok; assumption.
  - reflexivity.
  - cbn [set_trace h_traces]. apply length_update.
  - rewrite set_head_value by exact L. exact E.
  - intros t' n. split; [apply To; exact n|]. apply trace_value_ext; [apply To; exact n|]. reflexivity.
  - rewrite A. reflexivity.
  - intros he [].
  - intros t' s. apply pins_same; [exact W|]. intros ev Hin. split; [|split; reflexivity].
    rewrite tr_at_set by exact L. destruct (Nat.eqb_spec t t') as [<-|n]; exact Hin.
Qed.

Lemma log_value c e k f a : do_call c (e, CallLog k f a) =
  if ct_finished c then c
  else let c := if is_error_kind k then mark_errored c else c in
       if (ct_eventsmax c <=? zlen (ct_events c))%Z then more_truncated c
       else set_events (ct_events c ++ [newCoreEvent Sprintf e (is_lazy_kind k) (is_error_kind k) (ct_nostack c) f a]) c.
Proof. unfold M_Trace.do_call. destruct k; reflexivity. Qed.
Lemma h_call_ok t x ch h : wf h -> t < length (h_traces h) ->
  exists h' evs, h_call Sprintf CallersFrames t x ch h = Ok (h', evs) /\ call_ok t x h h' evs.
Proof.
  intros W L. destruct x as [e [k f a| |n|n s]]; unfold h_call; cbn [fst snd].
  - (* log *)
    eexists _, _. split; [reflexivity|]. unfold h_log. fold (tr_at h t). set (o := tr_at h t).
    assert (Same : ct_finished (to_head o) = true -> call_ok t (e, CallLog k f a) h h []).
    { intros F. constructor; [exact W|reflexivity|reflexivity| |auto|reflexivity| |].
      - rewrite log_value. unfold trace_value. cbn [set_events ct_finished]. fold o. rewrite F. reflexivity.
      - intros he [].
      - intros t' s Hp. auto. }
    destruct (ct_finished (to_head o)) eqn:F; [exact (Same eq_refl)|]. clear Same.
    set (head := if is_error_kind k then mark_errored (to_head o) else to_head o).
    assert (Hev : (if is_error_kind k then mark_errored (trace_value h t) else trace_value h t) = set_events (map (event_value h) (to_events o)) head).
    { unfold head, trace_value. fold o. destruct (is_error_kind k); reflexivity. }
    destruct (ct_eventsmax head <=? zlen (to_events o))%Z eqn:M.
    + apply set_head_call_ok; [exact W|exact L| | |reflexivity].
      * fold o. rewrite F. discriminate.
      * rewrite log_value. change (ct_finished (trace_value h t)) with (ct_finished (to_head o)). rewrite F. cbv zeta. rewrite Hev. cbn [set_events ct_eventsmax ct_events].
        unfold zlen in *. rewrite map_length, M. reflexivity.
    + destruct (h_new_event Sprintf e (ch_ep ch) (ch_zp ch) (is_lazy_kind k) (is_error_kind k) (ct_nostack head) f a h) as [h1 ev] eqn:E.
      destruct (log_event_ok Sprintf e _ _ _ _ _ _ _ h h1 ev t head W L F E) as (Wf & Tp & Ln & Ve & Fre & Oth & To & Tt & Ar).
      fold o in Wf, Tp, Ln, Ve, Oth, To, Tt, Ar. set (h' := set_trace t (MkTO head (to_events o ++ [ev])) h1) in *.
      assert (Nin : forall t', ~ In ev (to_events (tr_at h t'))).
      { intros t' Q. destruct (wf_t_pool h W t' ev Q) as (Q1 & Q2 & _). destruct Fre as [Q3|Q3]; [exact (Q1 Q3)|lia]. }
      constructor; try assumption.
      * rewrite log_value. change (ct_finished (trace_value h t)) with (ct_finished (to_head o)). rewrite F. cbv zeta. rewrite Hev. cbn [set_events ct_eventsmax ct_events ct_nostack].
        unfold zlen in *. rewrite map_length, M. unfold trace_value. rewrite Tt. cbn [to_head to_events]. rewrite map_app. cbn [map]. rewrite Ve.
        replace (map (event_value h') (to_events o)) with (map (event_value h) (to_events o)); [reflexivity|].
        apply map_ext_in. intros e' He. symmetry. apply Oth. intros ->. exact (Nin t He).
      * intros t' n. split; [apply To; exact n|]. apply trace_value_ext; [apply To; exact n|]. intros e' He. apply Oth. intros ->. exact (Nin t' He).
      * reflexivity.
      * intros he [].
      * intros t' s. apply pins_same; [exact W|]. intros e' He. assert (n : e' <> ev) by (intros ->; exact (Nin t' He)). destruct (Oth e' n) as [Q1 Q2].
        split; [|split; assumption]. destruct (Nat.eq_dec t' t) as [->|n']; [rewrite Tt; cbn [to_events]; apply in_or_app; left; exact He|rewrite (To _ n'); exact He].
  - eexists _, _. split; [reflexivity|]. fold (tr_at h t). apply set_head_call_ok; [exact W|exact L| | |reflexivity].
    + unfold Finish. intros F. rewrite F. exact F.
    + unfold M_Trace.do_call, Finish, trace_value. cbn [fst snd set_events ct_finished]. destruct (ct_finished (to_head (tr_at h t))); reflexivity.
  - eexists _, _. split; [reflexivity|]. fold (tr_at h t). apply set_head_call_ok; [exact W|exact L| | |reflexivity].
    + auto.
    + reflexivity.
  - destruct (events_detail_ok Sprintf CallersFrames t e n s (ch_spares ch) h W) as (h' & hes & E & W' & O & V & S & T & K).
    exists h', hes. split; [exact E|]. destruct O as (O1 & O2 & O3 & O4 & O5).
    assert (Tr : forall t', tr_at h' t' = tr_at h t') by (intros t'; unfold tr_at; rewrite O1; reflexivity).
    constructor.
    + exact W'.
    + exact O2.
    + rewrite O1. reflexivity.
    + unfold M_Trace.do_call. cbn [fst snd]. rewrite <- V. reflexivity.
    + intros t' n'. split; [apply Tr|]. apply trace_value_ext; [apply Tr|]. intros e' He. apply S. intros Q. apply n'. exact (wf_t_own h W _ _ _ He Q).
    + unfold answer. cbn [fst snd]. rewrite <- V. reflexivity.
    + intros he Hin. destruct (T he Hin) as [->|(ev & Hev & ->)]; [left; reflexivity|]. right. exists ev. rewrite Tr. auto.
    + intros t' sl [Hz|(ev & Hin & ->)]; [split; [left; exact Hz|rewrite !zero_len_frames by exact Hz; reflexivity]|].
      destruct (slice_len (eo_stack (ev_at h ev))) eqn:Hl; [split; [left; exact Hl|rewrite !zero_len_frames by exact Hl; reflexivity]|].
      destruct (K ev) as [K1 K2]; [rewrite Hl; discriminate|]. split; [|exact K2]. right. exists ev. rewrite Tr, K1. auto.
Qed.

(** *** Lists of addresses *)
Lemma flat_map_update {A B} (f : A -> list B) l : forall i x x', nth_error l i = Some x ->
  Permutation (f x' ++ flat_map f l) (f x ++ flat_map f (update i x' l)).
Proof.
  induction l as [|y l IH]; intros [|i] x x' H; try discriminate; cbn [update flat_map].
  - injection H as <-. apply Permutation_app_swap_app.
  - cbn [nth_error] in H. specialize (IH i x x' H). rewrite (Permutation_app_swap_app (f x')), IH. apply Permutation_app_swap_app.
Qed.
Lemma key_eq_spec a b : key_eq a b = true <-> a = b.
Proof.
  destruct a as [a1 a2], b as [b1 b2]. unfold key_eq. cbn [fst snd]. rewrite Bool.andb_true_iff, Nat.eqb_eq, String.eqb_eq. split; [intros [-> ->]; reflexivity|intros [= -> ->]; auto].
Qed.
Notation items := (flat_map (fun kr : nat * string * blist nat => bl_items (snd kr))).
Lemma set_ring_items k r r' : forall cats, get_ring k cats = Some r -> Permutation (bl_items r' ++ items cats) (bl_items r ++ items (set_ring k r' cats)).
Proof.
  induction cats as [|[k' q] cats IH]; [discriminate|]. cbn [get_ring set_ring]. destruct (key_eq k k').
  - intros [= ->]. cbn [flat_map snd]. apply Permutation_app_swap_app.
  - intros H. specialize (IH H). cbn [flat_map snd]. rewrite (Permutation_app_swap_app (bl_items r')), IH. apply Permutation_app_swap_app.
Qed.
Lemma get_set_ring k k' r : forall cats, get_ring k' cats <> None -> get_ring k' (set_ring k r cats) <> None.
Proof.
  induction cats as [|[k2 q] cats IH]; [auto|]. cbn [get_ring set_ring]. destruct (key_eq k k2); cbn [get_ring]; destruct (key_eq k' k2); auto; discriminate.
Qed.
Lemma get_ring_app k x : forall cats, get_ring k (cats ++ x) = match get_ring k cats with Some r => Some r | None => get_ring k x end.
Proof. induction cats as [|[k2 q] cats IH]; [reflexivity|]. cbn [get_ring app]. destruct (key_eq k k2); auto. Qed.
Lemma get_created k n cats : get_ring k (get_or_create k n cats) <> None.
Proof.
  unfold get_or_create. destruct (get_ring k cats) eqn:E; [congruence|]. rewrite get_ring_app, E. cbn [get_ring]. rewrite (proj2 (key_eq_spec k k) eq_refl). discriminate.
Qed.
Lemma get_kept k k' n cats : get_ring k' cats <> None -> get_ring k' (get_or_create k n cats) <> None.
Proof. unfold get_or_create. destruct (get_ring k cats); [auto|]. rewrite get_ring_app. destruct (get_ring k' cats); congruence. Qed.
Lemma items_created k n cats : items (get_or_create k n cats) = items cats.
Proof. unfold get_or_create. destruct (get_ring k cats); [reflexivity|]. rewrite flat_map_app. cbn. apply app_nil_r. Qed.
Lemma get_of_key k cats : In k (map fst cats) -> get_ring k cats <> None.
Proof.
  induction cats as [|[k2 q] cats IH]; [intros []|]. cbn [map fst get_ring In]. destruct (key_eq k k2) eqn:E; [discriminate|].
  intros [->|H]; [|auto]. rewrite (proj2 (key_eq_spec k k) eq_refl) in E. discriminate.
Qed.
Lemma bl_add_items (r r' : blist nat) t out : bl_add 0 r t = (r', out) ->
  exists lost, Permutation (t :: bl_items r) (bl_items r' ++ match out with RAdd d true => [d] | _ => [] end ++ lost).
Proof.
  unfold bl_add. destruct (bl_cap r); [intros [= <- <-]; exists [t]; perm|].
  destruct (Nat.eqb_spec (length (bl_items r)) (S n)) as [E|_]; intros [= <- <-]; exists []; cbn [bl_items]; rewrite ?app_nil_r; [|reflexivity].
  rewrite <- app_comm_cons. apply perm_skip. rewrite <- app_removelast_last; [reflexivity|]. intros Q. rewrite Q in E. discriminate.
Qed.
Lemma bl_resize_items (r r' : blist nat) c out : bl_resize r c = (r', out) ->
  Permutation (bl_items r) (bl_items r' ++ match out with RResize d => d | _ => [] end).
Proof.
  unfold bl_resize. destruct (c <=? 0)%Z; intros [= <- <-]; [rewrite app_nil_r; reflexivity|]. cbn [bl_items]. rewrite firstn_skipn. reflexivity.
Qed.
Lemma filter_perm (f : nat -> bool) l : Permutation l (filter f l ++ filter (fun x => negb (f x)) l).
Proof. induction l as [|x l IH]; [reflexivity|]. cbn [filter]. destruct (f x); cbn [negb app]; [apply perm_skip; exact IH|]. rewrite IH at 1. apply Permutation_middle. Qed.
Lemma h_new_pool g now id pick src cat (h h' : heap) t : h_new g now id pick src cat h = (h', t) ->
  Permutation (h_tpool h) (t :: h_tpool h') \/ (t = length (h_traces h) /\ h_tpool h' = h_tpool h).
Proof.
  unfold h_new, pool_get. destruct pick as [j|]; [destruct (nth_error (h_tpool h) j) as [x|] eqn:E|]; intros [= <- <-]; cbn [h_tpool]; auto.
  left. apply remove_nth_perm. exact E.
Qed.
Lemma snapshot_no_stacks w spares : forall evs (h h' : heap) hes, h_snapshot Sprintf CallersFrames w false spares evs h = Ok (h', hes) -> Forall (fun he => he_stack he = None) hes.
Proof.
  induction evs as [|ev evs IH]; intros h h' hes; cbn [h_snapshot]; [intros [= <- <-]; constructor|].
  unfold h_snapshot_event. destruct (eo_what (nth ev (h_events h) zeroEO)) as [z|]; [|discriminate]. destruct (stringer_String _ _ _) as [zo what]. cbn [bind].
  match goal with |- context [h_snapshot _ _ _ _ _ _ ?x] => destruct (h_snapshot Sprintf CallersFrames w false spares evs x) as [[h2 hes2]|] eqn:E end; [|discriminate].
  cbn [bind]. intros [= <- <-]. constructor; [reflexivity|]. exact (IH _ _ _ E).
Qed.
Lemma no_stacks t e n ch (h h' : heap) evs : h_call Sprintf CallersFrames t (e, CallEvents n false) ch h = Ok (h', evs) -> Forall (fun he => he_stack he = None) evs.
Proof.
  unfold h_call, h_events_detail. cbn [fst snd].
  match goal with |- context [h_snapshot _ _ ?w ?s ?sp ?l ?x] => destruct (h_snapshot Sprintf CallersFrames w s sp l x) as [[h2 hes2]|] eqn:E end; [|discriminate].
  cbn [bind]. apply snapshot_no_stacks in E. intros [= <- <-]. destruct (0 <? _)%Z; [|exact E].
  assert (Q : Forall (fun he => he_stack he = None) (hes2 ++ [MkHE (e_now e) (What (truncated_event (e_now e) (ct_truncated (to_head (nth t (h_traces h) zeroTO))))) None
    (IsError (truncated_event (e_now e) (ct_truncated (to_head (nth t (h_traces h) zeroTO)))))])) by (apply Forall_app; split; [exact E|constructor; [reflexivity|constructor]]).
  destruct hes2 as [|x l]; cbn [app tl] in *; [constructor|]. inversion Q. assumption.
Qed.

(** *** The machine *)
Record inv (m : machine) : Prop := {
  i_wf : wf (hm_heap m);
  i_nodup : NoDup (places m);
  i_places : forall t, In t (places m) -> t < length (h_traces (hm_heap m));
  i_handles : forall t, In t (hm_handles m) -> t < length (h_traces (hm_heap m));
  i_keys : forall i ks cap d p k, nth_error (hm_threads m) i = Some (HResizing ks cap d, p) -> In k ks -> get_ring k (hm_cats m) <> None
}.
Record step_ok (m : machine) (i : nat) (m' : machine) : Prop := {
  so_wf : wf (hm_heap m');
  so_len : length (h_traces (hm_heap m)) <= length (h_traces (hm_heap m'));
  so_places : exists fresh lost, Permutation (fresh ++ places m) (places m' ++ lost) /\
    (fresh = [] \/ fresh = [length (h_traces (hm_heap m))] /\ length (h_traces (hm_heap m)) < length (h_traces (hm_heap m')));
  so_handles : hm_handles m' = hm_handles m ++ flat_map (fun x => match x with Created t _ _ _ _ _ => [t] | _ => [] end) (effect_of m i);
  so_created : forall t g now id src cat, effect_of m i = [Created t g now id src cat] -> t < length (h_traces (hm_heap m')) /\ ~ In t (in_pool m') /\ (In t (in_pool m) \/ t = length (h_traces (hm_heap m)));
  so_pool : forall t, In t (in_pool m') -> In t (in_pool m) \/ effect_of m i = [Freed t];
  so_keys : forall i ks cap d p k, nth_error (hm_threads m') i = Some (HResizing ks cap d, p) -> In k ks -> get_ring k (hm_cats m') <> None;
  so_values : forall t, trace_value (hm_heap m') t = fold_left apply (effect_of m i) (trace_value (hm_heap m)) t;
  so_pins : forall t s, effect_of m i <> [Freed t] -> pinned (hm_heap m) t s ->
    pinned (hm_heap m') t s /\ frames_of (h_arrays (hm_heap m')) s = frames_of (h_arrays (hm_heap m)) s;
  so_results : hm_results m' = hm_results m \/ exists n e k st evs t, hm_results m' = hm_results m ++ [(n, e, k, st, evs)] /\
    nth_error (hm_handles m) n = Some t /\ effect_of m i = [Called t (e, CallEvents k st)] /\
    map (hevent_value (hm_heap m')) evs = answer Sprintf CallersFrames (trace_value (hm_heap m) t) (e, CallEvents k st) /\
    (forall he, In he evs -> pinned (hm_heap m') t (he_stack he)) /\ (st = false -> Forall (fun he => he_stack he = None) evs)
}.
Lemma inv_step m i m' : inv m -> step_ok m i m' -> inv m'.
Proof.
  intros I S. destruct (so_places _ _ _ S) as (fr & lost & P & Hf). pose proof (so_len _ _ _ S) as L.
  assert (Nd : NoDup (fr ++ places m)).
  { destruct Hf as [->|[-> _]]; [exact (i_nodup m I)|]. constructor; [|exact (i_nodup m I)]. intros Q. apply (i_places m I) in Q. lia. }
  constructor.
  - exact (so_wf _ _ _ S).
  - apply (Permutation_NoDup P) in Nd. clear - Nd. induction (places m') as [|x l IH]; [constructor|]. cbn [app] in Nd. inversion Nd as [|? ? N1 N2]. subst. constructor; [|exact (IH N2)].
    intros Q. apply N1. apply in_or_app. auto.
  - intros t Ht. assert (Q : In t (fr ++ places m)) by (apply (Permutation_in _ (Permutation_sym P)); apply in_or_app; auto). apply in_app_or in Q. destruct Q as [Q|Q].
    + destruct Hf as [->|[-> Q2]]; [destruct Q|]. destruct Q as [<-|[]]. exact Q2.
    + pose proof (i_places m I t Q). lia.
  - intros t. rewrite (so_handles _ _ _ S). intros Q. apply in_app_or in Q. destruct Q as [Q|Q]; [pose proof (i_handles m I t Q); lia|].
    apply in_flat_map in Q. destruct Q as (x & Qx & Q). destruct x as [t' g now id src cat| |]; try destruct Q as [].
    + subst t'. assert (E : effect_of m i = [Created t g now id src cat]).
      { clear - Qx. unfold effect_of in *. destruct (nth_error (hm_threads m) i) as [[[|? ?|? ? ?|[|? ?]] [|[] ?]]|]; try destruct (nth_error (hm_handles m) handle); try destruct Qx as [Q|[]]; try discriminate; try contradiction; rewrite Q; reflexivity. }
      exact (proj1 (so_created _ _ _ S _ _ _ _ _ _ E)).
    + destruct H.
  - exact (so_keys _ _ _ S).
Qed.

Lemma keys_update (m : machine) i s' p' cats' : inv m ->
  (forall k, get_ring k (hm_cats m) <> None -> get_ring k cats' <> None) ->
  (forall ks cap d k, s' = HResizing ks cap d -> In k ks -> get_ring k cats' <> None) ->
  forall j ks cap d p k, nth_error (set_thread m i s' p') j = Some (HResizing ks cap d, p) -> In k ks -> get_ring k cats' <> None.
Proof.
  intros I H1 H2 j ks cap d p k. unfold set_thread. rewrite nth_update_eq. destruct (Nat.eqb i j).
  - destruct (Nat.ltb i (length (hm_threads m))); [|discriminate]. intros [= -> ->]. eauto.
  - intros H Hk. apply H1. exact (i_keys m I _ _ _ _ _ _ H Hk).
Qed.
Lemma threads_perm (m : machine) i s p s' p' : nth_error (hm_threads m) i = Some (s, p) ->
  Permutation (on_the_way s' ++ with_goroutines m) (on_the_way s ++ flat_map (fun sp => on_the_way (fst sp)) (set_thread m i s' p')).
Proof. exact (flat_map_update (fun sp : hstate * list (hop arg world pc) => on_the_way (fst sp)) (hm_threads m) i (s, p) (s', p')). Qed.
Lemma finish_state_way ts : on_the_way (finish_state ts) = ts.
Proof. destruct ts; reflexivity. Qed.
Lemma finish_state_not ts ks cap d : finish_state ts <> HResizing ks cap d.
Proof. destruct ts; discriminate. Qed.
Lemma quiet (m : machine) i m' : inv m -> effect_of m i = [] -> hm_heap m' = hm_heap m -> hm_handles m' = hm_handles m -> hm_results m' = hm_results m ->
  (exists lost, Permutation (places m) (places m' ++ lost)) ->
  (forall i ks cap d p k, nth_error (hm_threads m') i = Some (HResizing ks cap d, p) -> In k ks -> get_ring k (hm_cats m') <> None) -> step_ok m i m'.
Proof.
  intros I E Hh Hn Hr [lost P] K. constructor; unfold in_pool; rewrite ?E, ?Hh; auto.
  - exact (i_wf m I).
  - exists [], lost. auto.
  - rewrite Hn. cbn. rewrite app_nil_r. reflexivity.
  - discriminate.
Qed.
Lemma gc_wf (h : heap) kt ke kz : wf h -> wf (MkHeap (h_traces h) (h_events h) (h_stringers h) (h_arrays h) (filter kt (h_tpool h)) (filter ke (h_epool h)) (filter kz (h_zpool h))).
Proof.
  intros W. constructor.
  - exact (wf_t_own h W).
  - exact (wf_t_nodup h W).
  - intros t ev H. destruct (wf_t_pool h W t ev H) as (Q1 & Q2). split; [|exact Q2]. intros Q. apply Q1. cbn [h_epool] in Q. apply filter_In in Q. tauto.
  - destruct (wf_ep h W) as [Q1 Q2]. split; [apply NoDup_filter; exact Q1|]. intros ev H. cbn [h_epool] in H. apply filter_In in H. apply Q2. tauto.
  - exact (wf_z_own h W).
  - intros ev z H. destruct (wf_z_pool h W ev z H) as (Q1 & Q2). split; [|exact Q2]. intros Q. apply Q1. cbn [h_zpool] in Q. apply filter_In in Q. tauto.
  - destruct (wf_zp h W) as [Q1 Q2]. split; [apply NoDup_filter; exact Q1|]. intros z H. cbn [h_zpool] in H. apply filter_In in H. apply Q2. tauto.
  - exact (wf_a_own h W).
  - exact (wf_a_bound h W).
  - destruct (wf_tp h W) as [Q1 Q2]. split; [apply NoDup_filter; exact Q1|]. intros t H. cbn [h_tpool] in H. apply filter_In in H. exact (Q2 t (proj1 H)).
Qed.
Lemma step_exists m i : inv m -> exists m', h_step m i = Ok m' /\ step_ok m i m'.
Proof.
  intros I. assert (Stay : effect_of m i = [] -> step_ok m i m).
  { intros E. apply quiet; auto; [exists []; rewrite app_nil_r; reflexivity|exact (i_keys m I)]. }
  unfold h_step. destruct (nth_error (hm_threads m) i) as [[s prog]|] eqn:Ht.
  2: { exists m. split; [reflexivity|]. apply Stay. unfold effect_of. rewrite Ht. reflexivity. }
  pose proof (fun s' p' => threads_perm m i s prog s' p' Ht) as TP.
  destruct s as [|t key|ks cap dropped|ts].
  - destruct prog as [|[c cat g now id src pick|n x ch|c cap|kt ke kz] p].
    + exists m. split; [reflexivity|]. apply Stay. unfold effect_of. rewrite Ht. reflexivity.
    + (* NewTrace *)
      destruct (h_new g now id pick src cat (hm_heap m)) as [h t] eqn:E. eexists. split; [reflexivity|].
      destruct (h_new_ok g now id pick src cat _ _ _ (i_wf m I) E) as (W & O & X & Inc & L1 & L2 & V & No & Ev & Hx & He & Ha).
      assert (Eff : effect_of m i = [Created t g now id src cat]) by (unfold effect_of; rewrite Ht, E; reflexivity).
      specialize (TP (HAdding t (c, cat)) p). cbn [on_the_way] in TP.
      constructor; unfold in_pool; cbn [hm_heap hm_handles hm_threads hm_results hm_cats]; rewrite ?Eff.
      * exact W.
      * exact L1.
      * unfold places, in_pool, in_categories. cbn [hm_heap hm_cats]. change (with_goroutines (MkHM h (hm_sizes m) (hm_cats m) (hm_handles m ++ [t]) (set_thread m i (HAdding t (c, cat)) p) (hm_results m))) with
          (flat_map (fun sp => on_the_way (fst sp)) (set_thread m i (HAdding t (c, cat)) p)).
        destruct (h_new_pool _ _ _ _ _ _ _ _ _ E) as [Q|[-> Q]].
        -- exists [], []. split; [|auto]. perm.
        -- exists [length (h_traces (hm_heap m))], []. rewrite Q. split; [perm|right; auto].
      * reflexivity.
      * intros t' g' now' id' src' cat' [= <- <- <- <- <- <-]. auto.
      * intros t' H. left. apply Inc. exact H.
      * apply keys_update; [exact I|auto|discriminate].
      * intros t'. cbn [fold_left apply]. destruct (Nat.eqb_spec t' t) as [->|n]; [exact V|]. apply trace_value_ext; [apply No; exact n|auto].
      * intros t' sl _. rewrite Ha. intros Hp. split; [|reflexivity]. destruct Hp as [Hz|(ev & Hin & ->)]; [left; exact Hz|].
        right. exists ev. destruct (Nat.eq_dec t' t) as [->|n]; [rewrite Hx in Hin; destruct Hin|]. rewrite (No _ n). unfold ev_at. rewrite He. auto.
      * left. reflexivity.
    + (* a call *)
      destruct (nth_error (hm_handles m) n) as [t|] eqn:Hn.
      2: { exists m. split; [reflexivity|]. apply Stay. unfold effect_of. rewrite Ht, Hn. reflexivity. }
      assert (Lt : t < length (h_traces (hm_heap m))) by (apply (i_handles m I); exact (nth_error_In _ _ Hn)).
      destruct (h_call_ok t x ch _ (i_wf m I) Lt) as (h & evs & E & CO). rewrite E. cbn [bind]. eexists. split; [reflexivity|].
      assert (Eff : effect_of m i = [Called t x]) by (unfold effect_of; rewrite Ht, Hn; reflexivity).
      specialize (TP HIdle p). cbn [on_the_way] in TP.
      constructor; unfold in_pool; cbn [hm_heap hm_handles hm_threads hm_results hm_cats]; rewrite ?Eff.
      * exact (co_wf _ _ _ _ _ CO).
      * rewrite (co_len _ _ _ _ _ CO). reflexivity.
      * exists [], []. split; [|auto]. unfold places, in_pool, in_categories, with_goroutines at 2. cbn [hm_heap hm_cats hm_threads]. rewrite (co_tpool _ _ _ _ _ CO). perm.
      * cbn. rewrite app_nil_r. reflexivity.
      * discriminate.
      * rewrite (co_tpool _ _ _ _ _ CO). auto.
      * apply keys_update; [exact I|auto|discriminate].
      * intros t'. cbn [fold_left apply]. destruct (Nat.eqb_spec t' t) as [->|n']; [exact (co_value _ _ _ _ _ CO)|]. apply (co_other _ _ _ _ _ CO). exact n'.
      * intros t' sl _. apply (co_pins _ _ _ _ _ CO).
      * destruct x as [e [k f a| |k|k st]]; cbn [snd fst]; try (left; apply app_nil_r). right. exists n, e, k, st, evs, t. split; [reflexivity|]. split; [exact Hn|]. split; [reflexivity|].
        split; [exact (co_answer _ _ _ _ _ CO)|]. split; [exact (co_pinned _ _ _ _ _ CO)|]. intros ->. exact (no_stacks _ _ _ _ _ _ _ E).
    + (* SetCategorySize *)
      assert (Eff : effect_of m i = []) by (unfold effect_of; rewrite Ht; reflexivity).
      destruct (cap <=? 0)%Z; eexists; (split; [reflexivity|]); apply quiet; try reflexivity; auto; cbn [hm_threads hm_cats].
      * exists []. specialize (TP HIdle p). cbn [on_the_way] in TP. unfold places, in_pool, in_categories, with_goroutines at 2. cbn [hm_heap hm_cats hm_threads]. perm.
      * apply keys_update; [exact I|auto|discriminate].
      * exists []. specialize (TP (HResizing (filter (fun k => Nat.eqb (fst k) c) (map fst (hm_cats m))) cap []) p). cbn [on_the_way] in TP. unfold places, in_pool, in_categories, with_goroutines at 2. cbn [hm_heap hm_cats hm_threads]. perm.
      * apply keys_update; [exact I|auto|]. intros ks cap' d k [= <- <- <-] Hk. apply filter_In in Hk. apply get_of_key. tauto.
    + (* the garbage collector *)
      assert (Eff : effect_of m i = []) by (unfold effect_of; rewrite Ht; reflexivity).
      eexists. split; [reflexivity|]. specialize (TP HIdle p). cbn [on_the_way] in TP.
      constructor; unfold in_pool; cbn [hm_heap hm_handles hm_threads hm_results hm_cats h_tpool h_traces h_arrays]; rewrite ?Eff.
      * apply gc_wf. exact (i_wf m I).
      * reflexivity.
      * exists [], (filter (fun x => negb (kt x)) (h_tpool (hm_heap m))). split; [|auto]. pose proof (filter_perm kt (h_tpool (hm_heap m))) as FP.
        unfold places, in_pool, in_categories, with_goroutines at 2. cbn [hm_heap hm_cats hm_threads h_tpool]. perm.
      * cbn. rewrite app_nil_r. reflexivity.
      * discriminate.
      * intros t H. apply filter_In in H. tauto.
      * apply keys_update; [exact I|auto|discriminate].
      * reflexivity.
      * auto.
      * auto.
  - (* Add *)
    assert (Eff : effect_of m i = []) by (unfold effect_of; rewrite Ht; reflexivity).
    destruct (get_ring key (get_or_create key (hm_sizes m (fst key)) (hm_cats m))) as [r|] eqn:Er; [|destruct (get_created _ _ _ Er)].
    destruct (bl_add 0 r t) as [r' out] eqn:Ea. destruct (bl_add_items _ _ _ _ Ea) as [lost Pa].
    eexists. split; [reflexivity|]. apply quiet; try reflexivity; auto; cbn [hm_threads hm_cats].
    + exists lost. specialize (TP (finish_state (match out with RAdd d true => [d] | _ => [] end)) prog). rewrite finish_state_way in TP. cbn [on_the_way] in TP.
      pose proof (set_ring_items key r r' _ Er) as Pr. rewrite items_created in Pr.
      unfold places, in_pool, in_categories, with_goroutines at 2. cbn [hm_heap hm_cats hm_threads].
      set (dd := match out with RAdd d true => [d] | _ => [] end) in *. clearbody dd. perm.
    + apply keys_update; [exact I| |].
      * intros k Hk. apply get_set_ring. apply get_kept. exact Hk.
      * intros ks cap d k Q. destruct (finish_state_not _ _ _ _ Q).
  - (* Resize *)
    assert (Eff : effect_of m i = []) by (unfold effect_of; rewrite Ht; reflexivity).
    destruct ks as [|k ks].
    + eexists. split; [reflexivity|]. apply quiet; try reflexivity; auto; cbn [hm_threads hm_cats].
      * exists []. specialize (TP (finish_state dropped) prog). rewrite finish_state_way in TP. cbn [on_the_way] in TP.
        unfold places, in_pool, in_categories, with_goroutines at 2. cbn [hm_heap hm_cats hm_threads]. perm.
      * apply keys_update; [exact I|auto|]. intros ks cap' d k Q. destruct (finish_state_not _ _ _ _ Q).
    + destruct (get_ring k (hm_cats m)) as [r|] eqn:Er; [|destruct (i_keys m I _ _ _ _ _ k Ht (or_introl eq_refl) Er)].
      destruct (bl_resize r cap) as [r' out] eqn:Ea. pose proof (bl_resize_items _ _ _ _ Ea) as Pa.
      eexists. split; [reflexivity|]. apply quiet; try reflexivity; auto; cbn [hm_threads hm_cats].
      * exists []. set (dd := match out with RResize d => d | _ => [] end) in *. specialize (TP (HResizing ks cap (dropped ++ dd)) prog). cbn [on_the_way] in TP.
        pose proof (set_ring_items k r r' _ Er) as Pr. unfold places, in_pool, in_categories, with_goroutines at 2. cbn [hm_heap hm_cats hm_threads]. clearbody dd. perm.
      * apply keys_update; [exact I| |]; [intros k' Hk; apply get_set_ring; exact Hk|].
        intros ks' cap' d k' [= <- <- <-] Hk. apply get_set_ring. exact (i_keys m I _ _ _ _ _ k' Ht (or_intror Hk)).
  - (* Free *)
    destruct ts as [|t ts].
    + assert (Eff : effect_of m i = []) by (unfold effect_of; rewrite Ht; reflexivity).
      eexists. split; [reflexivity|]. apply quiet; try reflexivity; auto; cbn [hm_threads hm_cats].
      * exists []. specialize (TP HIdle prog). cbn [on_the_way] in TP. unfold places, in_pool, in_categories, with_goroutines at 2. cbn [hm_heap hm_cats hm_threads]. perm.
      * apply keys_update; [exact I|auto|discriminate].
    + assert (Eff : effect_of m i = [Freed t]) by (unfold effect_of; rewrite Ht; reflexivity).
      specialize (TP (finish_state ts) prog). rewrite finish_state_way in TP. cbn [on_the_way] in TP.
      assert (Wt : In t (with_goroutines m)) by (apply in_flat_map; exists (HFreeing (t :: ts), prog); split; [exact (nth_error_In _ _ Ht)|left; reflexivity]).
      assert (Pt : In t (places m)) by (unfold places; apply in_or_app; right; apply in_or_app; right; exact Wt).
      assert (NP : ~ In t (h_tpool (hm_heap m))).
      { pose proof (i_nodup m I) as N. unfold places, in_pool in N. intros Q. clear - N Q Wt. induction (h_tpool (hm_heap m)) as [|y l IH]; [destruct Q|].
        cbn [app] in N. inversion N as [|? ? N1 N2]. subst. destruct Q as [<-|Q]; [|exact (IH N2 Q)]. apply N1. apply in_or_app. right. apply in_or_app. right. exact Wt. }
      destruct (h_free_ok t _ (i_wf m I) (i_places m I t Pt) NP) as (h & E & W & Ln & Tp & V & To & Ev & Ha). rewrite E. cbn [bind]. eexists. split; [reflexivity|].
      constructor; unfold in_pool; cbn [hm_heap hm_handles hm_threads hm_results hm_cats]; rewrite ?Eff.
      * exact W.
      * rewrite Ln. reflexivity.
      * unfold places, in_pool, in_categories, with_goroutines at 2. cbn [hm_heap hm_cats hm_threads]. destruct (ct_finished (to_head (tr_at (hm_heap m) t))).
        -- exists [], []. rewrite Tp. split; [perm|auto].
        -- exists [], [t]. rewrite Tp. split; [perm|auto].
      * cbn. rewrite app_nil_r. reflexivity.
      * discriminate.
      * intros t' H. destruct (ct_finished (to_head (tr_at (hm_heap m) t))).
        -- rewrite Tp in H. destruct H as [<-|H]; auto.
        -- rewrite Tp in H. auto.
      * apply keys_update; [exact I|auto|]. intros ks cap' d k Q. destruct (finish_state_not _ _ _ _ Q).
      * intros t'. cbn [fold_left apply]. destruct (Nat.eqb_spec t' t) as [->|n]; [exact V|]. apply trace_value_ext; [apply To; exact n|].
        intros ev Hin. apply Ev. intros Q. apply n. exact (wf_t_own _ (i_wf m I) _ _ _ Hin Q).
      * intros t' sl Hne. assert (n : t' <> t) by (intros ->; apply Hne; reflexivity). apply pins_same; [exact (i_wf m I)|].
        intros ev Hin. destruct (Ev ev) as [Q1 Q2]; [intros Q; apply n; exact (wf_t_own _ (i_wf m I) _ _ _ Hin Q)|]. rewrite (To _ n). auto.
      * auto.
Qed.

(** *** Runs *)
Lemma inv_start programs : inv (hm_start programs).
Proof.
  assert (E : with_goroutines (hm_start programs) = []).
  { unfold with_goroutines, hm_start. cbn [hm_threads]. induction programs as [|p l IH]; [reflexivity|exact IH]. }
  constructor.
  - exact wf_empty.
  - unfold places. rewrite E. constructor.
  - unfold places. rewrite E. intros t [].
  - intros t [].
  - intros i ks cap d p k H. apply nth_error_In in H. unfold hm_start in H. cbn [hm_threads] in H. apply in_map_iff in H. destruct H as (q & Q & _). discriminate.
Qed.
Lemma fold_apply_ext l : forall v v' : nat -> coreTrace, (forall t, v t = v' t) -> forall t, fold_left apply l v t = fold_left apply l v' t.
Proof.
  induction l as [|x l IH]; intros v v' H t; [apply H|]. cbn [fold_left]. apply IH. intros t'. destruct x; cbn [S_Heap.apply]; destruct (Nat.eqb t' t0); rewrite ?H; reflexivity.
Qed.
Lemma run_ok sched : forall m, inv m -> exists m', h_run sched m = Ok m' /\ inv m' /\
  (forall t, trace_value (hm_heap m') t = fold_left apply (effects sched m) (trace_value (hm_heap m)) t).
Proof.
  induction sched as [|i sched IH]; intros m I; [exists m; auto|]. destruct (step_exists m i I) as (m1 & E & S). cbn [M_Heap.h_run S_Heap.effects]. rewrite E. cbn [bind].
  destruct (IH m1 (inv_step _ _ _ I S)) as (m2 & E2 & I2 & V). exists m2. split; [exact E2|]. split; [exact I2|]. intros t. rewrite fold_left_app, V.
  apply fold_apply_ext. exact (so_values _ _ _ S).
Qed.
Lemma run_app s1 s2 : forall m, h_run (s1 ++ s2) m = (m' <- h_run s1 m ;; h_run s2 m').
Proof. induction s1 as [|i s1 IH]; intros m; [reflexivity|]. cbn [app M_Heap.h_run]. destruct (h_step m i); [cbn [bind]; apply IH|reflexivity]. Qed.
Lemma step_fun m i m' : inv m -> h_step m i = Ok m' -> step_ok m i m'.
Proof. intros I E. destruct (step_exists m i I) as (m1 & E1 & S). rewrite E in E1. injection E1 as <-. exact S. Qed.
Lemma run_fun sched m m' : inv m -> h_run sched m = Ok m' -> inv m' /\ (forall t, trace_value (hm_heap m') t = fold_left apply (effects sched m) (trace_value (hm_heap m)) t).
Proof. intros I E. destruct (run_ok sched m I) as (m1 & E1 & S). rewrite E in E1. injection E1 as <-. exact S. Qed.
(** A property of states that steps keep. *)
Lemma run_keeps (P : machine -> Prop) (Q : effect arg world pc -> Prop) : (forall m i m', inv m -> step_ok m i m' -> Forall Q (effect_of m i) -> P m -> P m') ->
  forall sched m m', inv m -> h_run sched m = Ok m' -> Forall Q (effects sched m) -> P m -> P m'.
Proof.
  intros H. induction sched as [|i sched IH]; intros m m' I; [intros [= <-]; auto|]. cbn [M_Heap.h_run S_Heap.effects]. destruct (step_exists m i I) as (m1 & E & S). rewrite E. cbn [bind].
  intros R F Hp. apply Forall_app in F. destruct F as [F1 F2]. exact (IH m1 m' (inv_step _ _ _ I S) R F2 (H _ _ _ I S F1 Hp)).
Qed.
Lemma effect_of_one m i : effect_of m i = [] \/ exists x, effect_of (arg := arg) (world := world) (pc := pc) m i = [x].
Proof.
  unfold effect_of. destruct (nth_error (hm_threads m) i) as [[[|? ?|? ? ?|[|? ?]] [|[] ?]]|]; try destruct (nth_error (hm_handles m) handle); eauto.
Qed.
Lemma created_in (m : machine) i t x : In x (effect_of m i) -> created t x = true -> exists g now id src cat, effect_of m i = [Created t g now id src cat].
Proof.
  intros H C. destruct (effect_of_one m i) as [E|[y E]]; rewrite E in *; [destruct H|]. destruct H as [<-|[]]. destruct y; try discriminate. cbn in C. apply Nat.eqb_eq in C. subst. eauto 6.
Qed.
Lemma not_freed (m : machine) i t : Forall (fun x => freed t x = false) (effect_of m i) -> effect_of m i <> [Freed t].
Proof. intros F E. rewrite E in F. inversion F as [|? ? Q]. cbn in Q. rewrite Nat.eqb_refl in Q. discriminate. Qed.

(** An address that is in no place stays in no place and is not given out. *)
Lemma gone_step (m : machine) i m' t : inv m -> step_ok m i m' -> t < length (h_traces (hm_heap m)) -> ~ In t (places m) ->
  t < length (h_traces (hm_heap m')) /\ ~ In t (places m') /\ Forall (fun x => created t x = false) (effect_of m i).
Proof.
  intros I S L N. pose proof (so_len _ _ _ S). split; [lia|]. split.
  - destruct (so_places _ _ _ S) as (fr & lost & P & Hf). intros Q.
    assert (Q' : In t (fr ++ places m)) by (apply (Permutation_in _ (Permutation_sym P)); apply in_or_app; auto). apply in_app_or in Q'. destruct Q' as [Q'|Q']; [|exact (N Q')].
    destruct Hf as [->|[-> _]]; [destruct Q'|destruct Q' as [<-|[]]; lia].
  - apply Forall_forall. intros x Hx. destruct (created t x) eqn:C; [|reflexivity]. destruct (created_in m i t x Hx C) as (g & now & id & src & cat & E).
    destruct (so_created _ _ _ S _ _ _ _ _ _ E) as (_ & _ & [Q|Q]); [|lia]. destruct N. unfold places. apply in_or_app. left. exact Q.
Qed.
Lemma gone_run t sched : forall m m', inv m -> h_run sched m = Ok m' -> t < length (h_traces (hm_heap m)) -> ~ In t (places m) ->
  ~ In t (places m') /\ Forall (fun x => created t x = false) (effects sched m).
Proof.
  induction sched as [|i sched IH]; intros m m' I; cbn [M_Heap.h_run S_Heap.effects]; [intros [= <-] L N; auto|].
  destruct (step_exists m i I) as (m1 & E & S). rewrite E. cbn [bind]. intros R L N. destruct (gone_step m i m1 t I S L N) as (L1 & N1 & F1).
  destruct (IH m1 m' (inv_step _ _ _ I S) R L1 N1) as [Q1 Q2]. split; [exact Q1|]. apply Forall_app. auto.
Qed.

(** An address that was given out is not given out again before it is freed. *)
Lemma held_run t sched : forall m m', inv m -> h_run sched m = Ok m' -> t < length (h_traces (hm_heap m)) -> ~ In t (in_pool m) ->
  Forall (fun x => freed t x = false) (effects sched m) ->
  ~ In t (in_pool m') /\ Forall (fun x => created t x = false) (effects sched m).
Proof.
  induction sched as [|i sched IH]; intros m m' I; cbn [M_Heap.h_run S_Heap.effects]; [intros [= <-] L N; auto|].
  destruct (step_exists m i I) as (m1 & E & S). rewrite E. cbn [bind]. intros R L N F. apply Forall_app in F. destruct F as [F1 F2]. pose proof (so_len _ _ _ S).
  assert (N1 : ~ In t (in_pool m1)). { intros Q. destruct (so_pool _ _ _ S t Q) as [Q'|Q']; [exact (N Q')|exact (not_freed m i t F1 Q')]. }
  destruct (IH m1 m' (inv_step _ _ _ I S) R ltac:(lia) N1 F2) as [Q1 Q2]. split; [exact Q1|]. apply Forall_app. split; [|exact Q2].
  apply Forall_forall. intros x Hx. destruct (created t x) eqn:C; [|reflexivity]. destruct (created_in m i t x Hx C) as (g & now & id & src & cat & Ec).
  destruct (so_created _ _ _ S _ _ _ _ _ _ Ec) as (_ & _ & [Q|Q]); [destruct (N Q)|lia].
Qed.
(** Then only calls change the trace. *)
Lemma calls_only t l : Forall (fun x : effect arg world pc => created t x = false) l -> Forall (fun x => freed t x = false) l -> forall v : nat -> coreTrace,
  fold_left apply l v t = run Sprintf CallersFrames (calls_on t l) (v t).
Proof.
  induction l as [|x l IH]; intros C F v; [reflexivity|]. inversion C as [|? ? C1 C2]. inversion F as [|? ? F1 F2]. subst. cbn [fold_left]. rewrite IH by assumption.
  unfold calls_on. cbn [flat_map]. destruct x as [t' g now id src cat|t' x|t']; cbn [S_Heap.apply created freed] in *.
  - rewrite Nat.eqb_sym, C1. reflexivity.
  - rewrite (Nat.eqb_sym t t'). destruct (Nat.eqb_spec t' t) as [->|n]; reflexivity.
  - rewrite Nat.eqb_sym, F1. reflexivity.
Qed.
Lemma nodup_apart (m : machine) t : inv m -> In t (in_categories m) \/ In t (with_goroutines m) -> ~ In t (in_pool m).
Proof.
  intros I H Q. pose proof (i_nodup m I) as N. unfold places in N. induction (in_pool m) as [|y l IH]; [destruct Q|].
  cbn [app] in N. inversion N as [|? ? N1 N2]. subst. destruct Q as [<-|Q]; [|exact (IH Q N2)]. apply N1. apply in_or_app. right. apply in_or_app. tauto.
Qed.
Lemma nodup_apart2 (m : machine) t : inv m -> In t (in_categories m) -> ~ In t (with_goroutines m).
Proof.
  intros I H Q. pose proof (i_nodup m I) as N. unfold places in N. induction (in_pool m) as [|y l IH]; cbn [app] in N; [|inversion N; auto].
  clear - N H Q. induction (in_categories m) as [|y l IH]; [destruct H|]. cbn [app] in N. inversion N as [|? ? N1 N2]. subst. destruct H as [<-|H]; [|exact (IH H N2)].
  apply N1. apply in_or_app. auto.
Qed.
Lemma freed_from (m : machine) i t : effect_of m i = [Freed t] -> In t (with_goroutines m).
Proof.
  unfold effect_of. destruct (nth_error (hm_threads m) i) as [[s p]|] eqn:E; [|discriminate]. intros H.
  assert (Q : exists ts, s = HFreeing (t :: ts)).
  { destruct s as [|? ?|? ? ?|[|? ?]]; destruct p as [|[] ?]; try destruct (nth_error (hm_handles m) handle); try discriminate; injection H as ->; eauto. }
  destruct Q as [ts ->]. apply in_flat_map. exists (HFreeing (t :: ts), p). split; [exact (nth_error_In _ _ E)|left; reflexivity].
Qed.
(** While the trace is in a category it is not freed. *)
Lemma kept_not_freed t sched : forall m, inv m -> (forall p q m', sched = p ++ q -> h_run p m = Ok m' -> In t (in_categories m')) ->
  Forall (fun x => freed t x = false) (effects sched m).
Proof.
  induction sched as [|i sched IH]; intros m I H; cbn [S_Heap.effects]; [constructor|]. destruct (step_exists m i I) as (m1 & E & S). rewrite E. apply Forall_app. split.
  - pose proof (H [] _ m eq_refl eq_refl) as Hc. apply Forall_forall. intros x Hx. destruct (freed t x) eqn:F; [|reflexivity].
    destruct (effect_of_one m i) as [Q|[y Q]]; rewrite Q in Hx; [destruct Hx|]. destruct Hx as [<-|[]]. destruct y as [| |t']; try discriminate. cbn in F. apply Nat.eqb_eq in F. subst.
    destruct (nodup_apart2 m t I Hc (freed_from m i t Q)).
  - apply IH; [exact (inv_step _ _ _ I S)|]. intros p q m' -> R. apply (H (i :: p) q m' eq_refl). cbn [M_Heap.h_run]. rewrite E. exact R.
Qed.
Lemma results_grow sched : forall m m', inv m -> h_run sched m = Ok m' -> exists more, hm_results m' = hm_results m ++ more.
Proof.
  induction sched as [|i sched IH]; intros m m' I; cbn [M_Heap.h_run]; [intros [= <-]; exists []; rewrite app_nil_r; reflexivity|].
  destruct (step_exists m i I) as (m1 & E & S). rewrite E. cbn [bind]. intros R. destruct (IH m1 m' (inv_step _ _ _ I S) R) as [more ->].
  destruct (so_results _ _ _ S) as [->|(n & e & k & st & evs & t & -> & _)]; [eauto|]. rewrite <- app_assoc. eauto.
Qed.
Lemma results_no_stacks sched programs m : h_run sched (hm_start programs) = Ok m ->
  Forall (fun r => let '(_, _, _, st, evs) := r in st = false -> Forall (fun he => he_stack he = None) evs) (hm_results m).
Proof.
  intros R. apply (run_keeps (fun m => Forall (fun r => let '(_, _, _, st, evs) := r in st = false -> Forall (fun he => he_stack he = None) evs) (hm_results m)) (fun _ => True)) with (3 := R);
    [|exact (inv_start programs)|apply Forall_forall; auto|constructor].
  intros m0 i m' I S _ H. destruct (so_results _ _ _ S) as [->|(n & e & k & st & evs & t & -> & _ & _ & _ & _ & N)]; [exact H|]. apply Forall_app. split; [exact H|]. constructor; [exact N|constructor].
Qed.
End Proofs.

(** *** C16 *)
(** However goroutines that create traces, use them, change category sizes and free what they
    pushed out are interleaved, and whatever the pools hand out: nothing panics, and no
    address is twice in the pool, in two categories, or in two of: the pool, the categories,
    the hands of a goroutine that made it, or of one that is about to free it. *)
Theorem C16_one_place :
  forall (arg world pc : Type) (Sprintf : world -> string -> list arg -> string) (CallersFrames : list pc -> list rframe)
         (programs : list (list (hop arg world pc))) (sched : list nat),
    exists m, h_run Sprintf CallersFrames sched (hm_start programs) = Ok m /\ NoDup (in_pool m ++ in_categories m ++ with_goroutines m).
Proof.
  intros arg world pc Sp CF programs sched. destruct (run_ok Sp CF sched _ (inv_start programs)) as (m & E & I & _). exists m. split; [exact E|exact (i_nodup _ I)].
Qed.
Print Assumptions C16_one_place.

(** A new trace is not the object of any trace in a category, being added or about to be
    freed; and it is empty, whatever the object held. *)
Theorem C16_new_trace_is_private :
  forall (arg world pc : Type) (Sprintf : world -> string -> list arg -> string) (CallersFrames : list pc -> list rframe)
         (programs : list (list (hop arg world pc))) (sched : list nat) m i m' t g now id src cat,
    h_run Sprintf CallersFrames sched (hm_start programs) = Ok m -> effect_of m i = [Created t g now id src cat] -> h_step Sprintf CallersFrames m i = Ok m' ->
    ~ In t (in_categories m) /\ ~ In t (with_goroutines m) /\ (In t (in_pool m) \/ ~ In t (hm_handles m)) /\
    trace_value (hm_heap m') t = newCoreTrace g now id zeroCoreTrace src cat /\ ct_events (trace_value (hm_heap m') t) = [].
Proof.
  intros arg world pc Sp CF programs sched m i m' t g now id src cat R E S.
  destruct (run_fun Sp CF _ _ _ (inv_start programs) R) as [I _]. pose proof (step_fun Sp CF _ _ _ I S) as SO.
  destruct (so_created _ _ _ _ _ SO _ _ _ _ _ _ E) as (L & N & O).
  assert (Nin : forall t', In t' (places m) -> t' < length (h_traces (hm_heap m))) by exact (i_places _ I).
  split; [|split; [|split; [|split]]].
  - intros Q. destruct O as [O|O]; [exact (nodup_apart m t I (or_introl Q) O)|]. assert (t < length (h_traces (hm_heap m))); [|lia]. apply Nin. unfold places. apply in_or_app. right. apply in_or_app. auto.
  - intros Q. destruct O as [O|O]; [exact (nodup_apart m t I (or_intror Q) O)|]. assert (t < length (h_traces (hm_heap m))); [|lia]. apply Nin. unfold places. apply in_or_app. right. apply in_or_app. auto.
  - destruct O as [O|O]; [left; exact O|right]. intros Q. apply (i_handles _ I) in Q. lia.
  - rewrite (so_values _ _ _ _ _ SO), E. cbn [fold_left apply]. rewrite Nat.eqb_refl. reflexivity.
  - rewrite (so_values _ _ _ _ _ SO), E. cbn [fold_left apply]. rewrite Nat.eqb_refl. reflexivity.
Qed.
Print Assumptions C16_new_trace_is_private.

(** The object of a trace is not given to another trace before it is freed. *)
Theorem C16_not_reused_before_freed :
  forall (arg world pc : Type) (Sprintf : world -> string -> list arg -> string) (CallersFrames : list pc -> list rframe)
         (programs : list (list (hop arg world pc))) (sched : list nat) m i m1 t g now id src cat later m2,
    h_run Sprintf CallersFrames sched (hm_start programs) = Ok m -> effect_of m i = [Created t g now id src cat] -> h_step Sprintf CallersFrames m i = Ok m1 ->
    h_run Sprintf CallersFrames later m1 = Ok m2 ->
    Forall (fun x => freed t x = false) (effects Sprintf CallersFrames later m1) ->
    Forall (fun x => created t x = false) (effects Sprintf CallersFrames later m1) /\ ~ In t (in_pool m2).
Proof.
  intros arg world pc Sp CF programs sched m i m1 t g now id src cat later m2 R E S R2 F.
  destruct (run_fun Sp CF _ _ _ (inv_start programs) R) as [I _]. pose proof (step_fun Sp CF _ _ _ I S) as SO.
  destruct (so_created _ _ _ _ _ SO _ _ _ _ _ _ E) as (L & N & O).
  destruct (held_run Sp CF t later m1 m2 (inv_step Sp CF _ _ _ I SO) R2 L N F). auto.
Qed.
Print Assumptions C16_not_reused_before_freed.

(** A trace that is freed before it is finished is never recycled. *)
Theorem C16_unfinished_never_recycled :
  forall (arg world pc : Type) (Sprintf : world -> string -> list arg -> string) (CallersFrames : list pc -> list rframe)
         (programs : list (list (hop arg world pc))) (sched : list nat) m i m1 t later m2,
    h_run Sprintf CallersFrames sched (hm_start programs) = Ok m -> effect_of m i = [Freed t] ->
    Finished (trace_value (hm_heap m) t) = false -> h_step Sprintf CallersFrames m i = Ok m1 ->
    h_run Sprintf CallersFrames later m1 = Ok m2 ->
    trace_value (hm_heap m1) t = trace_value (hm_heap m) t /\
    Forall (fun x => created t x = false) (effects Sprintf CallersFrames later m1) /\ ~ In t (places m2).
Proof.
  intros arg world pc Sp CF programs sched m i m1 t later m2 R E F S R2.
  destruct (run_fun Sp CF _ _ _ (inv_start programs) R) as [I _]. pose proof (step_fun Sp CF _ _ _ I S) as SO.
  assert (Pt : In t (places m)) by (unfold places; apply in_or_app; right; apply in_or_app; right; exact (freed_from m i t E)).
  pose proof (i_places _ I t Pt) as L. pose proof (so_len _ _ _ _ _ SO) as L'.
  assert (N1 : ~ In t (places m1)).
  { (* after the step it is in no place *)
    unfold effect_of in E. destruct (nth_error (hm_threads m) i) as [[s p]|] eqn:Ht; [|discriminate].
    assert (Q : exists ts, s = HFreeing (t :: ts)).
    { destruct s as [|? ?|? ? ?|[|? ?]]; destruct p as [|[] ?]; try destruct (nth_error (hm_handles m) handle); try discriminate; injection E as ->; eauto. }
    destruct Q as [ts ->]. unfold h_step in S. rewrite Ht in S. unfold h_free in S. fold (tr_at (hm_heap m) t) in S. change (ct_finished (to_head (tr_at (hm_heap m) t)) = false) in F.
    rewrite F in S. cbn [negb bind] in S. injection S as <-. pose proof (threads_perm m i _ _ (finish_state ts) p Ht) as TP. rewrite finish_state_way in TP. cbn [on_the_way] in TP.
    pose proof (i_nodup _ I) as Nd. unfold places, in_pool, in_categories in *. cbn [hm_heap hm_cats] in *.
    change (with_goroutines (MkHM (hm_heap m) (hm_sizes m) (hm_cats m) (hm_handles m) (set_thread m i (finish_state ts) p) (hm_results m))) with
      (flat_map (fun sp => on_the_way (fst sp)) (set_thread m i (finish_state ts) p)).
    assert (TP2 : Permutation (with_goroutines m) (t :: flat_map (fun sp => on_the_way (fst sp)) (set_thread m i (finish_state ts) p))).
    { apply (Permutation_app_inv_l ts). perm. }
    intros Q. assert (Nd2 : NoDup (t :: h_tpool (hm_heap m) ++ flat_map (fun kr => bl_items (snd kr)) (hm_cats m) ++ flat_map (fun sp => on_the_way (fst sp)) (set_thread m i (finish_state ts) p))).
    { apply (Permutation_NoDup (l := h_tpool (hm_heap m) ++ flat_map (fun kr => bl_items (snd kr)) (hm_cats m) ++ with_goroutines m)); [|exact Nd]. clear TP. perm. }
    inversion Nd2. contradiction. }
  destruct (gone_run Sp CF t later m1 m2 (inv_step Sp CF _ _ _ I SO) R2 ltac:(lia) N1) as [Q1 Q2]. split; [|auto].
  rewrite (so_values _ _ _ _ _ SO), E. cbn [fold_left apply]. rewrite Nat.eqb_refl. unfold Free. unfold Finished in F. rewrite F. reflexivity.
Qed.
Print Assumptions C16_unfinished_never_recycled.

(** Recycling cannot be seen: every trace is what it would be if each had memory of its own,
    and what Events returns is what a trace with that value returns. *)
Theorem C16_recycling_is_invisible :
  forall (arg world pc : Type) (Sprintf : world -> string -> list arg -> string) (CallersFrames : list pc -> list rframe)
         (programs : list (list (hop arg world pc))) (sched : list nat),
    exists m, h_run Sprintf CallersFrames sched (hm_start programs) = Ok m /\
      (forall t, trace_value (hm_heap m) t = values Sprintf CallersFrames (effects Sprintf CallersFrames sched (hm_start programs)) t) /\
      (forall i m' n e k stacks evs t,
         h_step Sprintf CallersFrames m i = Ok m' -> hm_results m' = hm_results m ++ [(n, e, k, stacks, evs)] -> nth_error (hm_handles m) n = Some t ->
         map (hevent_value (hm_heap m')) evs =
         snd (EventsDetail Sprintf CallersFrames e k stacks (values Sprintf CallersFrames (effects Sprintf CallersFrames sched (hm_start programs)) t))).
Proof.
  intros arg world pc Sp CF programs sched. destruct (run_ok Sp CF sched _ (inv_start programs)) as (m & E & I & V).
  assert (V' : forall t, trace_value (hm_heap m) t = values Sp CF (effects Sp CF sched (hm_start programs)) t).
  { intros t. rewrite V. apply fold_apply_ext. intros t'. unfold trace_value, tr_at, hm_start. cbn [hm_heap h_traces empty_heap]. destruct t'; reflexivity. }
  exists m. split; [exact E|]. split; [exact V'|].
  intros i m' n e k st evs t S Hr Hn. pose proof (step_fun Sp CF _ _ _ I S) as SO.
  destruct (so_results _ _ _ _ _ SO) as [Q|(n' & e' & k' & st' & evs' & t' & Q & Hn' & _ & A & _)]; rewrite Q in Hr.
  - apply (f_equal (@length _)) in Hr. rewrite app_length in Hr. cbn in Hr. lia.
  - apply app_inj_tail in Hr. destruct Hr as [_ Hr]. injection Hr as -> -> -> -> ->. rewrite Hn in Hn'. injection Hn' as <-. rewrite <- V'. exact A.
Qed.
Print Assumptions C16_recycling_is_invisible.

(** *** C17 *)
(** As long as a trace is in its category, it is exactly what the calls on it make of it
    (calls through any handle); so a finished one keeps all that C06 says. *)
Theorem C17_unchanged_until_evicted :
  forall (arg world pc : Type) (Sprintf : world -> string -> list arg -> string) (CallersFrames : list pc -> list rframe)
         (programs : list (list (hop arg world pc))) (sched later : list nat) m m' t,
    h_run Sprintf CallersFrames sched (hm_start programs) = Ok m -> h_run Sprintf CallersFrames later m = Ok m' ->
    (forall p q m1, later = p ++ q -> h_run Sprintf CallersFrames p m = Ok m1 -> In t (in_categories m1)) ->
    trace_value (hm_heap m') t = run Sprintf CallersFrames (calls_on t (effects Sprintf CallersFrames later m)) (trace_value (hm_heap m) t) /\
    (Finished (trace_value (hm_heap m) t) = true -> Forall (fun c => is_write c = true) (calls_on t (effects Sprintf CallersFrames later m)) ->
     trace_value (hm_heap m') t = trace_value (hm_heap m) t).
Proof.
  intros arg world pc Sp CF programs sched later m m' t R R2 H.
  destruct (run_fun Sp CF _ _ _ (inv_start programs) R) as [I _]. destruct (run_fun Sp CF _ _ _ I R2) as [I2 V].
  pose proof (kept_not_freed Sp CF t later m I H) as F. pose proof (H [] _ m eq_refl eq_refl) as Hc.
  assert (L : t < length (h_traces (hm_heap m))). { apply (i_places _ I). unfold places. apply in_or_app. right. apply in_or_app. auto. }
  destruct (held_run Sp CF t later m m' I R2 L (nodup_apart m t I (or_introl Hc)) F) as [_ C].
  assert (E : trace_value (hm_heap m') t = run Sp CF (calls_on t (effects Sp CF later m)) (trace_value (hm_heap m) t)) by (rewrite V; apply calls_only; assumption).
  split; [exact E|]. intros Hf Hw. rewrite E. apply run_write_finished; assumption.
Qed.
Print Assumptions C17_unchanged_until_evicted.
(** Also after it was pushed out, up to the moment it is freed. *)
Theorem C17_unchanged_until_freed :
  forall (arg world pc : Type) (Sprintf : world -> string -> list arg -> string) (CallersFrames : list pc -> list rframe)
         (programs : list (list (hop arg world pc))) (sched later : list nat) m m' t,
    h_run Sprintf CallersFrames sched (hm_start programs) = Ok m -> h_run Sprintf CallersFrames later m = Ok m' ->
    In t (hm_handles m) -> ~ In t (in_pool m) -> Forall (fun x => freed t x = false) (effects Sprintf CallersFrames later m) ->
    trace_value (hm_heap m') t = run Sprintf CallersFrames (calls_on t (effects Sprintf CallersFrames later m)) (trace_value (hm_heap m) t).
Proof.
  intros arg world pc Sp CF programs sched later m m' t R R2 Hh Hp F.
  destruct (run_fun Sp CF _ _ _ (inv_start programs) R) as [I _]. destruct (run_fun Sp CF _ _ _ I R2) as [I2 V].
  destruct (held_run Sp CF t later m m' I R2 (i_handles _ I _ Hh) Hp F) as [_ C]. rewrite V. apply calls_only; assumption.
Qed.
Print Assumptions C17_unchanged_until_freed.

(** *** C18 *)
(** What was returned keeps its texts, times and flags for ever, and all of it if no stacks
    were asked for. *)
Theorem C18_texts_never_change :
  forall (arg world pc : Type) (Sprintf : world -> string -> list arg -> string) (CallersFrames : list pc -> list rframe)
         (programs : list (list (hop arg world pc))) (sched later : list nat) m m' j n e k stacks evs,
    h_run Sprintf CallersFrames sched (hm_start programs) = Ok m -> h_run Sprintf CallersFrames later m = Ok m' ->
    nth_error (hm_results m) j = Some (n, e, k, stacks, evs) ->
    nth_error (hm_results m') j = Some (n, e, k, stacks, evs) /\
    map (fun ev => (When ev, What ev, IsError ev)) (map (hevent_value (hm_heap m')) evs) = map (fun ev => (When ev, What ev, IsError ev)) (map (hevent_value (hm_heap m)) evs) /\
    (stacks = false -> map (hevent_value (hm_heap m')) evs = map (hevent_value (hm_heap m)) evs).
Proof.
  intros arg world pc Sp CF programs sched later m m' j n e k st evs R R2 Hj.
  destruct (run_fun Sp CF _ _ _ (inv_start programs) R) as [I _]. destruct (results_grow Sp CF later m m' I R2) as [more ->]. split; [|split].
  - rewrite nth_error_app1; [exact Hj|]. apply nth_error_Some. congruence.
  - rewrite !map_map. reflexivity.
  - intros ->. pose proof (results_no_stacks Sp CF _ _ _ R) as N. rewrite Forall_forall in N. specialize (N _ (nth_error_In _ _ Hj) eq_refl).
    apply map_ext_in. intros he Hin. rewrite Forall_forall in N. unfold hevent_value. rewrite (N he Hin). reflexivity.
Qed.
Print Assumptions C18_texts_never_change.
(** The stacks stay until the trace they came from is freed. *)
Theorem C18_stacks_until_freed :
  forall (arg world pc : Type) (Sprintf : world -> string -> list arg -> string) (CallersFrames : list pc -> list rframe)
         (programs : list (list (hop arg world pc))) (sched later : list nat) m i m1 m2 n e k stacks evs t,
    h_run Sprintf CallersFrames sched (hm_start programs) = Ok m -> h_step Sprintf CallersFrames m i = Ok m1 ->
    hm_results m1 = hm_results m ++ [(n, e, k, stacks, evs)] -> nth_error (hm_handles m) n = Some t ->
    h_run Sprintf CallersFrames later m1 = Ok m2 -> Forall (fun x => freed t x = false) (effects Sprintf CallersFrames later m1) ->
    map (hevent_value (hm_heap m2)) evs = map (hevent_value (hm_heap m1)) evs.
Proof.
  intros arg world pc Sp CF programs sched later m i m1 m2 n e k st evs t R S Hr Hn R2 F.
  destruct (run_fun Sp CF _ _ _ (inv_start programs) R) as [I _]. pose proof (step_fun Sp CF _ _ _ I S) as SO. pose proof (inv_step Sp CF _ _ _ I SO) as I1.
  destruct (so_results _ _ _ _ _ SO) as [Q|(n' & e' & k' & st' & evs' & t' & Q & Hn' & _ & A & Pi & _)]; rewrite Q in Hr.
  { apply (f_equal (@length _)) in Hr. rewrite app_length in Hr. cbn in Hr. lia. }
  apply app_inj_tail in Hr. destruct Hr as [_ Hr]. injection Hr as -> -> -> -> ->. rewrite Hn in Hn'. injection Hn' as <-.
  apply map_ext_in. intros he Hin. unfold hevent_value. f_equal.
  apply (run_keeps Sp CF (fun m' => pinned (hm_heap m') t (he_stack he) /\ frames_of (h_arrays (hm_heap m')) (he_stack he) = frames_of (h_arrays (hm_heap m1)) (he_stack he))
    (fun x => freed t x = false)) with (3 := R2); [|exact I1|exact F|split; [exact (Pi he Hin)|reflexivity]].
  intros m3 j m4 I3 S3 F3 [P1 P2]. destruct (so_pins _ _ _ _ _ S3 t _ (not_freed m3 j t F3) P1) as [P3 P4]. split; [exact P3|congruence].
Qed.
Print Assumptions C18_stacks_until_freed.

(** *** Examples and findings *)
Definition demo_heap := h_run demo_Sprintf demo_frames.
Definition no_choice : choices := MkCh None None (fun _ => []).
Definition demo_create (cat id : string) (pick : option nat) : hop nat demo_world Z := HNewTrace 0 cat (MkGlobals 10 false) 100%Z id "src" pick.
Definition demo_use (handle : nat) (c : call nat) : hop nat demo_world Z := HCall handle (demo_e 110, c) no_choice.
(** One goroutine: categories of size 1; a trace A is created, used and finished; a trace B
    pushes it out of its category; a trace C is created in another category. *)
Definition demo_reuse : list (hop nat demo_world Z) :=
  [HSetCategorySize 0 1; demo_create "one" "A" None; demo_use 0 (CallLog KTracef "first" []); demo_use 0 (CallEvents 0 true); demo_use 0 CallFinish;
   demo_create "one" "B" None; demo_create "two" "C" (Some 0)].
(** NewTrace takes two steps, three if it frees one, SetCategorySize two, so the reading of A
    is the sixth step and the end of its Finish the seventh. *)

(** Finding: the caller that still has A then calls Tracef on it, and the event is in C. *)
Theorem C17_stale_handle_refuted :
  exists m1 m2, demo_heap (repeat 0 7) (hm_start [demo_reuse ++ [demo_use 0 (CallLog KTracef "late" []); demo_use 2 (CallEvents 0 false)]]) = Ok m1 /\
    demo_heap (repeat 0 7) m1 = Ok m2 /\
    nth_error (hm_handles m1) 0 = Some 0 /\ ID (trace_value (hm_heap m1) 0) = "A" /\ Finished (trace_value (hm_heap m1) 0) = true /\
    nth_error (hm_handles m2) 2 = Some 0 /\ ID (trace_value (hm_heap m2) 0) = "C" /\ in_categories m2 = [1; 0] /\
    map (fun r => map (fun ev => he_what ev) (snd r)) (hm_results m2) = [["first"]; ["late"]].
Proof. eexists _, _. split; [vm_compute; reflexivity|]. split; [vm_compute; reflexivity|]. vm_compute. auto 10. Qed.
Print Assumptions C17_stale_handle_refuted.

(** Finding: C logs an event, from somewhere else; when somebody reads C with stacks, the
    stack in what was returned for A before changes. *)
Definition demo_elsewhere : hop nat demo_world Z := HCall 2 (demo_env 120 demo_w0 [7; 8; 9]%Z, CallLog KTracef "second" []) (MkCh (Some 0) (Some 0) (fun _ => [])).
Theorem C18_stack_rewritten_refuted :
  exists m1 m2 r, demo_heap (repeat 0 6) (hm_start [demo_reuse ++ [demo_elsewhere; demo_use 2 (CallEvents 0 true)]]) = Ok m1 /\
    demo_heap (repeat 0 8) m1 = Ok m2 /\
    nth_error (hm_results m1) 0 = Some r /\ nth_error (hm_results m2) 0 = Some r /\
    map (fun ev => (What ev, map Function (Stack ev))) (map (hevent_value (hm_heap m1)) (snd r)) = [("first", ["main.f1"])] /\
    map (fun ev => (What ev, map Function (Stack ev))) (map (hevent_value (hm_heap m2)) (snd r)) = [("first", ["main.f7"])].
Proof. eexists _, _, _. split; [vm_compute; reflexivity|]. split; [vm_compute; reflexivity|]. split; [vm_compute; reflexivity|]. vm_compute. auto 10. Qed.
Print Assumptions C18_stack_rewritten_refuted.

(** Two goroutines: one creates traces, the other one finishes them and changes the size. *)
Example C16_instance :
  exists m m1, demo_heap [0; 0; 0; 0; 1; 0; 0; 1; 1; 1; 1] (hm_start [[demo_create "one" "A" None; demo_create "one" "B" None; demo_create "one" "C" (Some 0); demo_create "two" "D" (Some 0)];
                            [demo_use 1 CallFinish; HSetCategorySize 0 1]]) = Ok m /\
    h_step demo_Sprintf demo_frames m 0 = Ok m1 /\
    in_pool m = [1] /\ in_categories m = [2] /\ with_goroutines m = [0] /\
    effect_of m 1 = [Freed 0] /\ Finished (trace_value (hm_heap m) 0) = false /\
    effect_of m 0 = [Created 1 (MkGlobals 10 false) 100%Z "D" "src" "two"] /\
    in_pool m1 = [] /\ with_goroutines m1 = [1; 0] /\ ID (trace_value (hm_heap m1) 1) = "D".
Proof. eexists _, _. split; [vm_compute; reflexivity|]. split; [vm_compute; reflexivity|]. vm_compute. auto 10. Qed.
Example C17_instance :
  exists m m', demo_heap (repeat 0 6) (hm_start [[HSetCategorySize 0 1; demo_create "one" "A" None; demo_use 0 (CallLog KTracef "first" []); demo_use 0 CallFinish; demo_use 0 (CallLog KTracef "ignored" [])]]) = Ok m /\
    demo_heap [0] m = Ok m' /\ (forall p q m1, [0] = p ++ q -> demo_heap p m = Ok m1 -> In 0 (in_categories m1)) /\
    Finished (trace_value (hm_heap m) 0) = true /\ length (ct_events (trace_value (hm_heap m) 0)) = 1 /\
    calls_on 0 (effects demo_Sprintf demo_frames [0] m) = [(demo_e 110, CallLog KTracef "ignored" [])] /\
    Forall (fun c => is_write c = true) (calls_on 0 (effects demo_Sprintf demo_frames [0] m)).
Proof.
  eexists _, _. split; [vm_compute; reflexivity|]. split; [vm_compute; reflexivity|]. split; [|vm_compute; auto 10].
  intros [|x [|y p]] q m1 E R; [|injection E as <- _|discriminate]; vm_compute in R; injection R as <-; vm_compute; auto.
Qed.
(** The stack of what is returned for A is not empty, and other traces come and go. *)
Example C18_instance :
  exists m m1 m2, demo_heap (repeat 0 5) (hm_start [demo_reuse]) = Ok m /\ h_step demo_Sprintf demo_frames m 0 = Ok m1 /\ demo_heap (repeat 0 3) m1 = Ok m2 /\
    map (fun r => fst (fst (fst (fst r)))) (hm_results m1) = [0] /\ hm_results m = [] /\
    map (fun r => map (fun ev => map Function (Stack ev)) (map (hevent_value (hm_heap m2)) (snd r))) (hm_results m1) = [[["main.f1"]]] /\
    effects demo_Sprintf demo_frames (repeat 0 3) m1 = [Called 0 (demo_e 110, CallFinish); Created 1 (MkGlobals 10 false) 100%Z "B" "src" "one"].
Proof. eexists _, _, _. split; [vm_compute; reflexivity|]. split; [vm_compute; reflexivity|]. split; [vm_compute; reflexivity|]. vm_compute. auto 10. Qed.

(** C71: what the counters of the debug page say. *)
From Verif Require Import Go L_List M_Strings M_Types S_RingBuf S_Trace M_Trace L_Trace M_Mutex M_Steps P_Mutex M_Heap L_Heap S_Heap P_Heap M_Counters D_Demo.
From Coq Require Import Lia Permutation.
Open Scope string_scope.
Open Scope list_scope.
Open Scope nat_scope.

(** *** Sums *)
Lemma sum_app l1 l2 : list_sum (l1 ++ l2) = list_sum l1 + list_sum l2.
Proof. exact (list_sum_app l1 l2). Qed.
Lemma sum_perm l1 l2 : Permutation l1 l2 -> list_sum l1 = list_sum l2.
Proof. induction 1; cbn; unfold list_sum in *; lia. Qed.
Lemma sum_zero {A} (f : A -> nat) l : (forall x, In x l -> f x = 0) -> list_sum (map f l) = 0.
Proof. induction l as [|x l IH]; intros H; [reflexivity|]. cbn. rewrite (H x) by (left; reflexivity). apply IH. intros y Hy. apply H. right. exact Hy. Qed.
Lemma sum_ext (f f' : nat -> nat) l : (forall x, In x l -> f' x = f x) -> list_sum (map f' l) = list_sum (map f l).
Proof. intros H. f_equal. apply map_ext_in. exact H. Qed.
Lemma sum_one (f f' : nat -> nat) t l : NoDup l -> In t l -> (forall x, x <> t -> f' x = f x) -> list_sum (map f' l) + f t = list_sum (map f l) + f' t.
Proof.
  intros N I H. induction l as [|y l IH]; [destruct I|]. apply NoDup_cons_iff in N. destruct N as [N1 N2]. cbn [map list_sum fold_right].
  destruct (Nat.eq_dec y t) as [->|n].
  - assert (E : list_sum (map f' l) = list_sum (map f l)) by (apply sum_ext; intros x Hx; apply H; intros ->; exact (N1 Hx)). unfold list_sum in *. lia.
  - destruct I as [I|I]; [contradiction|]. specialize (IH N2 I). rewrite (H y n). unfold list_sum in *. lia.
Qed.

Lemma filter_le {A} (f : A -> bool) l : length (filter f l) <= length l.
Proof. induction l as [|x l IH]; [apply le_n|]. cbn. destruct (f x); cbn; lia. Qed.

Section Proofs.
Context {arg world pc : Type}.
Variable Sprintf : world -> string -> list arg -> string.
Variable CallersFrames : list pc -> list rframe.
Notation env := (env arg world pc).
Notation machine := (machine arg world pc).
Notation heap := (heap arg pc).
Notation h_step := (h_step Sprintf CallersFrames).
Notation c_run := (c_run Sprintf CallersFrames).

(** The events that the trace at an address holds. *)
Definition held (m : machine) (t : nat) : nat := length (ct_events (trace_value (hm_heap m) t)).
Definition total (m : machine) : nat := list_sum (map (held m) (seq 0 (length (h_traces (hm_heap m))))).
Definition spent (m : machine) (t : nat) : Prop := ct_finished (trace_value (hm_heap m) t) = true /\ held m t = 0.

Record cinv (m : machine) (c : counters) : Prop := {
  k_inv : inv m;
  k_sizes : forall k, (0 < hm_sizes m k)%Z;
  k_caps : forall kr, In kr (hm_cats m) -> bl_cap (snd kr) <> 0;
  k_resize : forall i ks cap d p, nth_error (hm_threads m) i = Some (HResizing ks cap d, p) -> (0 < cap)%Z;
  k_new : n_new (of_traces c) = length (hm_handles m);
  k_alloc : n_alloc (of_traces c) = length (h_traces (hm_heap m));
  k_part : exists lost gone, Permutation (seq 0 (length (h_traces (hm_heap m)))) (places m ++ lost ++ gone) /\ length lost = n_lost (of_traces c) /\ forall t, In t gone -> spent m t;
  k_flow : n_new (of_traces c) = n_free (of_traces c) + n_lost (of_traces c) + length (in_categories m) + length (with_goroutines m);
  k_events : n_new (of_events c) = n_free (of_events c) + total m;
  k_ealloc : n_alloc (of_events c) = length (h_events (hm_heap m));
  k_epool : n_new (of_events c) + length (h_epool (hm_heap m)) <= n_alloc (of_events c) + n_free (of_events c);
  k_snew : n_new (of_stringers c) = n_new (of_events c) /\ n_free (of_stringers c) = n_free (of_events c);
  k_salloc : n_alloc (of_stringers c) = length (h_stringers (hm_heap m));
  k_spool : n_new (of_stringers c) + length (h_zpool (hm_heap m)) <= n_alloc (of_stringers c) + n_free (of_stringers c);
  k_never : n_lost (of_events c) = 0 /\ n_lost (of_stringers c) = 0
}.

(** *** Sizes *)
Lemma pool_get_sizes {A} (zero : A) pick pool objs x pool' objs' : pool_get zero pick pool objs = (x, pool', objs') ->
  if pool_misses pick pool then length objs' = S (length objs) /\ pool' = pool else length objs' = length objs /\ S (length pool') = length pool.
Proof.
  unfold pool_get, pool_misses.
  assert (F : (length objs, pool, objs ++ [zero]) = (x, pool', objs') -> length objs' = S (length objs) /\ pool' = pool).
  { intros [= <- <- <-]. rewrite app_length. cbn. split; [lia|reflexivity]. }
  destruct pick as [j|]; [|exact F]. destruct (nth_error pool j) as [y|] eqn:E; [|exact F]. intros [= <- <- <-]. split; [reflexivity|].
  pose proof (Permutation_length (remove_nth_perm _ _ _ E)) as P. cbn in P. lia.
Qed.
Definition same_sizes (h h' : heap) : Prop :=
  length (h_events h') = length (h_events h) /\ length (h_stringers h') = length (h_stringers h) /\ length (h_epool h') = length (h_epool h) /\ length (h_zpool h') = length (h_zpool h).
Lemma snapshot_sizes w st sp : forall evs (h h' : heap) hes, h_snapshot Sprintf CallersFrames w st sp evs h = Ok (h', hes) -> same_sizes h h'.
Proof.
  induction evs as [|ev evs IH]; intros h h' hes; cbn [h_snapshot]; [intros [= <- <-]; repeat split; reflexivity|].
  unfold h_snapshot_event. destruct (if st then _ else _) as [[arrays o] stack]. destruct (eo_what o) as [z|]; [|discriminate]. destruct (stringer_String _ _ _) as [zo what]. cbn [bind].
  match goal with |- context [h_snapshot _ _ _ _ _ evs ?x] => destruct (h_snapshot Sprintf CallersFrames w st sp evs x) as [[h2 hes2]|] eqn:E end; [|discriminate].
  cbn [bind]. intros [= <- <-]. apply IH in E. unfold same_sizes in *. cbn [h_events h_stringers h_epool h_zpool] in E. rewrite !length_update in E. exact E.
Qed.
Lemma free_events_sizes : forall evs (h h' : heap), h_free_events evs h = Ok h' ->
  length (h_events h') = length (h_events h) /\ length (h_stringers h') = length (h_stringers h) /\
  length (h_epool h') = length evs + length (h_epool h) /\ length (h_zpool h') = length evs + length (h_zpool h).
Proof.
  induction evs as [|ev evs IH]; intros h h'; cbn [h_free_events]; [intros [= <-]; auto|].
  unfold h_free_event. destruct (eo_what _) as [z|]; [|discriminate]. cbn [bind]. intros E. apply IH in E. cbn [h_events h_stringers h_epool h_zpool length] in E.
  rewrite length_update in E. cbn [length]. lia.
Qed.
Lemma count_free_events_eq evs : forall c, count_free_events evs c =
  MkCounters (of_traces c) (MkCounts (n_new (of_events c)) (n_alloc (of_events c)) (n_free (of_events c) + length evs) (n_lost (of_events c)))
             (MkCounts (n_new (of_stringers c)) (n_alloc (of_stringers c)) (n_free (of_stringers c) + length evs) (n_lost (of_stringers c))).
Proof.
  induction evs as [|ev evs IH]; intros [[a1 a2 a3 a4] [b1 b2 b3 b4] [d1 d2 d3 d4]]; cbn [count_free_events of_traces of_events of_stringers n_new n_alloc n_free n_lost length].
  - rewrite !Nat.add_0_r. reflexivity.
  - rewrite IH. cbn. rewrite <- !Nat.add_assoc. reflexivity.
Qed.
Lemma held_length (m : machine) t : held m t = length (to_events (tr_at (hm_heap m) t)).
Proof. unfold held, trace_value. cbn [ct_events set_events]. apply map_length. Qed.

(** What a call does to the number of events. *)
Lemma snapshot_length w : forall evs st, length (fst (snapshotEvents Sprintf CallersFrames w evs st)) = length (A := coreEvent arg pc) evs.
Proof. intros evs st. rewrite snapshotEvents_map. apply map_length. Qed.
Lemma call_held (tr : coreTrace arg pc) (x : env * call arg) :
  length (ct_events (M_Trace.do_call Sprintf CallersFrames tr x)) =
    length (ct_events tr) + match snd x with CallLog _ _ _ => if ct_finished tr then 0 else if (ct_eventsmax tr <=? zlen (ct_events tr))%Z then 0 else 1 | _ => 0 end.
Proof.
  destruct x as [e [k f a| |n|n s]]; cbn [snd].
  - rewrite log_value. destruct (ct_finished tr); [lia|]. cbv zeta. destruct (is_error_kind k); cbn [mark_errored ct_eventsmax ct_events];
      destruct (ct_eventsmax tr <=? zlen (ct_events tr))%Z; cbn; rewrite ?app_length; cbn; lia.
  - unfold M_Trace.do_call, Finish. cbn [fst snd]. destruct (ct_finished tr); cbn; lia.
  - cbn. lia.
  - unfold M_Trace.do_call, EventsDetail. cbn [fst snd].
    match goal with |- context [snapshotEvents Sprintf CallersFrames ?c ?d ?e] => pose proof (snapshot_length c d e) as L; destruct (snapshotEvents Sprintf CallersFrames c d e) as [latest evs] end.
    cbn [fst ct_events] in *. rewrite app_length, L, <- app_length, firstn_skipn. lia.
Qed.

Lemma call_finished (tr : coreTrace arg pc) (x : env * call arg) : ct_finished tr = true -> ct_finished (M_Trace.do_call Sprintf CallersFrames tr x) = true.
Proof.
  intros F. destruct x as [e [k f a| |n|n s]].
  - rewrite log_value, F. exact F.
  - unfold M_Trace.do_call, Finish. cbn [fst snd]. rewrite F. exact F.
  - exact F.
  - unfold M_Trace.do_call, EventsDetail. cbn [fst snd].
    match goal with |- context [snapshotEvents Sprintf CallersFrames ?c ?d ?e] => destruct (snapshotEvents Sprintf CallersFrames c d e) as [latest evs] end. exact F.
Qed.

(** *** Steps *)
Lemma total_same (m m' : machine) : length (h_traces (hm_heap m')) = length (h_traces (hm_heap m)) -> (forall t, held m' t = held m t) -> total m' = total m.
Proof. intros L H. unfold total. rewrite L. apply sum_ext. intros x _. apply H. Qed.
Lemma total_one (m m' : machine) t : t < length (h_traces (hm_heap m)) -> length (h_traces (hm_heap m')) = length (h_traces (hm_heap m)) ->
  (forall x, x <> t -> held m' x = held m x) -> total m' + held m t = total m + held m' t.
Proof. intros Ht L H. unfold total. rewrite L. apply sum_one; [apply seq_NoDup|apply in_seq; lia|exact H]. Qed.
(** Nothing is counted. *)
Lemma cinv_quiet m i m' c : cinv m c -> step_ok Sprintf CallersFrames m i m' -> effect_of m i = [] ->
  h_traces (hm_heap m') = h_traces (hm_heap m) -> h_tpool (hm_heap m') = h_tpool (hm_heap m) -> same_sizes (hm_heap m) (hm_heap m') ->
  (forall k, (0 < hm_sizes m' k)%Z) -> (forall kr, In kr (hm_cats m') -> bl_cap (snd kr) <> 0) ->
  (forall i ks cap d p, nth_error (hm_threads m') i = Some (HResizing ks cap d, p) -> (0 < cap)%Z) ->
  Permutation (in_categories m ++ with_goroutines m) (in_categories m' ++ with_goroutines m') -> cinv m' c.
Proof.
  intros K SO E T P (Z1 & Z2 & Z3 & Z4) A B C Q.
  assert (V : forall t, trace_value (hm_heap m') t = trace_value (hm_heap m) t) by (intros t; rewrite (so_values _ _ _ _ _ SO), E; reflexivity).
  assert (H : forall t, held m' t = held m t) by (intros t; unfold held; rewrite V; reflexivity).
  constructor; try assumption; rewrite ?T, ?Z1, ?Z2, ?Z3, ?Z4; try apply K.
  - exact (inv_step _ _ _ _ _ (k_inv _ _ K) SO).
  - rewrite (so_handles _ _ _ _ _ SO), E. cbn. rewrite app_nil_r. apply K.
  - destruct (k_part _ _ K) as (lost & gone & H1 & H2 & H3). exists lost, gone. split; [|split; [exact H2|]].
    + rewrite H1. apply Permutation_app_tail. unfold places, in_pool. rewrite P. apply Permutation_app_head. exact Q.
    + intros t Ht. unfold spent. rewrite V, H. exact (H3 t Ht).
  - pose proof (k_flow _ _ K). apply Permutation_length in Q. rewrite !app_length in Q. lia.
  - rewrite (total_same m m'); [apply K|rewrite T; reflexivity|exact H].
Qed.
Lemma resize_update (m : machine) i s' p' : (forall i ks cap d p, nth_error (hm_threads m) i = Some (HResizing ks cap d, p) -> (0 < cap)%Z) ->
  (forall ks cap d, s' = HResizing ks cap d -> (0 < cap)%Z) ->
  forall j ks cap d p, nth_error (set_thread m i s' p') j = Some (HResizing ks cap d, p) -> (0 < cap)%Z.
Proof.
  intros H1 H2 j ks cap d p. unfold set_thread. rewrite nth_update_eq. destruct (Nat.eqb i j).
  - destruct (Nat.ltb i (length (hm_threads m))); [|discriminate]. intros [= -> ->]. eauto.
  - intros H. exact (H1 _ _ _ _ _ H).
Qed.
Lemma caps_set_ring k (r : blist nat) : forall cats, bl_cap r <> 0 -> (forall kr, In kr cats -> bl_cap (snd kr) <> 0) -> forall kr, In kr (set_ring k r cats) -> bl_cap (snd kr) <> 0.
Proof.
  induction cats as [|[k' q] cats IH]; intros Hr H kr; [intros []|]. cbn [set_ring]. destruct (key_eq k k').
  - intros [<-|Hin]; [exact Hr|]. apply H. right. exact Hin.
  - intros [<-|Hin]; [apply (H (k', q)); left; reflexivity|]. apply IH; [exact Hr| |exact Hin]. intros kr' Hk. apply H. right. exact Hk.
Qed.
Lemma caps_created k n (cats : list (nat * string * blist nat)) : (0 < n)%Z -> (forall kr, In kr cats -> bl_cap (snd kr) <> 0) -> forall kr, In kr (get_or_create k n cats) -> bl_cap (snd kr) <> 0.
Proof.
  intros Hn H kr. unfold get_or_create. destruct (get_ring k cats); [apply H|]. intros Hin. apply in_app_or in Hin. destruct Hin as [Hin|[<-|[]]]; [exact (H _ Hin)|]. cbn [snd bl_cap]. lia.
Qed.
Lemma get_ring_in k r : forall cats : list (nat * string * blist nat), get_ring k cats = Some r -> exists k', In (k', r) cats.
Proof.
  induction cats as [|[k' q] cats IH]; [discriminate|]. cbn [get_ring]. destruct (key_eq k k'); [intros [= ->]; exists k'; left; reflexivity|].
  intros H. destruct (IH H) as [k2 Hk]. exists k2. right. exact Hk.
Qed.
Lemma bl_add_all (r r' : blist nat) t out : bl_cap r <> 0 -> bl_add 0 r t = (r', out) ->
  bl_cap r' = bl_cap r /\ Permutation (t :: bl_items r) (bl_items r' ++ match out with RAdd d true => [d] | _ => [] end).
Proof.
  unfold bl_add. destruct (bl_cap r) eqn:Ec; [contradiction|intros _].
  destruct (Nat.eqb_spec (length (bl_items r)) (S n)) as [E|_]; intros [= <- <-]; cbn [bl_items bl_cap]; (split; [congruence|]); rewrite ?app_nil_r; [|reflexivity].
  rewrite <- app_comm_cons. apply perm_skip. rewrite <- app_removelast_last; [reflexivity|]. intros Q. rewrite Q in E. discriminate.
Qed.

Lemma cinv_step m i m' c : cinv m c -> h_step m i = Ok m' -> cinv m' (count_step m i c).
Proof.
  intros K St. pose proof (k_inv _ _ K) as I. pose proof (step_fun Sprintf CallersFrames _ _ _ I St) as SO.
  revert St. unfold M_Heap.h_step, count_step. destruct (nth_error (hm_threads m) i) as [[s prog]|] eqn:Ht; [|intros [= <-]; exact K].
  pose proof (fun s' p' => threads_perm m i s prog s' p' Ht) as TP.
  destruct s as [|t key|ks cap dropped|ts].
  - destruct prog as [|[c0 cat g now id src pick|n x ch|c0 cap|kt ke kz] p].
    + intros [= <-]. exact K.
    + (* NewTrace *)
      destruct (h_new g now id pick src cat (hm_heap m)) as [h t] eqn:E. intros St. injection St as Em.
      assert (Eff : effect_of m i = [Created t g now id src cat]) by (unfold effect_of; rewrite Ht, E; reflexivity).
      pose proof (so_values _ _ _ _ _ SO) as V. rewrite Eff in V. cbn [fold_left S_Heap.apply] in V.
      assert (Hh : hm_heap m' = h) by (subst m'; reflexivity).
      destruct (h_new_ok g now id pick src cat _ _ _ (i_wf m I) E) as (W & O & X & Inc & L1 & L2 & _ & No & Ev & Hx & He & Ha).
      assert (Held : forall t', held m' t' = held m t').
      { intros t'. destruct (Nat.eq_dec t' t) as [->|n]; [|unfold held; rewrite V; apply Nat.eqb_neq in n; rewrite n; reflexivity].
        rewrite (held_length m), Hx. unfold held. rewrite V, Nat.eqb_refl. reflexivity. }
      assert (Sz : h_stringers h = h_stringers (hm_heap m) /\ h_epool h = h_epool (hm_heap m) /\ h_zpool h = h_zpool (hm_heap m) /\
        if pool_misses pick (h_tpool (hm_heap m)) then t = length (h_traces (hm_heap m)) /\ length (h_traces h) = length (h_traces (hm_heap m)) + 1 /\ h_tpool h = h_tpool (hm_heap m)
        else length (h_traces h) = length (h_traces (hm_heap m)) /\ Permutation (h_tpool (hm_heap m)) (t :: h_tpool h)).
      { clear - E. unfold h_new, pool_get, pool_misses in *. destruct pick as [j|]; [destruct (nth_error (h_tpool (hm_heap m)) j) as [y|] eqn:Ej|]; injection E as <- <-;
          cbn [h_traces h_stringers h_epool h_zpool h_tpool]; rewrite length_update, ?app_length; cbn [length]; repeat split; try lia; apply remove_nth_perm; exact Ej. }
      destruct Sz as (Z1 & Z2 & Z3 & Z4).
      specialize (TP (HAdding t (c0, cat)) p). cbn [on_the_way] in TP.
      assert (Gor : Permutation (t :: with_goroutines m) (with_goroutines m')) by (subst m'; exact TP). clear TP.
      assert (Cat : in_categories m' = in_categories m) by (subst m'; reflexivity).
      assert (NotT : forall l, Permutation (seq 0 (length (h_traces (hm_heap m)))) (places m ++ l) -> In t l -> False).
      { intros l Pl Hin. destruct O as [O| ->].
        - pose proof (Permutation_NoDup Pl (seq_NoDup _ _)) as N. unfold places, in_pool in N.
          apply in_split in O. destruct O as (a & b & O). rewrite O in N. rewrite <- !app_assoc in N. apply NoDup_remove_2 in N. apply N. rewrite !in_app_iff. auto.
        - assert (In (length (h_traces (hm_heap m))) (seq 0 (length (h_traces (hm_heap m))))) as Q by (rewrite Pl; apply in_or_app; auto). apply in_seq in Q. lia. }
      unfold count_new_trace. constructor; cbn [of_traces of_events of_stringers count_new n_new n_alloc n_free n_lost]; rewrite ?Hh, ?Z1, ?Z2, ?Z3, ?He.
      * exact (inv_step _ _ _ _ _ I SO).
      * subst m'. apply K.
      * subst m'. apply K.
      * subst m'. cbn [hm_threads]. apply resize_update; [apply K|discriminate].
      * rewrite (so_handles _ _ _ _ _ SO), Eff. cbn [flat_map app]. rewrite app_length. cbn [length]. rewrite (k_new _ _ K). reflexivity.
      * rewrite (k_alloc _ _ K). destruct (pool_misses _ _); [destruct Z4 as (_ & -> & _); lia|destruct Z4 as (-> & _); lia].
      * destruct (k_part _ _ K) as (lost & gone & P1 & P2 & P3). exists lost, gone. split; [|split; [exact P2|]].
        -- unfold places, in_pool in *. rewrite Cat, Hh. destruct (pool_misses _ _).
           ++ destruct Z4 as (Et & -> & ->). rewrite seq_app. cbn [plus seq]. rewrite P1, <- Et. clear - Gor. perm.
           ++ destruct Z4 as (-> & Z4). rewrite P1. clear - Gor Z4. perm.
        -- intros t' Hin. unfold spent. rewrite Held, V. destruct (Nat.eqb_spec t' t) as [->|n]; [|exact (P3 t' Hin)]. destruct (NotT (lost ++ gone) P1). apply in_or_app. auto.
      * rewrite Cat. apply Permutation_length in Gor. cbn [length] in Gor. pose proof (k_flow _ _ K). lia.
      * rewrite (k_events _ _ K). f_equal. unfold total. rewrite Hh. destruct (pool_misses _ _).
        -- destruct Z4 as (Et & -> & _). rewrite seq_app, map_app, sum_app. cbn [seq plus map list_sum fold_right]. rewrite Held. rewrite <- Et at 1.
           assert (Z : held m t = 0) by (rewrite held_length, Hx; reflexivity). rewrite <- Et, Z. rewrite Et, !Nat.add_0_r. symmetry. apply sum_ext. intros y _. apply Held.
        -- destruct Z4 as (-> & _). symmetry. apply sum_ext. intros y _. apply Held.
      * apply K.
      * apply K.
      * apply K.
      * apply K.
      * apply K.
      * apply K.
    + (* a call *)
      destruct (nth_error (hm_handles m) n) as [t|] eqn:Hn; [|intros [= <-]; exact K].
      assert (Lt : t < length (h_traces (hm_heap m))) by (apply (i_handles m I); exact (nth_error_In _ _ Hn)).
      destruct (h_call_ok Sprintf CallersFrames t x ch _ (i_wf m I) Lt) as (h & evs & E & CO). rewrite E. cbn [bind]. intros St. injection St as Em.
      assert (Eff : effect_of m i = [Called t x]) by (unfold effect_of; rewrite Ht, Hn; reflexivity).
      pose proof (so_values _ _ _ _ _ SO) as V. rewrite Eff in V. cbn [fold_left S_Heap.apply] in V.
      assert (Hh : hm_heap m' = h) by (subst m'; reflexivity).
      specialize (TP HIdle p). cbn [on_the_way app] in TP.
      assert (Gor : Permutation (with_goroutines m) (with_goroutines m')) by (subst m'; exact TP). clear TP.
      assert (Cat : in_categories m' = in_categories m) by (subst m'; reflexivity).
      assert (Ln : length (h_traces (hm_heap m')) = length (h_traces (hm_heap m))) by (rewrite Hh; exact (co_len _ _ _ _ _ _ _ CO)).
      assert (Other : forall t', t' <> t -> held m' t' = held m t') by (intros t' n'; unfold held; rewrite V; apply Nat.eqb_neq in n'; rewrite n'; reflexivity).
      pose proof (call_held (trace_value (hm_heap m) t) x) as Grow.
      assert (Ht' : held m' t = length (ct_events (M_Trace.do_call Sprintf CallersFrames (trace_value (hm_heap m) t) x))) by (unfold held; rewrite V, Nat.eqb_refl; reflexivity).
      rewrite <- Ht' in Grow. fold (held m t) in Grow. pose proof (total_one m m' t Lt Ln Other) as Tot.
      assert (Ct : ct_finished (trace_value (hm_heap m) t) = ct_finished (to_head (tr_at (hm_heap m) t)) /\ ct_eventsmax (trace_value (hm_heap m) t) = ct_eventsmax (to_head (tr_at (hm_heap m) t)) /\
        zlen (ct_events (trace_value (hm_heap m) t)) = zlen (to_events (tr_at (hm_heap m) t))).
      { repeat split. unfold zlen. fold (held m t). rewrite held_length. reflexivity. }
      assert (Part : exists lost gone, Permutation (seq 0 (length (h_traces (hm_heap m')))) (places m' ++ lost ++ gone) /\ length lost = n_lost (of_traces c) /\ forall t, In t gone -> spent m' t).
      { destruct (k_part _ _ K) as (lost & gone & P1 & P2 & P3). exists lost, gone. split; [|split; [exact P2|]].
        - rewrite Ln, P1. unfold places, in_pool. rewrite Cat, Hh, (co_tpool _ _ _ _ _ _ _ CO). clear - Gor. perm.
        - intros t' Hin. destruct (P3 t' Hin) as [Q1 Q2]. destruct (Nat.eq_dec t' t) as [->|n']; [|unfold spent; rewrite (Other _ n'), V; apply Nat.eqb_neq in n'; rewrite n'; exact (P3 t' Hin)].
          split; [rewrite V, Nat.eqb_refl; apply call_finished; exact Q1|]. rewrite Grow, Q1, Q2. destruct (snd x); reflexivity. }
      assert (Flow : n_new (of_traces c) = n_free (of_traces c) + n_lost (of_traces c) + length (in_categories m') + length (with_goroutines m')).
      { rewrite Cat. apply Permutation_length in Gor. pose proof (k_flow _ _ K). lia. }
      assert (Hnd : n_new (of_traces c) = length (hm_handles m')) by (subst m'; apply K).
      assert (Same : same_sizes (hm_heap m) (hm_heap m') -> total m' = total m -> cinv m' c).
      { intros (Z1 & Z2 & Z3 & Z4) Ts. constructor; rewrite ?Z1, ?Z2, ?Z3, ?Z4, ?Ts, ?Ln; try assumption; try apply K.
        - exact (inv_step _ _ _ _ _ I SO).
        - subst m'. apply K.
        - subst m'. apply K.
        - subst m'. cbn [hm_threads]. apply resize_update; [apply K|discriminate].
        - rewrite <- Ln. exact Part. }
      destruct x as [e [k f a| |k|k st]]; cbn [snd fst] in *.
      * unfold count_log. fold (tr_at (hm_heap m) t). destruct Ct as (C1 & C2 & C3). rewrite C1, C2, C3 in Grow.
        unfold h_call, h_log in E. cbn [fst snd] in E. fold (tr_at (hm_heap m) t) in E. injection E as Eh Ee.
        assert (Em2 : ct_eventsmax (if is_error_kind k then mark_errored (to_head (tr_at (hm_heap m) t)) else to_head (tr_at (hm_heap m) t)) = ct_eventsmax (to_head (tr_at (hm_heap m) t))) by (destruct (is_error_kind k); reflexivity).
        rewrite Em2 in Eh. destruct (ct_finished (to_head (tr_at (hm_heap m) t))).
        { apply Same; [rewrite Hh, <- Eh; repeat split|lia]. }
        destruct (ct_eventsmax (to_head (tr_at (hm_heap m) t)) <=? zlen (to_events (tr_at (hm_heap m) t)))%Z.
        { apply Same; [rewrite Hh, <- Eh; repeat split|lia]. }
        clear Same. unfold h_new_event in Eh.
        destruct (pool_get zeroEO (ch_ep ch) (h_epool (hm_heap m)) (h_events (hm_heap m))) as [[ev epool] events] eqn:Ge. pose proof (pool_get_sizes _ _ _ _ _ _ _ Ge) as Se.
        destruct (pool_get zeroStringer (ch_zp ch) (h_zpool (hm_heap m)) (h_stringers (hm_heap m))) as [[z zpool] stringers] eqn:Gz. pose proof (pool_get_sizes _ _ _ _ _ _ _ Gz) as Sz.
        assert (Z1 : length (h_events (hm_heap m')) = length events) by (rewrite Hh, <- Eh; cbn [set_trace h_events]; apply length_update).
        assert (Z2 : length (h_stringers (hm_heap m')) = length stringers) by (rewrite Hh, <- Eh; cbn [set_trace h_stringers]; apply length_update).
        assert (Z3 : h_epool (hm_heap m') = epool) by (rewrite Hh, <- Eh; reflexivity).
        assert (Z4 : h_zpool (hm_heap m') = zpool) by (rewrite Hh, <- Eh; reflexivity).
        unfold count_new_event. pose proof (k_ealloc _ _ K). pose proof (k_epool _ _ K). pose proof (k_salloc _ _ K). pose proof (k_spool _ _ K). pose proof (k_events _ _ K). pose proof (k_snew _ _ K).
        constructor; cbn [of_traces of_events of_stringers count_new n_new n_alloc n_free n_lost]; rewrite ?Z1, ?Z2, ?Z3, ?Z4, ?Ln; try assumption; try apply K.
        -- exact (inv_step _ _ _ _ _ I SO).
        -- subst m'. apply K.
        -- subst m'. apply K.
        -- subst m'. cbn [hm_threads]. apply resize_update; [apply K|discriminate].
        -- rewrite <- Ln. exact Part.
        -- lia.
        -- destruct (pool_misses (ch_ep ch) _); destruct Se as [-> _]; lia.
        -- destruct (pool_misses (ch_ep ch) _); destruct Se as [? ?]; subst; lia.
        -- lia.
        -- destruct (pool_misses (ch_zp ch) _); destruct Sz as [-> _]; lia.
        -- destruct (pool_misses (ch_zp ch) _); destruct Sz as [? ?]; subst; lia.
      * unfold h_call in E. injection E as Eh _. apply Same; [rewrite Hh, <- Eh; repeat split|lia].
      * unfold h_call in E. injection E as Eh _. apply Same; [rewrite Hh, <- Eh; repeat split|lia].
      * apply Same; [|lia]. unfold h_call, h_events_detail in E. cbn [fst snd] in E.
        match type of E with context [h_snapshot _ _ ?w ?s ?sp ?l ?y] => destruct (h_snapshot Sprintf CallersFrames w s sp l y) as [[h2 hes2]|] eqn:Es end; [|discriminate].
        cbn [bind] in E. injection E as <- _. rewrite Hh. exact (snapshot_sizes _ _ _ _ _ _ _ Es).
    + (* SetCategorySize *)
      assert (Eff : effect_of m i = []) by (unfold effect_of; rewrite Ht; reflexivity).
      destruct (cap <=? 0)%Z eqn:Hc; intros St; injection St as Em; (apply (cinv_quiet m i); [exact K|exact SO|exact Eff|subst m'; reflexivity|subst m'; reflexivity|subst m'; repeat split| | | |]).
      * subst m'. apply K.
      * subst m'. apply K.
      * subst m'. apply resize_update; [apply K|discriminate].
      * specialize (TP HIdle p). cbn [on_the_way app] in TP. subst m'. apply Permutation_app_head. exact TP.
      * subst m'. cbn [hm_sizes]. intros k. destruct (Nat.eqb k c0); [lia|apply K].
      * subst m'. apply K.
      * subst m'. apply resize_update; [apply K|]. intros ks cap' d [= _ <- _]. lia.
      * match type of Em with context [set_thread m i ?s p] => specialize (TP s p) end. cbn [on_the_way app] in TP. subst m'. apply Permutation_app_head. exact TP.
    + (* the garbage collector *)
      assert (Eff : effect_of m i = []) by (unfold effect_of; rewrite Ht; reflexivity).
      intros St. injection St as Em. specialize (TP HIdle p). cbn [on_the_way app] in TP.
      assert (V : forall t, trace_value (hm_heap m') t = trace_value (hm_heap m) t) by (intros t; rewrite (so_values _ _ _ _ _ SO), Eff; reflexivity).
      assert (H : forall t, held m' t = held m t) by (intros t; unfold held; rewrite V; reflexivity).
      assert (Gor : Permutation (with_goroutines m) (with_goroutines m')) by (subst m'; exact TP). clear TP.
      assert (Cat : in_categories m' = in_categories m) by (subst m'; reflexivity).
      assert (Tp : in_pool m' = filter kt (in_pool m)) by (subst m'; reflexivity).
      assert (Tr : h_traces (hm_heap m') = h_traces (hm_heap m)) by (subst m'; reflexivity).
      constructor; rewrite ?Tr; try apply K.
      * exact (inv_step _ _ _ _ _ I SO).
      * subst m'. apply K.
      * subst m'. apply K.
      * subst m'. cbn [hm_threads]. apply resize_update; [apply K|discriminate].
      * subst m'. apply K.
      * destruct (k_part _ _ K) as (lost & gone & P1 & P2 & P3). exists lost, (filter (fun x => negb (kt x)) (in_pool m) ++ gone). split; [|split; [exact P2|]].
        -- rewrite P1. unfold places. rewrite Cat, Tp. pose proof (filter_perm kt (in_pool m)) as FP. clear - FP Gor. perm.
        -- intros t Hin. unfold spent. rewrite V, H. apply in_app_or in Hin. destruct Hin as [Hin|Hin]; [|exact (P3 t Hin)]. apply filter_In in Hin. destruct Hin as [Hin _].
           destruct (wf_tp _ (i_wf m I)) as [_ Q]. destruct (Q t Hin) as (_ & Q1 & Q2). split; [exact Q1|]. rewrite held_length, Q2. reflexivity.
      * rewrite Cat. apply Permutation_length in Gor. pose proof (k_flow _ _ K). lia.
      * rewrite (total_same m m'); [apply K|rewrite Tr; reflexivity|exact H].
      * subst m'. apply K.
      * pose proof (k_epool _ _ K). assert (length (h_epool (hm_heap m')) <= length (h_epool (hm_heap m))) by (subst m'; apply filter_le). lia.
      * subst m'. apply K.
      * pose proof (k_spool _ _ K). assert (length (h_zpool (hm_heap m')) <= length (h_zpool (hm_heap m))) by (subst m'; apply filter_le). lia.
  - (* Add *)
    assert (Eff : effect_of m i = []) by (unfold effect_of; rewrite Ht; reflexivity).
    destruct (get_ring key (get_or_create key (hm_sizes m (fst key)) (hm_cats m))) as [r|] eqn:Er; [|destruct (get_created _ _ _ Er)].
    pose proof (caps_created key _ _ (k_sizes _ _ K (fst key)) (k_caps _ _ K)) as Caps.
    assert (Cr : bl_cap r <> 0) by (destruct (get_ring_in _ _ _ Er) as [k' Hk]; exact (Caps _ Hk)).
    destruct (bl_add 0 r t) as [r' out] eqn:Ea. destruct (bl_add_all _ _ _ _ Cr Ea) as [Cr' Pa]. intros St. injection St as Em.
    assert (Q : cinv m' c); [|destruct prog as [|[] ?]; exact Q].
    apply (cinv_quiet m i); [exact K|exact SO|exact Eff|subst m'; reflexivity|subst m'; reflexivity|subst m'; repeat split| | | |].
    + subst m'. apply K.
    + subst m'. cbn [hm_cats]. apply caps_set_ring; [rewrite Cr'; exact Cr|exact Caps].
    + subst m'. apply resize_update; [apply K|]. intros ks cap d Q. destruct (finish_state_not _ _ _ _ Q).
    + match type of Em with context [set_thread m i ?s prog] => specialize (TP s prog) end. rewrite finish_state_way in TP. cbn [on_the_way] in TP.
      pose proof (set_ring_items key r r' _ Er) as Pr. rewrite items_created in Pr.
      subst m'. unfold in_categories, with_goroutines at 2. cbn [hm_cats hm_threads].
      set (dd := match out with RAdd d true => [d] | _ => [] end) in *. clearbody dd. clear - TP Pr Pa. perm.
  - (* Resize *)
    assert (Eff : effect_of m i = []) by (unfold effect_of; rewrite Ht; reflexivity).
    assert (Cp : (0 < cap)%Z) by (exact (k_resize _ _ K _ _ _ _ _ Ht)).
    destruct ks as [|k ks].
    + intros St. injection St as Em. assert (Q : cinv m' c); [|destruct prog as [|[] ?]; exact Q].
      apply (cinv_quiet m i); [exact K|exact SO|exact Eff|subst m'; reflexivity|subst m'; reflexivity|subst m'; repeat split| | | |].
      * subst m'. apply K.
      * subst m'. apply K.
      * subst m'. apply resize_update; [apply K|]. intros ks cap' d Q. destruct (finish_state_not _ _ _ _ Q).
      * specialize (TP (finish_state dropped) prog). rewrite finish_state_way in TP. cbn [on_the_way] in TP. subst m'. apply Permutation_app_head.
        apply (Permutation_app_inv_l dropped). exact TP.
    + destruct (get_ring k (hm_cats m)) as [r|] eqn:Er; [|destruct (i_keys m I _ _ _ _ _ k Ht (or_introl eq_refl) Er)].
      destruct (bl_resize r cap) as [r' out] eqn:Ea. pose proof (bl_resize_items _ _ _ _ Ea) as Pa. intros St. injection St as Em.
      assert (Cr' : bl_cap r' <> 0). { unfold bl_resize in Ea. destruct (cap <=? 0)%Z eqn:Hc; [lia|]. injection Ea as <- _. cbn [bl_cap]. lia. }
      assert (Q : cinv m' c); [|destruct prog as [|[] ?]; exact Q].
      apply (cinv_quiet m i); [exact K|exact SO|exact Eff|subst m'; reflexivity|subst m'; reflexivity|subst m'; repeat split| | | |].
      * subst m'. apply K.
      * subst m'. cbn [hm_cats]. apply caps_set_ring; [exact Cr'|apply K].
      * subst m'. apply resize_update; [apply K|]. intros ks' cap' d [= _ <- _]. exact Cp.
      * set (dd := match out with RResize d => d | _ => [] end) in *. specialize (TP (HResizing ks cap (dropped ++ dd)) prog). cbn [on_the_way] in TP.
        pose proof (set_ring_items k r r' _ Er) as Pr. subst m'. unfold in_categories, with_goroutines at 2. cbn [hm_cats hm_threads]. clearbody dd. clear - TP Pr Pa. perm.
  - (* Free *)
    destruct ts as [|t ts].
    + assert (Eff : effect_of m i = []) by (unfold effect_of; rewrite Ht; reflexivity).
      intros St. injection St as Em. assert (Q : cinv m' c); [|destruct prog as [|[] ?]; exact Q].
      apply (cinv_quiet m i); [exact K|exact SO|exact Eff|subst m'; reflexivity|subst m'; reflexivity|subst m'; repeat split| | | |].
      * subst m'. apply K.
      * subst m'. apply K.
      * subst m'. apply resize_update; [apply K|discriminate].
      * specialize (TP HIdle prog). cbn [on_the_way app] in TP. subst m'. apply Permutation_app_head. exact TP.
    + assert (Eff : effect_of m i = [Freed t]) by (unfold effect_of; rewrite Ht; reflexivity).
      intros St. assert (Q : cinv m' (count_free_trace t (hm_heap m) c)); [|destruct prog as [|[] ?]; exact Q].
      specialize (TP (finish_state ts) prog). rewrite finish_state_way in TP. cbn [on_the_way] in TP.
      assert (Wt : In t (with_goroutines m)) by (apply in_flat_map; exists (HFreeing (t :: ts), prog); split; [exact (nth_error_In _ _ Ht)|left; reflexivity]).
      assert (Pt : In t (places m)) by (unfold places; apply in_or_app; right; apply in_or_app; right; exact Wt).
      pose proof (i_places m I t Pt) as Lt.
      pose proof (so_values _ _ _ _ _ SO) as V. rewrite Eff in V. cbn [fold_left S_Heap.apply] in V.
      assert (Other : forall t', t' <> t -> held m' t' = held m t') by (intros t' n'; unfold held; rewrite V; apply Nat.eqb_neq in n'; rewrite n'; reflexivity).
      assert (SpentO : forall l, Permutation (seq 0 (length (h_traces (hm_heap m)))) (places m ++ l) -> forall t', In t' l -> spent m t' -> spent m' t').
      { intros l Pl t' Hin Sp. assert (n' : t' <> t).
        { intros ->. pose proof (Permutation_NoDup Pl (seq_NoDup _ _)) as N. apply in_split in Pt. destruct Pt as (a & b & Pt). rewrite Pt, <- app_assoc in N. apply NoDup_remove_2 in N. apply N. rewrite !in_app_iff. auto. }
        unfold spent. rewrite (Other _ n'), V. apply Nat.eqb_neq in n'. rewrite n'. exact Sp. }
      unfold count_free_trace, h_free in *. fold (tr_at (hm_heap m) t) in *. destruct (ct_finished (to_head (tr_at (hm_heap m) t))) eqn:F; cbn [negb] in *.
      * destruct (h_free_events (to_events (tr_at (hm_heap m) t)) (hm_heap m)) as [h1|] eqn:Ef; [|discriminate]. cbn [bind] in St. injection St as Em.
        assert (T1 : h_traces h1 = h_traces (hm_heap m) /\ h_tpool h1 = h_tpool (hm_heap m)).
        { clear - Ef. revert Ef. generalize (to_events (tr_at (hm_heap m) t)) as evs. generalize (hm_heap m) as h. intros h evs. revert h. induction evs as [|ev evs IH]; intros h; cbn [h_free_events]; [intros [= <-]; auto|].
          unfold h_free_event. destruct (eo_what _) as [z|]; [|discriminate]. cbn [bind]. intros E. apply IH in E. exact E. }
        destruct T1 as [T1 T2]. destruct (free_events_sizes _ _ _ Ef) as (Z1 & Z2 & Z3 & Z4). rewrite count_free_events_eq.
        assert (Ln : length (h_traces (hm_heap m')) = length (h_traces (hm_heap m))) by (subst m'; cbn [hm_heap h_traces]; rewrite length_update, ?T1; reflexivity).
        assert (Gor : Permutation (with_goroutines m) (t :: with_goroutines m')) by (subst m'; clear - TP; unfold with_goroutines at 2; cbn [hm_threads]; perm).
        assert (Cat : in_categories m' = in_categories m) by (subst m'; reflexivity).
        assert (Tp : in_pool m' = t :: in_pool m) by (subst m'; unfold in_pool; cbn [hm_heap h_tpool]; rewrite T2; reflexivity).
        assert (Y1 : h_events (hm_heap m') = h_events h1) by (subst m'; reflexivity). assert (Y2 : h_stringers (hm_heap m') = h_stringers h1) by (subst m'; reflexivity).
        assert (Y3 : h_epool (hm_heap m') = h_epool h1) by (subst m'; reflexivity). assert (Y4 : h_zpool (hm_heap m') = h_zpool h1) by (subst m'; reflexivity).
        assert (H0 : held m' t = 0).
        { unfold held. rewrite V, Nat.eqb_refl. unfold Free. change (ct_finished (trace_value (hm_heap m) t)) with (ct_finished (to_head (tr_at (hm_heap m) t))). rewrite F. reflexivity. }
        pose proof (total_one m m' t Lt Ln Other) as Tot. pose proof (held_length m t) as Hl.
        pose proof (k_ealloc _ _ K). pose proof (k_epool _ _ K). pose proof (k_salloc _ _ K). pose proof (k_spool _ _ K). pose proof (k_events _ _ K). pose proof (k_snew _ _ K).
        constructor; cbn [of_traces of_events of_stringers count_free n_new n_alloc n_free n_lost]; rewrite ?Y1, ?Y2, ?Y3, ?Y4, ?Z1, ?Z2, ?Z3, ?Z4, ?Ln; try assumption; try apply K.
        -- exact (inv_step _ _ _ _ _ I SO).
        -- subst m'. apply K.
        -- subst m'. apply K.
        -- subst m'. cbn [hm_threads]. apply resize_update; [apply K|]. intros ks cap' d Q. destruct (finish_state_not _ _ _ _ Q).
        -- subst m'. apply K.
        -- destruct (k_part _ _ K) as (lost & gone & P1 & P2 & P3). exists lost, gone. split; [|split; [exact P2|]].
           ++ rewrite P1. unfold places. rewrite Cat, Tp. clear - Gor. perm.
           ++ intros t' Hin. apply (SpentO (lost ++ gone) P1); [apply in_or_app; auto|exact (P3 t' Hin)].
        -- rewrite Cat. apply Permutation_length in Gor. cbn [length] in Gor. pose proof (k_flow _ _ K). lia.
        -- lia.
        -- lia.
        -- lia.
        -- lia.
      * cbn [bind] in St. injection St as Em.
        assert (Gor : Permutation (with_goroutines m) (t :: with_goroutines m')) by (subst m'; clear - TP; unfold with_goroutines at 2; cbn [hm_threads]; perm).
        assert (Cat : in_categories m' = in_categories m) by (subst m'; reflexivity).
        assert (Hh : hm_heap m' = hm_heap m) by (subst m'; reflexivity).
        assert (H : forall t, held m' t = held m t) by (intros t'; unfold held; rewrite Hh; reflexivity).
        constructor; cbn [of_traces of_events of_stringers count_lost n_new n_alloc n_free n_lost]; rewrite ?Hh; try apply K.
        -- exact (inv_step _ _ _ _ _ I SO).
        -- subst m'. apply K.
        -- subst m'. apply K.
        -- subst m'. cbn [hm_threads]. apply resize_update; [apply K|]. intros ks cap' d Q. destruct (finish_state_not _ _ _ _ Q).
        -- subst m'. apply K.
        -- destruct (k_part _ _ K) as (lost & gone & P1 & P2 & P3). exists (t :: lost), gone. split; [|split; [cbn [length]; lia|]].
           ++ rewrite P1. unfold places, in_pool. rewrite Cat, Hh. clear - Gor. perm.
           ++ intros t' Hin. unfold spent. rewrite Hh, H. exact (P3 t' Hin).
        -- rewrite Cat. apply Permutation_length in Gor. cbn [length] in Gor. pose proof (k_flow _ _ K). lia.
        -- rewrite (total_same m m'); [apply K|rewrite Hh; reflexivity|exact H].
Qed.

(** *** Runs *)
Lemma cinv_start programs : cinv (hm_start programs) zero_counters.
Proof.
  assert (E : with_goroutines (hm_start (arg := arg) (world := world) (pc := pc) programs) = []).
  { unfold with_goroutines, hm_start. cbn [hm_threads]. induction programs as [|p l IH]; [reflexivity|exact IH]. }
  constructor; try reflexivity; try (cbn; lia); try (split; reflexivity).
  - apply inv_start.
  - intros i ks cap d p H. apply nth_error_In in H. unfold hm_start in H. cbn [hm_threads] in H. apply in_map_iff in H. destruct H as (q & Q & _). discriminate.
  - exists [], []. split; [unfold places; rewrite E; constructor|]. split; [reflexivity|]. intros t [].
  - rewrite E. reflexivity.
Qed.
Lemma c_run_ok sched : forall m c, cinv m c -> exists m' c', c_run sched (m, c) = Ok (m', c') /\ M_Heap.h_run Sprintf CallersFrames sched m = Ok m' /\ cinv m' c'.
Proof.
  induction sched as [|i sched IH]; intros m c K; [exists m, c; auto|]. cbn [M_Counters.c_run M_Heap.h_run fst snd].
  destruct (step_exists Sprintf CallersFrames m i (k_inv _ _ K)) as (m1 & E & _). rewrite E. cbn [bind]. apply IH. exact (cinv_step _ _ _ _ K E).
Qed.
(** No object is allocated without being asked for. *)
Definition asked (c : counters) : Prop := n_alloc (of_traces c) <= n_new (of_traces c) /\ n_alloc (of_events c) <= n_new (of_events c) /\ n_alloc (of_stringers c) <= n_new (of_stringers c).
Definition grows (c c' : counts) : Prop := n_new c <= n_new c' /\ n_alloc c <= n_alloc c' /\ n_free c <= n_free c' /\ n_lost c <= n_lost c'.
Definition all_grow (c c' : counters) : Prop := grows (of_traces c) (of_traces c') /\ grows (of_events c) (of_events c') /\ grows (of_stringers c) (of_stringers c').
Lemma all_grow_refl c : all_grow c c.
Proof. unfold all_grow, grows. lia. Qed.
Lemma count_asked (m : machine) i c : (asked c -> asked (count_step m i c)) /\ all_grow c (count_step m i c).
Proof.
  assert (Stay : (asked c -> asked c) /\ all_grow c c) by (split; [auto|apply all_grow_refl]).
  unfold count_step. destruct (nth_error (hm_threads m) i) as [[[|? ?|? ? ?|[|t ?]] [|[] ?]]|]; try exact Stay;
    try (unfold count_free_trace; rewrite count_free_events_eq; destruct (negb _); unfold asked, all_grow, grows;
         cbn [of_traces of_events of_stringers count_lost count_free n_new n_alloc n_free n_lost]; lia).
  - unfold count_new_trace, asked, all_grow, grows. cbn [of_traces of_events of_stringers count_new n_new n_alloc n_free n_lost]. destruct (pool_misses _ _); lia.
  - destruct (nth_error (hm_handles m) _) as [t|]; [|exact Stay]. destruct (snd x); try exact Stay. unfold count_log. destruct (ct_finished _); [exact Stay|]. destruct (_ <=? _)%Z; [exact Stay|].
    unfold count_new_event, asked, all_grow, grows. cbn [of_traces of_events of_stringers count_new n_new n_alloc n_free n_lost]. destruct (pool_misses _ _), (pool_misses _ _); lia.
Qed.
Lemma c_run_asked sched : forall m c m' c', c_run sched (m, c) = Ok (m', c') -> (asked c -> asked c') /\ all_grow c c'.
Proof.
  induction sched as [|i sched IH]; intros m c m' c'; cbn [M_Counters.c_run fst snd]; [intros [= <- <-]; split; [auto|apply all_grow_refl]|].
  destruct (M_Heap.h_step Sprintf CallersFrames m i) as [m1|]; [|discriminate]. cbn [bind]. intros E. destruct (IH _ _ _ _ E) as [A G]. destruct (count_asked m i c) as [A1 G1].
  split; [auto|]. unfold all_grow, grows in *. lia.
Qed.
End Proofs.

(** *** C71 *)
(** However goroutines create traces, use them, change sizes and free what is pushed out:
    every trace asked for was either given back to the pool, given up as it was still
    active, is in a category, or is on its way into or out of one.  As many traces were
    allocated as there are trace objects. *)
Theorem C71_traces_are_accounted_for :
  forall (arg world pc : Type) (Sprintf : world -> string -> list arg -> string) (CallersFrames : list pc -> list rframe)
         (programs : list (list (hop arg world pc))) (sched : list nat),
    exists m c, c_run Sprintf CallersFrames sched (hm_start programs, zero_counters) = Ok (m, c) /\ h_run Sprintf CallersFrames sched (hm_start programs) = Ok m /\
      n_new (of_traces c) = length (hm_handles m) /\
      n_new (of_traces c) = n_free (of_traces c) + n_lost (of_traces c) + length (in_categories m) + length (with_goroutines m) /\
      n_alloc (of_traces c) = length (h_traces (hm_heap m)).
Proof.
  intros arg world pc Sp CF programs sched. destruct (c_run_ok Sp CF sched _ _ (cinv_start programs)) as (m & c & E & H & K). exists m, c.
  split; [exact E|]. split; [exact H|]. split; [apply K|]. split; apply K.
Qed.
Print Assumptions C71_traces_are_accounted_for.

(** Every event asked for was given back to the pool, or is in a trace that is in a category,
    on its way, or was given up.  Each event has a text of its own, and goes with it. *)
Theorem C71_events_are_accounted_for :
  forall (arg world pc : Type) (Sprintf : world -> string -> list arg -> string) (CallersFrames : list pc -> list rframe)
         (programs : list (list (hop arg world pc))) (sched : list nat) m c,
    c_run Sprintf CallersFrames sched (hm_start programs, zero_counters) = Ok (m, c) ->
    (exists given_up, length given_up = n_lost (of_traces c) /\ NoDup (given_up ++ in_pool m ++ in_categories m ++ with_goroutines m) /\
       n_new (of_events c) = n_free (of_events c) + list_sum (map (fun t => length (ct_events (trace_value (hm_heap m) t))) (given_up ++ in_categories m ++ with_goroutines m))) /\
    n_new (of_stringers c) = n_new (of_events c) /\ n_free (of_stringers c) = n_free (of_events c) /\
    n_alloc (of_events c) = length (h_events (hm_heap m)) /\ n_alloc (of_stringers c) = length (h_stringers (hm_heap m)).
Proof.
  intros arg world pc Sp CF programs sched m c E. destruct (c_run_ok Sp CF sched _ _ (cinv_start programs)) as (m' & c' & E' & H & K).
  rewrite E in E'. injection E' as <- <-. destruct (k_part _ _ K) as (lost & gone & P1 & P2 & P3). destruct (k_snew _ _ K) as [S1 S2].
  split; [|split; [exact S1|split; [exact S2|split; apply K]]].
  exists lost. split; [exact P2|]. split.
  - pose proof (Permutation_NoDup P1 (seq_NoDup _ _)) as N. unfold places in N. apply (Permutation_NoDup (l' := (lost ++ in_pool m ++ in_categories m ++ with_goroutines m) ++ gone)) in N.
    + clear - N. set (a := lost ++ _) in *. clearbody a. induction a as [|x a IH]; [constructor|]. cbn [app] in N. apply NoDup_cons_iff in N. destruct N as [N1 N2]. constructor; [|exact (IH N2)].
      intros Q. apply N1. apply in_or_app. auto.
    + clear. perm.
  - rewrite (k_events _ _ K). f_equal. unfold total. rewrite (sum_perm _ _ (Permutation_map (held m) P1)). unfold places. rewrite !map_app, !sum_app.
    rewrite (sum_zero (held m) gone) by (intros t Ht; apply (P3 t Ht)).
    rewrite (sum_zero (held m) (in_pool m)).
    + fold (held m). change (fun t => length (ct_events (trace_value (hm_heap m) t))) with (held m). lia.
    + intros t Ht. destruct (wf_tp _ (i_wf m (k_inv _ _ K))) as [_ Q]. destruct (Q t Ht) as (_ & _ & Q2). rewrite held_length, Q2. reflexivity.
Qed.
Print Assumptions C71_events_are_accounted_for.

(** With all goroutines at rest and no active trace given up, NEW - FREE is what the
    categories hold, for traces and for events. *)
Theorem C71_at_rest :
  forall (arg world pc : Type) (Sprintf : world -> string -> list arg -> string) (CallersFrames : list pc -> list rframe)
         (programs : list (list (hop arg world pc))) (sched : list nat) m c,
    c_run Sprintf CallersFrames sched (hm_start programs, zero_counters) = Ok (m, c) ->
    with_goroutines m = [] -> n_lost (of_traces c) = 0 ->
    n_new (of_traces c) - n_free (of_traces c) = length (in_categories m) /\
    n_new (of_events c) - n_free (of_events c) = list_sum (map (fun t => length (ct_events (trace_value (hm_heap m) t))) (in_categories m)) /\
    n_new (of_stringers c) - n_free (of_stringers c) = list_sum (map (fun t => length (ct_events (trace_value (hm_heap m) t))) (in_categories m)).
Proof.
  intros arg world pc Sp CF programs sched m c E G L. destruct (C71_events_are_accounted_for _ _ _ _ _ _ _ _ _ E) as ((lost & H1 & _ & H3) & H4 & H5 & _).
  destruct (C71_traces_are_accounted_for _ _ _ Sp CF programs sched) as (m' & c' & E' & _ & _ & F & _). rewrite E in E'. injection E' as <- <-.
  rewrite L in H1. destruct lost; [|discriminate]. rewrite G, app_nil_r in H3. cbn [app] in H3. rewrite G in F. cbn [length] in F. lia.
Qed.
Print Assumptions C71_at_rest.

(** Counters only grow; nothing is allocated that was not asked for; what was asked for and
    not allocated was reused, and so was given back before: of each kind, at most FREE
    objects were reused.  FREE and LOST together are at most NEW. *)
Theorem C71_reuse :
  forall (arg world pc : Type) (Sprintf : world -> string -> list arg -> string) (CallersFrames : list pc -> list rframe)
         (programs : list (list (hop arg world pc))) (sched : list nat) m c kind,
    c_run Sprintf CallersFrames sched (hm_start programs, zero_counters) = Ok (m, c) -> In kind [of_traces; of_events; of_stringers] ->
    n_alloc (kind c) <= n_new (kind c) /\ n_new (kind c) - n_alloc (kind c) <= n_free (kind c) /\ n_free (kind c) + n_lost (kind c) <= n_new (kind c) /\
    forall later m' c', c_run Sprintf CallersFrames later (m, c) = Ok (m', c') ->
      n_new (kind c) <= n_new (kind c') /\ n_alloc (kind c) <= n_alloc (kind c') /\ n_free (kind c) <= n_free (kind c') /\ n_lost (kind c) <= n_lost (kind c').
Proof.
  intros arg world pc Sp CF programs sched m c kind E Hk. destruct (c_run_ok Sp CF sched _ _ (cinv_start programs)) as (m' & c' & E' & _ & K).
  rewrite E in E'. injection E' as <- <-. destruct (c_run_asked _ _ _ _ _ _ _ E) as [A _]. specialize (A (conj (le_n _) (conj (le_n _) (le_n _)))). destruct A as (A1 & A2 & A3).
  assert (Tr : n_new (of_traces c) - n_alloc (of_traces c) <= n_free (of_traces c)).
  { pose proof (k_flow _ _ K) as F. pose proof (k_alloc _ _ K) as Al. destruct (k_part _ _ K) as (lost & gone & P1 & P2 & _). apply Permutation_length in P1.
    rewrite seq_length in P1. unfold places in P1. rewrite !app_length in P1. lia. }
  pose proof (k_flow _ _ K). pose proof (k_events _ _ K). pose proof (k_epool _ _ K). pose proof (k_spool _ _ K). pose proof (k_snew _ _ K). pose proof (k_never _ _ K).
  assert (G : forall later m' c', c_run Sp CF later (m, c) = Ok (m', c') -> all_grow c c') by (intros later m' c' E2; apply (c_run_asked _ _ _ _ _ _ _ E2)).
  unfold all_grow, grows in G. destruct Hk as [<-|[<-|[<-|[]]]]; (split; [lia|]); (split; [lia|]); (split; [lia|]); intros later m' c' E2; specialize (G _ _ _ E2); lia.
Qed.
Print Assumptions C71_reuse.

(** Finding: the LOST counters of events and texts are never incremented, although the
    events of a trace that is given up are never given back. *)
Theorem C71_lost_events_not_counted :
  forall (arg world pc : Type) (Sprintf : world -> string -> list arg -> string) (CallersFrames : list pc -> list rframe)
         (programs : list (list (hop arg world pc))) (sched : list nat) m c,
    c_run Sprintf CallersFrames sched (hm_start programs, zero_counters) = Ok (m, c) -> n_lost (of_events c) = 0 /\ n_lost (of_stringers c) = 0.
Proof.
  intros arg world pc Sp CF programs sched m c E. destruct (c_run_ok Sp CF sched _ _ (cinv_start programs)) as (m' & c' & E' & _ & K).
  rewrite E in E'. injection E' as <- <-. apply K.
Qed.
Print Assumptions C71_lost_events_not_counted.
Definition demo_count := c_run demo_Sprintf demo_frames.
(** A category of one; trace A gets an event and is pushed out by B while it is active. *)
Definition demo_give_up : list (hop nat demo_world Z) :=
  [HSetCategorySize 0 1; demo_create "one" "A" None; demo_use 0 (CallLog KTracef "first" []); demo_create "one" "B" None].
Theorem C71_lost_events_refuted :
  exists m c, demo_count (repeat 0 8) (hm_start [demo_give_up], zero_counters) = Ok (m, c) /\
    of_traces c = MkCounts 2 2 0 1 /\ of_events c = MkCounts 1 1 0 0 /\ of_stringers c = MkCounts 1 1 0 0 /\
    with_goroutines m = [] /\ map (fun t => (ID (trace_value (hm_heap m) t), length (ct_events (trace_value (hm_heap m) t)))) (in_categories m) = [("B", 0)].
Proof. eexists _, _. split; [vm_compute; reflexivity|]. vm_compute. auto 10. Qed.
Print Assumptions C71_lost_events_refuted.

(** Finding: the page loads the counters one after the other; with traces created and freed
    in between, FREE is more than NEW, and REUSE more than 100%. *)
Definition demo_busy : list (hop nat demo_world Z) :=
  [HSetCategorySize 0 1; demo_create "one" "A" None; demo_use 0 CallFinish; demo_create "one" "B" None; demo_use 1 CallFinish; demo_create "one" "C" (Some 0)].
Theorem C71_row_refuted :
  exists m1 c1 m2 c2, demo_count (repeat 0 5) (hm_start [demo_busy], zero_counters) = Ok (m1, c1) /\ demo_count (repeat 0 7) (m1, c1) = Ok (m2, c2) /\
    debug_row of_traces c1 c2 c2 c2 = MkRow 1 2 2 0.
Proof. eexists _, _, _, _. split; [vm_compute; reflexivity|]. split; [vm_compute; reflexivity|]. vm_compute. reflexivity. Qed.
Print Assumptions C71_row_refuted.

(** One goroutine creates traces, one logs, finishes and shrinks the category.  A is freed,
    and its object, event and text are used again; B is given up; D is being added. *)
Example C71_instance :
  exists m c, demo_count [0; 0; 1; 1; 0; 0; 1; 1; 1; 1; 1; 0; 0; 0; 1; 0] (hm_start
      [[demo_create "one" "A" None; demo_create "one" "B" None; demo_create "one" "C" (Some 0); demo_create "two" "D" (Some 0)];
       [demo_use 0 (CallLog KTracef "first" []); demo_use 0 CallFinish; HSetCategorySize 0 1; HCall 2 (demo_e 120, CallLog KLazyErrorf "x" []) (MkCh (Some 0) (Some 0) (fun _ => []))]], zero_counters) = Ok (m, c) /\
    of_traces c = MkCounts 4 3 1 1 /\ of_events c = MkCounts 2 1 1 0 /\ of_stringers c = MkCounts 2 1 1 0 /\
    in_categories m = [0] /\ with_goroutines m = [2].
Proof. eexists _, _. split; [vm_compute; reflexivity|]. vm_compute. auto 10. Qed.

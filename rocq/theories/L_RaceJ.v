(** The invariant behind C77: what goroutines know about the accesses of others. *)
From Verif Require Import Go L_List M_Strings M_Types S_RingBuf S_Trace M_Trace M_Mutex M_Steps P_Mutex M_Heap L_Heap S_Heap P_Heap S_Race M_Race L_Race L_RaceT L_RaceO L_RaceR.
From Coq Require Import Lia Permutation.
Open Scope list_scope.
Open Scope nat_scope.

Section Inv.
Context {arg world pc : Type}.
Variable Sprintf : world -> string -> list arg -> string.
Variable CallersFrames : list pc -> list rframe.
Notation env := (env arg world pc).
Notation heap := (heap arg pc).
Notation machine := (machine arg world pc).
Notation rmachine := (rmachine arg world pc).
Notation hop := (hop arg world pc).
Notation walk := (walk arg world pc).
Notation rop := (rop arg world pc).
Notation inv := (inv (arg := arg) (world := world) (pc := pc)).
Notation h_step := (h_step Sprintf CallersFrames).
Notation r_step := (r_step Sprintf CallersFrames).
Notation threads := (list (walk * list rop)).
Notation hthreads := (list (hstate * list hop)).
Notation cats_t := (list (nat * string * blist nat)).

Definition way (hts : hthreads) (j : nat) : list nat := match nth_error hts j with Some (st, _) => on_the_way st | None => [] end.
Definition ringi (cats : cats_t) (k : key) : list nat := match get_ring k cats with Some b => bl_items b | None => [] end.
Definition fin (h : heap) (t : nat) : bool := ct_finished (to_head (tr_at h t)).
Definition is_in (w : walk) (k : key) : Prop := match w with WIn k' _ _ _ => k' = k | _ => False end.
Definition is_rs (w : walk) (c : nat) : Prop := match w with WResize c' => c' = c | _ => False end.
Definition walks (ths : threads) (j : nat) (k : key) : Prop := exists w p, nth_error ths j = Some (w, p) /\ is_in w k.
Definition resizing (ths : threads) (j c : nat) : Prop := exists w p, nth_error ths j = Some (w, p) /\ is_rs w c.
Definition list_of (w : walk) (st : hstate) : list key :=
  match w with
  | WNone => []
  | WSearch ks _ | WIn _ _ ks _ => ks
  | WResize _ => match st with HResizing ks _ _ => ks | _ => [] end
  end.
Definition listed (ths : threads) (hts : hthreads) (j : nat) (k : key) : Prop :=
  exists w p st q, nth_error ths j = Some (w, p) /\ nth_error hts j = Some (st, q) /\ In k (list_of w st).
Definition there (cats : cats_t) (k : key) : Prop := get_ring k cats <> None.
Definition todo_of (w : walk) : list nat := match w with WIn _ todo _ _ => map fst todo | _ => [] end.
Definition sync_ok (w : walk) (st : hstate) : Prop :=
  match w with
  | WNone => forall ks cap d, st <> HResizing ks cap d
  | WResize c => exists ks cap d, st = HResizing ks cap d /\ forall k, In k ks -> fst k = c
  | _ => st = HIdle
  end.

(** *** The structure of the machine *)
Record K (r : rmachine) : Prop := {
  k_inv : inv (r_m r);
  k_sync : forall j w p, nth_error (r_threads r) j = Some (w, p) -> exists st q, nth_error (hm_threads (r_m r)) j = Some (st, q) /\ sync_ok w st;
  k_list : forall j k, listed (r_threads r) (hm_threads (r_m r)) j k -> there (hm_cats (r_m r)) k;
  k_todo : forall j w p t, nth_error (r_threads r) j = Some (w, p) -> In t (todo_of w) -> t < length (h_traces (hm_heap (r_m r)))
}.
Lemma K_emit r i w p m' w' p' st' q' l' : K r -> nth_error (r_threads r) i = Some (w, p) -> inv m' ->
  (forall j, nth_error (hm_threads m') j = if Nat.eqb j i then Some (st', q') else nth_error (hm_threads (r_m r)) j) -> sync_ok w' st' ->
  (forall k, there (hm_cats (r_m r)) k -> there (hm_cats m') k) -> length (h_traces (hm_heap (r_m r))) <= length (h_traces (hm_heap m')) ->
  (forall k, In k (list_of w' st') -> there (hm_cats m') k) -> (forall t, In t (todo_of w') -> t < length (h_traces (hm_heap m'))) ->
  K (MkRM m' (update i (w', p') (r_threads r)) l').
Proof.
  intros Q Hi I Ht So Hc Hl Hls Htd. assert (Li : i < length (r_threads r)) by (apply nth_error_Some; congruence).
  assert (Nu : forall j, nth_error (update i (w', p') (r_threads r)) j = if Nat.eqb j i then Some (w', p') else nth_error (r_threads r) j).
  { intros j. rewrite nth_update_eq. rewrite (Nat.eqb_sym j i). destruct (Nat.eqb i j); [|reflexivity]. apply Nat.ltb_lt in Li. rewrite Li. reflexivity. }
  constructor; cbn [r_m r_threads].
  - exact I.
  - intros j v x. rewrite Nu, Ht. destruct (Nat.eqb_spec j i) as [->|n]; [intros [= <- <-]; eauto|apply (k_sync r Q)].
  - intros j k (v & x & st & q & H1 & H2 & H3). rewrite Nu in H1. rewrite Ht in H2. destruct (Nat.eqb_spec j i) as [->|n].
    + injection H1 as <- <-. injection H2 as <- <-. apply Hls. exact H3.
    + apply Hc. apply (k_list r Q j). exists v, x, st, q. auto.
  - intros j v x t. rewrite Nu. destruct (Nat.eqb_spec j i) as [->|n]; [intros [= <- <-]; apply Htd|]. intros H1 H2. pose proof (k_todo r Q j v x t H1 H2). lia.
Qed.

(** *** Threads *)
Section Upd.
Variables (ths : threads) (hts hts' : hthreads) (i : nat) (w w' : walk) (p p' : list rop) (st st' : hstate) (q q' : list hop).
Hypothesis Hi : nth_error ths i = Some (w, p).
Hypothesis Hst : nth_error hts i = Some (st, q).
Hypothesis Hts : forall j, nth_error hts' j = if Nat.eqb j i then Some (st', q') else nth_error hts j.
Notation ths' := (update i (w', p') ths).
Lemma nth_upd j : nth_error ths' j = if Nat.eqb j i then Some (w', p') else nth_error ths j.
Proof. rewrite nth_update_eq. rewrite (Nat.eqb_sym j i). assert (L : i < length ths) by (apply nth_error_Some; congruence). apply Nat.ltb_lt in L. rewrite L. destruct (Nat.eqb i j); reflexivity. Qed.
Lemma walks_upd j k : walks ths' j k <-> (if Nat.eqb j i then is_in w' k else walks ths j k).
Proof.
  unfold walks. rewrite nth_upd. destruct (Nat.eqb j i); [|reflexivity]. split; [intros (v & x & [= <- <-] & H); exact H|intros H; exists w', p'; auto].
Qed.
Lemma walks_at k : walks ths i k <-> is_in w k.
Proof. unfold walks. rewrite Hi. split; [intros (v & x & [= <- <-] & H); exact H|intros H; exists w, p; auto]. Qed.
Lemma resizing_upd j c : resizing ths' j c <-> (if Nat.eqb j i then is_rs w' c else resizing ths j c).
Proof.
  unfold resizing. rewrite nth_upd. destruct (Nat.eqb j i); [|reflexivity]. split; [intros (v & x & [= <- <-] & H); exact H|intros H; exists w', p'; auto].
Qed.
Lemma resizing_at c : resizing ths i c <-> is_rs w c.
Proof. unfold resizing. rewrite Hi. split; [intros (v & x & [= <- <-] & H); exact H|intros H; exists w, p; auto]. Qed.
Lemma listed_upd j k : listed ths' hts' j k <-> (if Nat.eqb j i then In k (list_of w' st') else listed ths hts j k).
Proof.
  unfold listed. rewrite nth_upd, Hts. destruct (Nat.eqb j i); [|reflexivity]. split; [intros (v & x & s & y & [= <- <-] & [= <- <-] & H); exact H|intros H; exists w', p', st', q'; auto].
Qed.
Lemma listed_at k : listed ths hts i k <-> In k (list_of w st).
Proof. unfold listed. rewrite Hi, Hst. split; [intros (v & x & s & y & [= <- <-] & [= <- <-] & H); exact H|intros H; exists w, p, st, q; auto]. Qed.
Lemma way_upd j : way hts' j = if Nat.eqb j i then on_the_way st' else way hts j.
Proof. unfold way. rewrite Hts. destruct (Nat.eqb j i); reflexivity. Qed.
Lemma way_at : way hts i = on_the_way st.
Proof. unfold way. rewrite Hst. reflexivity. Qed.
(** i keeps its locks *)
Lemma walks_same : (forall k, is_in w k <-> is_in w' k) -> forall j k, walks ths j k <-> walks ths' j k.
Proof. intros H j k. rewrite walks_upd. destruct (Nat.eqb_spec j i) as [->|n]; [rewrite walks_at; apply H|reflexivity]. Qed.
Lemma resizing_same : (forall c, is_rs w c <-> is_rs w' c) -> forall j c, resizing ths j c <-> resizing ths' j c.
Proof. intros H j c. rewrite resizing_upd. destruct (Nat.eqb_spec j i) as [->|n]; [rewrite resizing_at; apply H|reflexivity]. Qed.
Lemma listed_less : incl (list_of w' st') (list_of w st) -> forall j k, listed ths' hts' j k -> listed ths hts j k.
Proof. intros H j k. rewrite listed_upd. destruct (Nat.eqb_spec j i) as [->|n]; [rewrite listed_at; apply H|auto]. Qed.
Lemma way_less : incl (on_the_way st') (on_the_way st) -> forall j t, In t (way hts' j) -> In t (way hts j).
Proof. intros H j t. rewrite way_upd. destruct (Nat.eqb_spec j i) as [->|n]; [rewrite way_at; apply H|auto]. Qed.
End Upd.

(** *** Places *)
Lemma ringi_items cats k t : In t (ringi cats k) -> In t (flat_map (fun kr : nat * string * blist nat => bl_items (snd kr)) cats).
Proof.
  unfold ringi. induction cats as [|[k' b] cats IH]; cbn [get_ring]; [intros []|]. cbn [flat_map snd]. destruct (key_eq k k'); intros H; apply in_or_app; auto.
Qed.
Lemma nodup_app_not {A} (a b : list A) x : NoDup (a ++ b) -> In x a -> In x b -> False.
Proof.
  induction a as [|y a IH]; intros N H1 H2; [destruct H1|]. cbn [app] in N. apply NoDup_cons_iff in N. destruct N as [N1 N2]. destruct H1 as [->|H1]; [apply N1; apply in_or_app; auto|exact (IH N2 H1 H2)].
Qed.
Lemma nodup_app_r {A} (a b : list A) : NoDup (a ++ b) -> NoDup b.
Proof. induction a as [|y a IH]; [auto|]. cbn [app]. intros N. apply NoDup_cons_iff in N. apply IH. tauto. Qed.
Lemma ring_unique cats : NoDup (flat_map (fun kr : nat * string * blist nat => bl_items (snd kr)) cats) -> forall k k' t, In t (ringi cats k) -> In t (ringi cats k') -> k = k'.
Proof.
  induction cats as [|[k0 b] cats IH]; intros N k k' t; unfold ringi; cbn [get_ring]; [intros []|]. cbn [flat_map snd] in N.
  destruct (key_eq k k0) eqn:E1, (key_eq k' k0) eqn:E2; intros H1 H2.
  - apply key_eq_spec in E1, E2. congruence.
  - destruct (nodup_app_not _ _ t N H1 (ringi_items cats k' t H2)).
  - destruct (nodup_app_not _ _ t N H2 (ringi_items cats k t H1)).
  - apply (IH (nodup_app_r _ _ N) k k' t); assumption.
Qed.
Lemma way_gor (m : machine) j t : In t (way (hm_threads m) j) -> In t (with_goroutines m).
Proof.
  unfold way, with_goroutines. intros H. destruct (nth_error (hm_threads m) j) as [[st q]|] eqn:E; [|destruct H]. apply in_flat_map. exists (st, q). split; [exact (nth_error_In _ _ E)|exact H].
Qed.
(** A trace is in one place. *)
Lemma ring_only (m : machine) k t : inv m -> In t (ringi (hm_cats m) k) ->
  ~ In t (h_tpool (hm_heap m)) /\ (forall k', In t (ringi (hm_cats m) k') -> k' = k) /\ (forall j, ~ In t (way (hm_threads m) j)) /\ t < length (h_traces (hm_heap m)).
Proof.
  intros I H. pose proof (i_nodup m I) as N. unfold places, in_pool in N. pose proof (ringi_items _ _ _ H) as Hc. split; [|split; [|split]].
  - intros Q. apply (nodup_app_not _ _ t N Q). apply in_or_app. left. exact Hc.
  - intros k' H'. apply nodup_app_r in N. unfold in_categories in N. apply (ring_unique (hm_cats m)) with (t := t); auto.
    clear - N. induction (flat_map _ (hm_cats m)) as [|x l IH]; [constructor|]. cbn [app] in N. apply NoDup_cons_iff in N. destruct N as [N1 N2]. constructor; [|exact (IH N2)]. intros Q. apply N1. apply in_or_app. auto.
  - intros j Q. apply nodup_app_r in N. exact (nodup_app_not _ _ t N Hc (way_gor m j t Q)).
  - apply (i_places m I). unfold places. apply in_or_app. right. apply in_or_app. left. exact Hc.
Qed.
Lemma way_only (m : machine) j t : inv m -> In t (way (hm_threads m) j) ->
  ~ In t (h_tpool (hm_heap m)) /\ (forall k, ~ In t (ringi (hm_cats m) k)) /\ t < length (h_traces (hm_heap m)).
Proof.
  intros I H. pose proof (i_nodup m I) as N. unfold places, in_pool in N. pose proof (way_gor m j t H) as Hg. split; [|split].
  - intros Q. apply (nodup_app_not _ _ t N Q). apply in_or_app. right. exact Hg.
  - intros k Q. apply nodup_app_r in N. exact (nodup_app_not _ _ t N (ringi_items _ _ _ Q) Hg).
  - apply (i_places m I). unfold places. apply in_or_app. right. apply in_or_app. right. exact Hg.
Qed.
Lemma pool_only (m : machine) t : inv m -> In t (h_tpool (hm_heap m)) -> (forall k, ~ In t (ringi (hm_cats m) k)) /\ (forall j, ~ In t (way (hm_threads m) j)).
Proof. intros I H. split; [intros k Q; exact (proj1 (ring_only m k t I Q) H)|intros j Q; exact (proj1 (way_only m j t I Q) H)]. Qed.
Lemma fresh_only (m : machine) t : inv m -> length (h_traces (hm_heap m)) <= t -> (forall k, ~ In t (ringi (hm_cats m) k)) /\ (forall j, ~ In t (way (hm_threads m) j)).
Proof.
  intros I H. split; [intros k Q; pose proof (proj2 (proj2 (proj2 (ring_only m k t I Q)))); lia|intros j Q; pose proof (proj2 (proj2 (way_only m j t I Q))); lia].
Qed.
(** A goroutine's traces are not twice on the way. *)
Lemma way_two hts i j t t' : NoDup (flat_map (fun sp : hstate * list hop => on_the_way (fst sp)) hts) -> In t (way hts i) -> In t' (way hts j) -> t = t' -> i = j.
Proof.
  intros N H1 H2 <-. revert i j N H1 H2. induction hts as [|[st q] hts IH]; intros i j N H1 H2; [destruct i; destruct H1|]. cbn [flat_map fst] in N.
  assert (G : forall j, In t (way hts j) -> In t (flat_map (fun sp : hstate * list hop => on_the_way (fst sp)) hts)).
  { intros j' H. unfold way in H. destruct (nth_error hts j') as [[s x]|] eqn:E; [|destruct H]. apply in_flat_map. exists (s, x). split; [exact (nth_error_In _ _ E)|exact H]. }
  destruct i as [|i], j as [|j]; [reflexivity| | |f_equal; exact (IH i j (nodup_app_r _ _ N) H1 H2)].
  - destruct (nodup_app_not _ _ t N H1 (G j H2)).
  - destruct (nodup_app_not _ _ t N H2 (G i H1)).
Qed.

(** *** The invariant *)
Record J (r : rmachine) : Prop := {
  j_race : race_free (r_log r);
  j_o : JO (hm_heap (r_m r)) (r_log r);
  j_t : JT (way (hm_threads (r_m r))) (ringi (hm_cats (r_m r))) (h_tpool (hm_heap (r_m r))) (hm_handles (r_m r)) (fin (hm_heap (r_m r))) (walks (r_threads r)) (r_log r);
  j_r : JR (there (hm_cats (r_m r))) (listed (r_threads r) (hm_threads (r_m r))) (walks (r_threads r)) (resizing (r_threads r)) (r_log r);
  j_todo : forall j k w p t, nth_error (r_threads r) j = Some (w, p) -> is_in w k -> In t (todo_of w) ->
    In t (ringi (hm_cats (r_m r)) k) /\ forall c n, alive (r_log r) t c n -> know (r_log r) j c;
  j_looks : forall q g n t, nth_error (r_log r) q = Some (g, Look n t) -> nth_error (hm_handles (r_m r)) n = Some t
}.
Lemma alive_back l i s t c n : (forall n', ~ In (New n' t) s) -> alive (l ++ by_ i s) t c n -> alive l t c n.
Proof.
  intros NN [(g & H) B]. assert (H' : nth_error l c = Some (g, New n t)).
  { destruct (nth_by_old _ _ _ _ _ H) as [H'|(_ & _ & H')]; [exact H'|]. cbn [snd] in H'. destruct (NN n (nth_error_In _ _ H')). }
  split; [exists g; exact H'|]. intros q g' L. destruct (B q g' L) as [B1 B2]. split; [intros n' Q; apply (B1 n')|intros Q; apply B2]; apply nth_old; exact Q.
Qed.
(** Walkers keep what they know, if their rings stay the same. *)
Lemma todo_keep (r : rmachine) i s (m' : machine) w p w' p' : J r -> nth_error (r_threads r) i = Some (w, p) ->
  (forall k, is_in w' k -> is_in w k) -> incl (todo_of w') (todo_of w) ->
  (forall j k t, walks (r_threads r) j k -> In t (ringi (hm_cats (r_m r)) k) -> In t (ringi (hm_cats m') k) /\ forall n', ~ In (New n' t) s) ->
  forall j k v x t, nth_error (update i (w', p') (r_threads r)) j = Some (v, x) -> is_in v k -> In t (todo_of v) ->
    In t (ringi (hm_cats m') k) /\ forall c n, alive (r_log r ++ by_ i s) t c n -> know (r_log r ++ by_ i s) j c.
Proof.
  intros Q Hi HI HT HR j k v x t Hj Hk Ht.
  assert (Old : exists w0 p0, nth_error (r_threads r) j = Some (w0, p0) /\ is_in w0 k /\ In t (todo_of w0)).
  { rewrite (nth_upd _ _ _ _ _ _ Hi) in Hj. destruct (Nat.eqb_spec j i) as [->|n]; [|exists v, x; auto]. injection Hj as <- <-. exists w, p. auto. }
  destruct Old as (w0 & p0 & H1 & H2 & H3). destruct (j_todo r Q j k w0 p0 t H1 H2 H3) as [A B]. destruct (HR j k t) as [C D]; [exists w0, p0; auto|exact A|]. split; [exact C|].
  intros c n Al. apply know_mono. apply (B c n). apply (alive_back _ i s); assumption.
Qed.
Lemma looks_keep l i s (handles : list nat) more : (forall q g n t, nth_error l q = Some (g, Look n t) -> nth_error handles n = Some t) ->
  (forall n t, ~ In (Look n t) s) -> forall q g n t, nth_error (l ++ by_ i s) q = Some (g, Look n t) -> nth_error (handles ++ more) n = Some t.
Proof.
  intros H N q g n t Hq. destruct (nth_by_old _ _ _ _ _ Hq) as [H'|(_ & _ & H')]; [apply nth_old; exact (H q g n t H')|]. cbn [snd] in H'. destruct (N n t (nth_error_In _ _ H')).
Qed.
End Inv.

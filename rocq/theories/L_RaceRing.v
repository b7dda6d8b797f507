(** Every step of the machine of M_Race preserves the invariant behind C77: ring buffers and
    maps of categories. *)
From Verif Require Import Go L_List M_Strings M_Types S_RingBuf S_Trace M_Trace M_Mutex M_Steps P_Mutex M_Heap L_Heap S_Heap P_Heap S_Race M_Race L_Race L_RaceT L_RaceO L_RaceR L_RaceJ L_RaceStep L_RaceSteps L_RaceRest.
From Coq Require Import Lia Permutation.
Open Scope list_scope.
Open Scope nat_scope.

Section Steps.
Context {arg world pc : Type}.
Variable Sprintf : world -> string -> list arg -> string.
Variable CallersFrames : list pc -> list rframe.
Notation env := (env arg world pc).
Notation heap := (heap arg pc).
Notation machine := (machine arg world pc).
Notation rmachine := (rmachine arg world pc).
Notation hop := (hop arg world pc).
Notation walk := (walk arg world pc).
Notation rop := (rop arg world pc).
Notation inv := (inv (arg := arg) (world := world) (pc := pc)).
Notation h_step := (h_step Sprintf CallersFrames).
Notation r_step := (r_step Sprintf CallersFrames).
Notation h_call := (h_call Sprintf CallersFrames).


(** *** Helpers *)
Lemma new_pass l i s1 x s2 c p : untouched s2 c -> length l <= p -> touched (l ++ by_ i (s1 ++ Rel x :: s2)) p c -> passed (l ++ by_ i (s1 ++ Rel x :: s2)) x p.
Proof.
  intros U L H. destruct (touched_by _ _ _ _ _ H) as [(w & H')|(B & a & w & Ha & Hw)]; [apply acc_bound in H'; lia|].
  destruct (Nat.lt_ge_cases (p - length l) (length s1)) as [Q|Q].
  - apply pass_split. apply know_seg. lia.
  - rewrite nth_error_app2 in Ha by exact Q. destruct (p - length l - length s1) as [|d]; cbn [nth_error] in Ha; [injection Ha as <-; discriminate|].
    apply nth_error_In in Ha. unfold untouched in U. rewrite Forall_forall in U. destruct (U a Ha w Hw).
Qed.
Lemma new_only l i s p c : length l <= p -> touched (l ++ by_ i s) p c -> exists a w, In a s /\ access a = Some (c, w).
Proof.
  intros L H. destruct (touched_by _ _ _ _ _ H) as [(w & H')|(B & a & w & Ha & Hw)]; [apply acc_bound in H'; lia|]. exists a, w. split; [exact (nth_error_In _ _ Ha)|exact Hw].
Qed.
Lemma no_walker (r : rmachine) s k : J r -> blocked (r_log r) s = false -> In (Acq (SRing k)) s -> forall j, ~ walks (r_threads r) j k.
Proof. intros HJ B H j Q. pose proof (r_hring _ _ _ _ _ (j_r r HJ) j k Q) as E. rewrite (not_blocked _ _ _ B H eq_refl) in E. discriminate. Qed.
Lemma no_resizer (r : rmachine) s c : J r -> blocked (r_log r) s = false -> In (Acq (SSet c)) s -> forall j, ~ resizing (r_threads r) j c.
Proof. intros HJ B H j Q. pose proof (r_hset _ _ _ _ _ (j_r r HJ) j c Q) as E. rewrite (not_blocked _ _ _ B H eq_refl) in E. discriminate. Qed.
Lemma cov_set (r : rmachine) s i c w ys : J r -> blocked (r_log r) s = false -> In (Acq (SSet c)) s -> In (SSet c) ys -> covered (r_log r) i (LSet c, w, ys).
Proof.
  intros HJ B H Hy p w' A _. destruct (r_set _ _ _ _ _ (j_r r HJ) p c (ex_intro _ w' A)) as [Q|(j & Q & _)]; [right; exists (SSet c); auto|]. destruct (no_resizer r s c HJ B H j Q).
Qed.
Lemma cov_ring (r : rmachine) s i k w ys : J r -> blocked (r_log r) s = false -> In (Acq (SRing k)) s -> In (SRing k) ys ->
  listed (r_threads r) (hm_threads (r_m r)) i k \/ In (SSet (fst k)) ys -> covered (r_log r) i (LRing k, w, ys).
Proof.
  intros HJ B H Hy Hl p w' A _. destruct Hl as [Hl|Hl].
  - destruct (r_list _ _ _ _ _ (j_r r HJ) i p k Hl (ex_intro _ w' A)) as [Q|[Q|(j & Q & _)]]; [left; exact Q|right; exists (SRing k); auto|]. destruct (no_walker r s k HJ B H j Q).
  - destruct (r_ring _ _ _ _ _ (j_r r HJ) p k (ex_intro _ w' A)) as [Q|[Q|(j & Q & _)]]; [right; exists (SSet (fst k)); auto|right; exists (SRing k); auto|]. destruct (no_walker r s k HJ B H j Q).
Qed.
Lemma hold_ring (r : rmachine) i s j k : J r -> walks (r_threads r) j k -> ~ In (Acq (SRing k)) s -> ~ In (Rel (SRing k)) s -> holder (SRing k) (r_log r ++ by_ i s) = Some j.
Proof. intros HJ H N1 N2. rewrite (holder_keep _ _ _ _ N1 N2). exact (r_hring _ _ _ _ _ (j_r r HJ) j k H). Qed.
Lemma hold_set (r : rmachine) i s j c : J r -> resizing (r_threads r) j c -> ~ In (Acq (SSet c)) s -> ~ In (Rel (SSet c)) s -> holder (SSet c) (r_log r ++ by_ i s) = Some j.
Proof. intros HJ H N1 N2. rewrite (holder_keep _ _ _ _ N1 N2). exact (r_hset _ _ _ _ _ (j_r r HJ) j c H). Qed.
Lemma holder_acq x l i a : match a with Rd _ | Wr _ => True | _ => False end -> holder x (l ++ by_ i [Acq x; a]) = Some i.
Proof. intros H. rewrite holder_app. destruct a; destruct H; cbn [by_ map fold_left snd fst]; destruct (sync_eq_dec x x); congruence. Qed.
Lemma get_set_same k b (cats : list (key * blist nat)) : get_ring k cats <> None -> get_ring k (set_ring k b cats) = Some b.
Proof.
  induction cats as [|[k' b'] cats IH]; cbn [get_ring set_ring]; [congruence|]. destruct (key_eq k k') eqn:E; cbn [get_ring]; rewrite E; auto.
Qed.
Lemma get_set_other k k' b (cats : list (key * blist nat)) : k' <> k -> get_ring k' (set_ring k b cats) = get_ring k' cats.
Proof.
  intros N. induction cats as [|[k2 b'] cats IH]; cbn [get_ring set_ring]; [reflexivity|]. destruct (key_eq k k2) eqn:E; cbn [get_ring].
  - destruct (key_eq k' k2) eqn:E'; [|reflexivity]. apply key_eq_spec in E, E'. congruence.
  - destruct (key_eq k' k2); auto.
Qed.
Lemma ring_set_same k b (cats : list (key * blist nat)) : get_ring k cats <> None -> ringi (set_ring k b cats) k = bl_items b.
Proof. intros H. unfold ringi. rewrite (get_set_same k b cats H). reflexivity. Qed.
Lemma ring_set_other k k' b (cats : list (key * blist nat)) : k' <> k -> ringi (set_ring k b cats) k' = ringi cats k'.
Proof. intros H. unfold ringi. rewrite (get_set_other k k' b cats H). reflexivity. Qed.
Lemma ring_create k n k' (cats : list (key * blist nat)) : ringi (get_or_create k n cats) k' = ringi cats k'.
Proof.
  unfold ringi, get_or_create. destruct (get_ring k cats) eqn:E; [reflexivity|]. rewrite get_ring_app. destruct (get_ring k' cats); [reflexivity|]. cbn [get_ring]. destruct (key_eq k' k); reflexivity.
Qed.
Lemma key_dec (a b : key) : {a = b} + {a <> b}.
Proof. destruct (key_eq a b) eqn:E; [left; apply key_eq_spec; exact E|right; intros Q; apply key_eq_spec in Q; congruence]. Qed.
Lemma idle_walk (r : rmachine) i w p : K r -> nth_error (r_threads r) i = Some (w, p) -> match w with WSearch _ _ | WIn _ _ _ _ => True | _ => False end -> exists q, nth_error (hm_threads (r_m r)) i = Some (HIdle, q).
Proof. intros HK Hi M. destruct (k_sync r HK i w p Hi) as (st & q & E & S). destruct w; destruct M; cbn in S; subst st; eauto. Qed.

(** *** Walk begins *)
Lemma step_walk_begin (r : rmachine) i k ks v p : K r -> nth_error (r_threads r) i = Some (WSearch (k :: ks) v, p) ->
  good r i (match get_ring k (hm_cats (r_m r)) with
            | None => Panic
            | Some b => emit r i [Acq (SRing k); Rd (LRing k)] (Ok (r_m r)) (WIn k (map (fun t => (t, v t)) (bl_items b)) ks v) p
            end).
Proof.
  intros HK Hi. destruct (idle_walk r i _ p HK Hi Logic.I) as [q Hst]. pose proof (k_inv r HK) as I.
  assert (Hl : forall k0, In k0 (k :: ks) -> listed (r_threads r) (hm_threads (r_m r)) i k0) by (intros k0 Q; exists (WSearch (k :: ks) v), p, HIdle, q; auto).
  pose proof (k_list r HK i k (Hl k (or_introl eq_refl))) as Tk. unfold there in Tk. destruct (get_ring k (hm_cats (r_m r))) as [b|] eqn:Eb; [|congruence].
  assert (Rb : ringi (hm_cats (r_m r)) k = bl_items b) by (unfold ringi; rewrite Eb; reflexivity).
  pose proof (nth_keep (r_m r) i HIdle q Hst) as Hts. set (w' := WIn k (map (fun t => (t, v t)) (bl_items b)) ks v).
  assert (Td : todo_of w' = bl_items b) by (cbn [w' todo_of]; rewrite map_map; cbn [fst]; apply map_id).
  apply good_emit; [exact HK| |].
  - intros _. apply (K_emit r i _ _ (r_m r) w' p HIdle q _ HK Hi I Hts); auto.
    + reflexivity.
    + intros k0 Q. apply (k_list r HK i k0). apply Hl. right. exact Q.
    + intros t Q. rewrite Td, <- Rb in Q. exact (proj2 (proj2 (proj2 (ring_only (r_m r) k t I Q)))).
  - intros B HJ HO _. set (s := [Acq (SRing k); Rd (LRing k)]) in *. pose proof (no_walker r s k HJ B (or_introl eq_refl)) as NW.
    assert (Ws : forall j k0, walks (r_threads r) j k0 -> walks (update i (w', p) (r_threads r)) j k0).
    { intros j k0 Q. rewrite (walks_upd _ _ _ _ _ _ Hi). destruct (Nat.eqb_spec j i) as [->|n]; [|exact Q]. rewrite (walks_at _ _ _ _ Hi) in Q. destruct Q. }
    assert (Rs : forall j c, resizing (r_threads r) j c <-> resizing (update i (w', p) (r_threads r)) j c) by (apply (resizing_same _ _ _ _ _ _ Hi); intros c; reflexivity).
    apply (J_far r i s _ p w' p (r_m r) HJ Hi (same_objects_refl _) eq_refl); auto.
    + repeat constructor.
    + simpl accs. constructor; [|constructor]. apply (cov_ring r s); auto; left; auto. apply Hl. left. reflexivity.
    + apply (JR_step (there (hm_cats (r_m r))) _ (listed (r_threads r) (hm_threads (r_m r))) _ (walks (r_threads r)) _ (resizing (r_threads r))); auto.
      * exact (j_r r HJ).
      * intros p0 k0 L H. destruct (new_only _ _ _ _ _ L H) as (a & y & [<-|[<-|[]]] & Hw); [discriminate|]. injection Hw as <- <-. split; [unfold there; congruence|]. right. left.
        rewrite (walks_upd _ _ _ _ _ _ Hi), Nat.eqb_refl. reflexivity.
      * intros j k0 Q. assert (HL : incl (list_of w' HIdle) (list_of (WSearch (k :: ks) v) HIdle)) by (intros x Hx; right; exact Hx).
        apply (listed_less _ _ _ _ _ _ _ _ _ _ _ _ Hi Hst Hts HL) in Q. split; [exact (k_list r HK j k0 Q)|left; exact Q].
      * intros j c Q. left. apply Rs. exact Q.
      * intros p0 c L H. destruct (new_only _ _ _ _ _ L H) as (a & y & [<-|[<-|[]]] & Hw); discriminate.
      * intros j c Q. apply Rs in Q. apply hold_set; auto; intros [X|[X|[]]]; discriminate.
      * intros j k0 Q. rewrite (walks_upd _ _ _ _ _ _ Hi) in Q. destruct (Nat.eqb_spec j i) as [->|n].
        -- cbn in Q. subst k0. apply holder_acq. exact Logic.I.
        -- apply hold_ring; auto; intros [X|[X|[]]]; try discriminate. injection X as ->. exact (NW j Q).
    + intros k0 t Hk Ht. right. cbn in Hk. subst k0. rewrite Td, <- Rb in Ht. split; [exact Ht|]. split; [exact Ht|left; reflexivity].
Qed.
(** *** Walk ends *)
Lemma step_walk_end (r : rmachine) i k ks v p : K r -> nth_error (r_threads r) i = Some (WIn k [] ks v, p) -> good r i (emit r i [Rel (SRing k)] (Ok (r_m r)) (WSearch ks v) p).
Proof.
  intros HK Hi. destruct (idle_walk r i _ p HK Hi Logic.I) as [q Hst]. pose proof (k_inv r HK) as I. pose proof (nth_keep (r_m r) i HIdle q Hst) as Hts.
  apply good_emit; [exact HK| |].
  - intros _. apply (K_emit r i _ _ (r_m r) (WSearch ks v) p HIdle q _ HK Hi I Hts); auto.
    + reflexivity.
    + intros k0 Q. apply (k_list r HK i k0). exists (WIn k [] ks v), p, HIdle, q. auto.
    + intros t [].
  - intros _ HJ HO _. set (s := [Rel (SRing k)]) in *.
    assert (Wi : walks (r_threads r) i k) by (exists (WIn k [] ks v), p; split; [exact Hi|reflexivity]).
    assert (Ws : forall j k0, walks (r_threads r) j k0 -> walks (update i (WSearch ks v, p) (r_threads r)) j k0 \/ (j = i /\ In (Rel (SRing k0)) s)).
    { intros j k0 Q. rewrite (walks_upd _ _ _ _ _ _ Hi). destruct (Nat.eqb_spec j i) as [->|n]; [|auto]. rewrite (walks_at _ _ _ _ Hi) in Q. cbn in Q. subst k0. right. split; [reflexivity|left; reflexivity]. }
    assert (Rs : forall j c, resizing (r_threads r) j c <-> resizing (update i (WSearch ks v, p) (r_threads r)) j c) by (apply (resizing_same _ _ _ _ _ _ Hi); intros c; reflexivity).
    apply (J_far r i s _ p _ p (r_m r) HJ Hi (same_objects_refl _) eq_refl); auto.
    + repeat constructor.
    + constructor.
    + apply (JR_step (there (hm_cats (r_m r))) _ (listed (r_threads r) (hm_threads (r_m r))) _ (walks (r_threads r)) _ (resizing (r_threads r))); auto.
      * exact (j_r r HJ).
      * intros p0 k0 L H. destruct (new_only _ _ _ _ _ L H) as (a & y & [<-|[]] & Hw); discriminate.
      * intros j k0 Q. assert (HL : incl (list_of (WSearch ks v) HIdle) (list_of (WIn k [] ks v) HIdle)) by apply incl_refl.
        apply (listed_less _ _ _ _ _ _ _ _ _ _ _ _ Hi Hst Hts HL) in Q. split; [exact (k_list r HK j k0 Q)|left; exact Q].
      * intros j c Q. left. apply Rs. exact Q.
      * intros p0 c L H. destruct (new_only _ _ _ _ _ L H) as (a & y & [<-|[]] & Hw); discriminate.
      * intros j c Q. apply Rs in Q. apply hold_set; auto; intros [X|[]]; discriminate.
      * intros j k0 Q. rewrite (walks_upd _ _ _ _ _ _ Hi) in Q. destruct (Nat.eqb_spec j i) as [->|n]; [destruct Q|].
        apply hold_ring; auto; intros [X|[]]; try discriminate. injection X as ->. pose proof (r_hring _ _ _ _ _ (j_r r HJ) i _ Wi). pose proof (r_hring _ _ _ _ _ (j_r r HJ) j _ Q). congruence.
    + intros k0 t0 [].
Qed.
(** *** A search lists the categories *)
Lemma step_search_begin (r : rmachine) i c order v p q : K r -> nth_error (r_threads r) i = Some (WNone, RSearch c order v :: p) -> nth_error (hm_threads (r_m r)) i = Some (HIdle, q) ->
  good r i (emit r i [Acq (SSet c); Rd (LSet c); Rel (SSet c)] (Ok (r_m r))
    (WSearch (filter (fun k => Nat.eqb (fst k) c && match get_ring k (hm_cats (r_m r)) with Some _ => true | None => false end)%bool order) v) p).
Proof.
  intros HK Hi Hst. pose proof (k_inv r HK) as I. pose proof (nth_keep (r_m r) i HIdle q Hst) as Hts.
  set (ks := filter _ order). assert (Hks : forall k, In k ks -> fst k = c /\ there (hm_cats (r_m r)) k).
  { intros k Q. apply filter_In in Q. destruct Q as [_ Q]. apply Bool.andb_true_iff in Q. destruct Q as [Q1 Q2]. apply Nat.eqb_eq in Q1. split; [exact Q1|]. unfold there. destruct (get_ring k (hm_cats (r_m r))); congruence. }
  apply good_emit; [exact HK| |].
  - intros _. apply (K_emit r i _ _ (r_m r) (WSearch ks v) p HIdle q _ HK Hi I Hts); auto.
    + reflexivity.
    + intros k0 Q. exact (proj2 (Hks k0 Q)).
    + intros t [].
  - intros B HJ HO _. set (s := [Acq (SSet c); Rd (LSet c); Rel (SSet c)]) in *. pose proof (no_resizer r s c HJ B (or_introl eq_refl)) as NR.
    assert (Ws : forall j k0, walks (r_threads r) j k0 <-> walks (update i (WSearch ks v, p) (r_threads r)) j k0) by (apply (walks_same _ _ _ _ _ _ Hi); intros k0; reflexivity).
    assert (Rs : forall j c, resizing (r_threads r) j c <-> resizing (update i (WSearch ks v, p) (r_threads r)) j c) by (apply (resizing_same _ _ _ _ _ _ Hi); intros c0; reflexivity).
    apply (J_far r i s _ _ _ p (r_m r) HJ Hi (same_objects_refl _) eq_refl); auto.
    + repeat constructor.
    + simpl accs. constructor; [|constructor]. apply (cov_set r s); auto; left; auto.
    + intros j k0 Q. left. apply Ws. exact Q.
    + apply (JR_step (there (hm_cats (r_m r))) _ (listed (r_threads r) (hm_threads (r_m r))) _ (walks (r_threads r)) _ (resizing (r_threads r))); auto.
      * exact (j_r r HJ).
      * intros p0 k0 L H. destruct (new_only _ _ _ _ _ L H) as (a & y & [<-|[<-|[<-|[]]]] & Hw); discriminate.
      * intros j k0 Q. left. apply Ws. exact Q.
      * intros j k0 Q. rewrite (listed_upd _ _ _ _ _ _ _ _ _ _ Hi Hts) in Q. destruct (Nat.eqb_spec j i) as [->|n]; [|split; [exact (k_list r HK j k0 Q)|left; exact Q]].
        destruct (Hks k0 Q) as [<- Tk]. split; [exact Tk|]. right. split; [reflexivity|left; reflexivity].
      * intros j c0 Q. left. apply Rs. exact Q.
      * intros p0 c0 L H. left. destruct (new_only _ _ _ _ _ L H) as (a & y & [<-|[<-|[<-|[]]]] & Hw); try discriminate. injection Hw as <- <-.
        apply (new_pass _ _ [Acq (SSet c); Rd (LSet c)] (SSet c) [] (LSet c)); auto. constructor.
      * intros j c0 Q. apply Rs in Q. apply hold_set; auto; intros [X|[X|[X|[]]]]; try discriminate; injection X as ->; exact (NR j Q).
      * intros j k0 Q. apply Ws in Q. apply hold_ring; auto; intros [X|[X|[X|[]]]]; discriminate.
Qed.
(** *** SetCategorySize begins *)
Lemma step_resize_begin (r : rmachine) i c cap p q : (0 < cap)%Z -> K r -> nth_error (r_threads r) i = Some (WNone, ROp (HSetCategorySize c cap) :: p) -> nth_error (hm_threads (r_m r)) i = Some (HIdle, q) ->
  good r i (emit r i [Acq (SSet c); Wr (LSet c)] (h_step (give (r_m r) i (HSetCategorySize c cap)) i) (WResize c) p).
Proof.
  intros Hc HK Hi Hst. pose proof (k_inv r HK) as I. set (m := r_m r) in *. set (o := HSetCategorySize c cap : hop).
  set (ks := filter (fun k => Nat.eqb (fst k) c) (map fst (hm_cats m))).
  assert (Es : h_step (give m i o) i = Ok (MkHM (hm_heap m) (fun c' => if Nat.eqb c' c then cap else hm_sizes m c') (hm_cats m) (hm_handles m) (set_thread (give m i o) i (HResizing ks cap []) []) (hm_results m))).
  { unfold M_Heap.h_step. rewrite (threads_give m i q o Hst). unfold o at 1. apply Z.leb_gt in Hc. rewrite Hc. reflexivity. }
  assert (I' := inv_step Sprintf CallersFrames _ _ _ (inv_give m i q o I Hst) (step_fun Sprintf CallersFrames _ _ _ (inv_give m i q o I Hst) Es)).
  rewrite Es. set (m' := MkHM _ _ _ _ _ _) in *. pose proof (nth_set_give m i q o (HResizing ks cap []) [] Hst) as Hts. change (set_thread (give m i o) i (HResizing ks cap []) []) with (hm_threads m') in Hts.
  assert (Hks : forall k, In k ks -> fst k = c /\ there (hm_cats m) k).
  { intros k Q. apply filter_In in Q. destruct Q as [Q1 Q2]. apply Nat.eqb_eq in Q2. split; [exact Q2|]. exact (get_of_key k _ Q1). }
  apply good_emit; [exact HK| |].
  - intros _. apply (K_emit r i _ _ m' (WResize c) p (HResizing ks cap []) [] _ HK Hi I' Hts); auto.
    + exists ks, cap, []. split; [reflexivity|]. intros k Q. exact (proj1 (Hks k Q)).
    + intros k0 Q. exact (proj2 (Hks k0 Q)).
    + intros t [].
  - intros B HJ HO _. set (s := [Acq (SSet c); Wr (LSet c)]) in *. pose proof (no_resizer r s c HJ B (or_introl eq_refl)) as NR.
    assert (Ws : forall j k0, walks (r_threads r) j k0 <-> walks (update i (WResize c, p) (r_threads r)) j k0) by (apply (walks_same _ _ _ _ _ _ Hi); intros k0; reflexivity).
    apply (J_far r i s _ _ _ p m' HJ Hi (same_objects_refl _) eq_refl); auto.
    + repeat constructor.
    + simpl accs. constructor; [|constructor]. apply (cov_set r s); auto; left; auto.
    + intros j t Q. left. unfold way in Q. rewrite Hts in Q. destruct (Nat.eqb_spec j i) as [->|n]; [destruct Q|exact Q].
    + intros j k0 Q. left. apply Ws. exact Q.
    + apply (JR_step (there (hm_cats m)) _ (listed (r_threads r) (hm_threads m)) _ (walks (r_threads r)) _ (resizing (r_threads r))); auto.
      * exact (j_r r HJ).
      * intros p0 k0 L H. destruct (new_only _ _ _ _ _ L H) as (a & y & [<-|[<-|[]]] & Hw); discriminate.
      * intros j k0 Q. left. apply Ws. exact Q.
      * intros j k0 Q. rewrite (listed_upd _ _ _ _ _ _ _ _ _ _ Hi Hts) in Q. destruct (Nat.eqb_spec j i) as [->|n]; [|split; [exact (k_list r HK j k0 Q)|left; exact Q]].
        destruct (Hks k0 Q) as [<- Tk]. split; [exact Tk|]. right. split; [reflexivity|left; reflexivity].
      * intros j c0 Q. left. rewrite (resizing_upd _ _ _ _ _ _ Hi). destruct (Nat.eqb_spec j i) as [->|n]; [|exact Q]. rewrite (resizing_at _ _ _ _ Hi) in Q. destruct Q.
      * intros p0 c0 L H. right. destruct (new_only _ _ _ _ _ L H) as (a & y & [<-|[<-|[]]] & Hw); try discriminate. injection Hw as <- <-. rewrite (resizing_upd _ _ _ _ _ _ Hi), Nat.eqb_refl. reflexivity.
      * intros j c0 Q. rewrite (resizing_upd _ _ _ _ _ _ Hi) in Q. destruct (Nat.eqb_spec j i) as [->|n].
        -- cbn in Q. subst c0. apply holder_acq. exact Logic.I.
        -- apply hold_set; auto; intros [X|[X|[]]]; try discriminate; injection X as ->; exact (NR j Q).
      * intros j k0 Q. apply Ws in Q. apply hold_ring; auto; intros [X|[X|[]]]; discriminate.
Qed.
(** *** SetCategorySize ends *)
Lemma step_resize_end (r : rmachine) i c cap d p q : K r -> nth_error (r_threads r) i = Some (WResize c, p) -> nth_error (hm_threads (r_m r)) i = Some (HResizing [] cap d, q) ->
  good r i (emit r i [Rel (SSet c)] (h_step (r_m r) i) WNone p).
Proof.
  intros HK Hi Hst. pose proof (k_inv r HK) as I. set (m := r_m r) in *.
  assert (Es : h_step m i = Ok (MkHM (hm_heap m) (hm_sizes m) (hm_cats m) (hm_handles m) (set_thread m i (finish_state d) q) (hm_results m))).
  { unfold M_Heap.h_step. rewrite Hst. destruct q; reflexivity. }
  assert (I' := inv_step Sprintf CallersFrames _ _ _ I (step_fun Sprintf CallersFrames _ _ _ I Es)).
  rewrite Es. set (m' := MkHM _ _ _ _ _ _) in *. pose proof (nth_set m i _ q (finish_state d) q Hst) as Hts. change (set_thread m i (finish_state d) q) with (hm_threads m') in Hts.
  apply good_emit; [exact HK| |].
  - intros _. apply (K_emit r i _ _ m' WNone p (finish_state d) q _ HK Hi I' Hts); auto.
    + intros ks cap' d'. apply finish_state_not.
    + intros k [].
    + intros t [].
  - intros B HJ HO _. set (s := [Rel (SSet c)]) in *.
    assert (Ri : resizing (r_threads r) i c) by (exists (WResize c), p; split; [exact Hi|reflexivity]).
    assert (Ws : forall j k0, walks (r_threads r) j k0 <-> walks (update i (WNone, p) (r_threads r)) j k0) by (apply (walks_same _ _ _ _ _ _ Hi); intros k0; reflexivity).
    assert (HL : incl (list_of (WNone : walk) (finish_state d)) (list_of (WResize c : walk) (HResizing [] cap d))) by (intros x []).
    assert (HW : incl (on_the_way (finish_state d)) (on_the_way (HResizing [] cap d))) by (rewrite finish_state_way; apply incl_refl).
    apply (J_far r i s _ _ _ p m' HJ Hi (same_objects_refl _) eq_refl); auto.
    + repeat constructor.
    + constructor.
    + intros j t Q. left. exact (way_less _ _ _ _ _ _ _ Hst Hts HW j t Q).
    + intros j k0 Q. left. apply Ws. exact Q.
    + apply (JR_step (there (hm_cats m)) _ (listed (r_threads r) (hm_threads m)) _ (walks (r_threads r)) _ (resizing (r_threads r))); auto.
      * exact (j_r r HJ).
      * intros p0 k0 L H. destruct (new_only _ _ _ _ _ L H) as (a & y & [<-|[]] & Hw); discriminate.
      * intros j k0 Q. left. apply Ws. exact Q.
      * intros j k0 Q. apply (listed_less _ _ _ _ _ _ _ _ _ _ _ _ Hi Hst Hts HL) in Q. split; [exact (k_list r HK j k0 Q)|left; exact Q].
      * intros j c0 Q. rewrite (resizing_upd _ _ _ _ _ _ Hi). destruct (Nat.eqb_spec j i) as [->|n]; [|auto]. rewrite (resizing_at _ _ _ _ Hi) in Q. cbn in Q. subst c0. right. split; [reflexivity|left; reflexivity].
      * intros p0 c0 L H. destruct (new_only _ _ _ _ _ L H) as (a & y & [<-|[]] & Hw); discriminate.
      * intros j c0 Q. rewrite (resizing_upd _ _ _ _ _ _ Hi) in Q. destruct (Nat.eqb_spec j i) as [->|n]; [destruct Q|].
        apply hold_set; auto; intros [X|[]]; try discriminate. injection X as ->. pose proof (r_hset _ _ _ _ _ (j_r r HJ) i _ Ri). pose proof (r_hset _ _ _ _ _ (j_r r HJ) j _ Q). congruence.
      * intros j k0 Q. apply Ws in Q. apply hold_ring; auto; intros [X|[]]; discriminate.
Qed.
(** *** A ring buffer is resized *)
Lemma step_resize_one (r : rmachine) i c k ks cap d p q : K r -> nth_error (r_threads r) i = Some (WResize c, p) -> nth_error (hm_threads (r_m r)) i = Some (HResizing (k :: ks) cap d, q) ->
  good r i (emit r i (resize_script k) (h_step (r_m r) i) (WResize c) p).
Proof.
  intros HK Hi Hst. pose proof (k_inv r HK) as I. set (m := r_m r) in *.
  assert (Hl : forall k0, In k0 (k :: ks) -> listed (r_threads r) (hm_threads m) i k0) by (intros k0 Q; exists (WResize c), p, (HResizing (k :: ks) cap d), q; auto).
  pose proof (k_list r HK i k (Hl k (or_introl eq_refl))) as Tk. change (hm_cats (r_m r)) with (hm_cats m) in Tk. unfold there in Tk. destruct (get_ring k (hm_cats m)) as [b|] eqn:Eb; [|congruence].
  assert (Rb : ringi (hm_cats m) k = bl_items b) by (unfold ringi; rewrite Eb; reflexivity).
  destruct (bl_resize b cap) as [b' out] eqn:Er. pose proof (bl_resize_items _ _ _ _ Er) as Pm. set (dr := match out with RResize d => d | _ => [] end) in *.
  assert (Es : h_step m i = Ok (MkHM (hm_heap m) (hm_sizes m) (set_ring k b' (hm_cats m)) (hm_handles m) (set_thread m i (HResizing ks cap (d ++ dr)) q) (hm_results m))).
  { unfold M_Heap.h_step. rewrite Hst. rewrite Eb, Er. destruct q; reflexivity. }
  assert (I' := inv_step Sprintf CallersFrames _ _ _ I (step_fun Sprintf CallersFrames _ _ _ I Es)).
  rewrite Es. set (st' := HResizing ks cap (d ++ dr)) in *. set (m' := MkHM _ _ _ _ _ _) in *. pose proof (nth_set m i _ q st' q Hst) as Hts. change (set_thread m i st' q) with (hm_threads m') in Hts.
  assert (Th : forall k0, there (hm_cats m) k0 -> there (hm_cats m') k0) by (intros k0 Q; apply get_set_ring; exact Q).
  assert (Nk : get_ring k (hm_cats m) <> None) by congruence.
  apply good_emit; [exact HK| |].
  - intros _. apply (K_emit r i _ _ m' (WResize c) p st' q _ HK Hi I' Hts); auto.
    + destruct (k_sync r HK i _ _ Hi) as (st0 & q0 & E0 & S0). change (r_m r) with m in E0. rewrite Hst in E0. injection E0 as <- <-. destruct S0 as (ks0 & cap0 & d0 & E1 & E2). injection E1 as <- <- <-.
      exists ks, cap, (d ++ dr). split; [reflexivity|]. intros k0 Q. apply E2. right. exact Q.
    + intros k0 Q. apply Th. apply (k_list r HK i k0). apply Hl. right. exact Q.
    + intros t [].
  - intros B HJ HO _. set (s := resize_script k) in *. assert (Ha : In (Acq (SRing k)) s) by (left; reflexivity). pose proof (no_walker r s k HJ B Ha) as NW.
    assert (Ws : forall j k0, walks (r_threads r) j k0 <-> walks (update i (WResize c, p) (r_threads r)) j k0) by (apply (walks_same _ _ _ _ _ _ Hi); intros k0; reflexivity).
    assert (Rs : forall j c0, resizing (r_threads r) j c0 <-> resizing (update i (WResize c, p) (r_threads r)) j c0) by (apply (resizing_same _ _ _ _ _ _ Hi); intros c0; reflexivity).
    apply (J_far r i s _ _ _ p m' HJ Hi (same_objects_refl _) eq_refl); auto.
    + repeat constructor.
    + simpl accs. constructor; [|constructor]. apply (cov_ring r s); auto; left; auto. apply Hl. left. reflexivity.
    + intros j t Q. unfold way in Q. rewrite Hts in Q. destruct (Nat.eqb_spec j i) as [->|n]; [|left; exact Q]. cbn [on_the_way st'] in Q. apply in_app_or in Q. destruct Q as [Q|Q].
      * left. unfold way. change (r_m r) with m. rewrite Hst. exact Q.
      * right. split; [reflexivity|]. exists k. split; [|auto]. change (r_m r) with m. rewrite Rb. apply (Permutation_in _ (Permutation_sym Pm)). apply in_or_app. right. exact Q.
    + intros k0 t Q. left. cbn [m' hm_cats] in Q. destruct (key_dec k0 k) as [->|n]; [|rewrite (ring_set_other k k0 b' _ n) in Q; exact Q].
      rewrite (ring_set_same k b' _ Nk) in Q. change (r_m r) with m. rewrite Rb. apply (Permutation_in _ (Permutation_sym Pm)). apply in_or_app. left. exact Q.
    + intros j k0 Q. left. apply Ws. exact Q.
    + apply (JR_step (there (hm_cats m)) _ (listed (r_threads r) (hm_threads m)) _ (walks (r_threads r)) _ (resizing (r_threads r))); auto.
      * exact (j_r r HJ).
      * intros p0 k0 L H. destruct (new_only _ _ _ _ _ L H) as (a & y & [<-|[<-|[<-|[]]]] & Hw); try discriminate. injection Hw as <- <-. split; [apply Th; exact Nk|]. left.
        apply (new_pass _ _ [Acq (SRing k); Wr (LRing k)] (SRing k) [] (LRing k)); auto. constructor.
      * intros j k0 Q. left. apply Ws. exact Q.
      * intros j k0 Q. assert (HL : incl (list_of (WResize c : walk) st') (list_of (WResize c : walk) (HResizing (k :: ks) cap d))) by (intros x Hx; right; exact Hx).
        apply (listed_less _ _ _ _ _ _ _ _ _ _ _ _ Hi Hst Hts HL) in Q. split; [exact (k_list r HK j k0 Q)|left; exact Q].
      * intros j c0 Q. left. apply Rs. exact Q.
      * intros p0 c0 L H. destruct (new_only _ _ _ _ _ L H) as (a & y & [<-|[<-|[<-|[]]]] & Hw); discriminate.
      * intros j c0 Q. apply Rs in Q. apply hold_set; auto; intros [X|[X|[X|[]]]]; discriminate.
      * intros j k0 Q. apply Ws in Q. apply hold_ring; auto; intros [X|[X|[X|[]]]]; try discriminate; injection X as ->; exact (NW j Q).
    + intros j k0 t Q Ht. destruct (key_dec k0 k) as [->|n]; [destruct (NW j Q)|]. cbn [m' hm_cats]. rewrite (ring_set_other k k0 b' _ n). exact Ht.
Qed.
(** *** A trace is added to its category *)
Lemma step_add (r : rmachine) i t k p q : K r -> nth_error (r_threads r) i = Some (WNone, p) -> nth_error (hm_threads (r_m r)) i = Some (HAdding t k, q) ->
  good r i (emit r i (add_script k (hm_cats (r_m r))) (h_step (r_m r) i) WNone p).
Proof.
  intros HK Hi Hst. pose proof (k_inv r HK) as I. set (m := r_m r) in *. set (cats1 := get_or_create k (hm_sizes m (fst k)) (hm_cats m)).
  pose proof (get_created k (hm_sizes m (fst k)) (hm_cats m)) as Nk. fold cats1 in Nk. destruct (get_ring k cats1) as [b|] eqn:Eb; [|congruence].
  assert (Rb : ringi (hm_cats m) k = bl_items b) by (rewrite <- (ring_create k (hm_sizes m (fst k)) k (hm_cats m)); fold cats1; unfold ringi; rewrite Eb; reflexivity).
  destruct (bl_add 0 b t) as [b' out] eqn:Er. destruct (bl_add_items _ _ _ _ Er) as [lost Pm]. set (dr := match out with RAdd d true => [d] | _ => [] end) in *.
  assert (Es : h_step m i = Ok (MkHM (hm_heap m) (hm_sizes m) (set_ring k b' cats1) (hm_handles m) (set_thread m i (finish_state dr) q) (hm_results m))).
  { unfold M_Heap.h_step. rewrite Hst. fold cats1. rewrite Eb, Er. destruct q; reflexivity. }
  assert (I' := inv_step Sprintf CallersFrames _ _ _ I (step_fun Sprintf CallersFrames _ _ _ I Es)).
  rewrite Es. set (m' := MkHM _ _ _ _ _ _) in *. pose proof (nth_set m i _ q (finish_state dr) q Hst) as Hts. change (set_thread m i (finish_state dr) q) with (hm_threads m') in Hts.
  assert (Nk' : get_ring k cats1 <> None) by congruence.
  assert (Th : forall k0, there (hm_cats m) k0 -> there (hm_cats m') k0) by (intros k0 Q; apply get_set_ring; apply get_kept; exact Q).
  assert (Thk : there (hm_cats m') k) by (apply get_set_ring; exact Nk').
  apply good_emit; [exact HK| |].
  - intros _. apply (K_emit r i _ _ m' WNone p (finish_state dr) q _ HK Hi I' Hts); auto.
    + intros ks cap' d'. apply finish_state_not.
    + intros k0 [].
    + intros t0 [].
  - intros B HJ HO _. set (s := add_script k (hm_cats m)) in *.
    set (mk := match get_ring k (hm_cats m) with Some _ => [] | None => [Wr (LRing k); Wr (LSet (fst k))] end).
    assert (Es1 : s = ([Acq (SSet (fst k)); Rd (LSet (fst k))] ++ mk) ++ Rel (SSet (fst k)) :: [Acq (SRing k); Wr (LRing k); Rel (SRing k)]) by (unfold s, add_script; fold mk; rewrite <- app_assoc; reflexivity).
    assert (Es2 : s = ([Acq (SSet (fst k)); Rd (LSet (fst k))] ++ mk ++ [Rel (SSet (fst k)); Acq (SRing k); Wr (LRing k)]) ++ Rel (SRing k) :: []) by (unfold s, add_script; fold mk; rewrite <- !app_assoc; reflexivity).
    assert (Ins : forall a, In a s -> a = Acq (SSet (fst k)) \/ a = Rd (LSet (fst k)) \/ a = Wr (LRing k) \/ a = Wr (LSet (fst k)) \/ a = Rel (SSet (fst k)) \/ a = Acq (SRing k) \/ a = Rel (SRing k)).
    { intros a. rewrite Es1. unfold mk. destruct (get_ring k (hm_cats m)); cbn [app In]; intros Q; repeat match type of Q with _ \/ _ => destruct Q as [<-|Q]; [repeat first [reflexivity|left; reflexivity|right]|] end; destruct Q. }
    assert (HaS : In (Acq (SSet (fst k))) s) by (left; reflexivity).
    assert (HaR : In (Acq (SRing k)) s) by (rewrite Es1; apply in_or_app; right; right; left; reflexivity).
    assert (HrR : In (Rel (SRing k)) s) by (rewrite Es2; apply in_or_app; right; left; reflexivity).
    pose proof (no_walker r s k HJ B HaR) as NW. pose proof (no_resizer r s (fst k) HJ B HaS) as NR.
    assert (Ws : forall j k0, walks (r_threads r) j k0 <-> walks (update i (WNone, p) (r_threads r)) j k0) by (apply (walks_same _ _ _ _ _ _ Hi); intros k0; reflexivity).
    assert (Rs : forall j c0, resizing (r_threads r) j c0 <-> resizing (update i (WNone, p) (r_threads r)) j c0) by (apply (resizing_same _ _ _ _ _ _ Hi); intros c0; reflexivity).
    assert (Wt : In t (way (hm_threads m) i)) by (unfold way; rewrite Hst; left; reflexivity).
    apply (J_far r i s _ _ _ p m' HJ Hi (same_objects_refl _) eq_refl); auto.
    + unfold far. apply Forall_forall. intros a Q. destruct (Ins a Q) as [->|[->|[->|[->|[->|[->| ->]]]]]]; exact Logic.I.
    + assert (CS : forall w ys, In (SSet (fst k)) ys -> covered (r_log r) i (LSet (fst k), w, ys)) by (intros w ys Hy; exact (cov_set r s i (fst k) w ys HJ B HaS Hy)).
      assert (CR : forall w ys, In (SRing k) ys -> In (SSet (fst k)) ys -> covered (r_log r) i (LRing k, w, ys)) by (intros w ys Hy1 Hy2; exact (cov_ring r s i k w ys HJ B HaR Hy1 (or_intror Hy2))).
      assert (CN : get_ring k (hm_cats m) = None -> forall w ys, covered (r_log r) i (LRing k, w, ys)).
      { intros E w ys p0 y A _. destruct (r_there _ _ _ _ _ (j_r r HJ) p0 k (ex_intro _ y A)). exact E. }
      unfold s, add_script. destruct (get_ring k (hm_cats m)) eqn:E; cbv [accs access app].
      * constructor; [apply CS; cbn; auto|]. constructor; [apply CR; cbn; auto|constructor].
      * constructor; [apply CS; cbn; auto|]. constructor; [apply CN; reflexivity|]. constructor; [apply CS; cbn; auto|]. constructor; [apply CR; cbn; auto|constructor].
    + intros j t0 Q. unfold way in Q. rewrite Hts in Q. destruct (Nat.eqb_spec j i) as [->|n]; [|left; exact Q]. rewrite finish_state_way in Q.
      assert (Q' : In t0 (t :: bl_items b)) by (apply (Permutation_in _ (Permutation_sym Pm)); apply in_or_app; right; apply in_or_app; left; exact Q). destruct Q' as [<-|Q']; [left; exact Wt|].
      right. split; [reflexivity|]. exists k. split; [|auto]. change (r_m r) with m. rewrite Rb. exact Q'.
    + intros k0 t0 Q. cbn [m' hm_cats] in Q. destruct (key_dec k0 k) as [->|n]; [|rewrite (ring_set_other k k0 b' _ n) in Q; unfold cats1 in Q; rewrite ring_create in Q; left; exact Q].
      rewrite (ring_set_same k b' _ Nk') in Q. assert (Q' : In t0 (t :: bl_items b)) by (apply (Permutation_in _ (Permutation_sym Pm)); apply in_or_app; left; exact Q).
      destruct Q' as [<-|Q']; [right; split; [exact Wt|exact HrR]|]. left. change (r_m r) with m. rewrite Rb. exact Q'.
    + intros j k0 Q. left. apply Ws. exact Q.
    + apply (JR_step (there (hm_cats m)) _ (listed (r_threads r) (hm_threads m)) _ (walks (r_threads r)) _ (resizing (r_threads r))); auto.
      * exact (j_r r HJ).
      * intros p0 k0 L H. assert (k0 = k) as ->.
        { destruct (new_only _ _ _ _ _ L H) as (a & y & Q & Hw). destruct (Ins a Q) as [->|[->|[->|[->|[->|[->| ->]]]]]]; cbn in Hw; congruence. }
        split; [exact Thk|]. left. rewrite Es2 in H |- *. apply (new_pass _ _ _ (SRing k) [] (LRing k)); auto. constructor.
      * intros j k0 Q. left. apply Ws. exact Q.
      * intros j k0 Q. assert (HL : incl (list_of (WNone : walk) (finish_state dr)) (list_of (WNone : walk) (HAdding t k))) by (intros x []).
        apply (listed_less _ _ _ _ _ _ _ _ _ _ _ _ Hi Hst Hts HL) in Q. split; [exact (k_list r HK j k0 Q)|left; exact Q].
      * intros j c0 Q. left. apply Rs. exact Q.
      * intros p0 c0 L H. assert (c0 = fst k) as ->.
        { destruct (new_only _ _ _ _ _ L H) as (a & y & Q & Hw). destruct (Ins a Q) as [->|[->|[->|[->|[->|[->| ->]]]]]]; cbn in Hw; congruence. }
        left. rewrite Es1 in H |- *. apply (new_pass _ _ _ (SSet (fst k)) _ (LSet (fst k))); auto. repeat constructor; intros w; discriminate.
      * intros j c0 Q. apply Rs in Q. apply hold_set; auto; intros X; destruct (Ins _ X) as [Y|[Y|[Y|[Y|[Y|[Y|Y]]]]]]; try discriminate; injection Y as ->; exact (NR j Q).
      * intros j k0 Q. apply Ws in Q. apply hold_ring; auto; intros X; destruct (Ins _ X) as [Y|[Y|[Y|[Y|[Y|[Y|Y]]]]]]; try discriminate; injection Y as ->; exact (NW j Q).
    + intros j k0 t0 Q Ht. destruct (key_dec k0 k) as [->|n]; [destruct (NW j Q)|]. cbn [m' hm_cats]. rewrite (ring_set_other k k0 b' _ n). unfold cats1. rewrite ring_create. exact Ht.
Qed.
End Steps.

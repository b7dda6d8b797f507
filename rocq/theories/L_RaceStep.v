(** The invariant behind C77 is preserved by every step. *)
From Verif Require Import Go L_List M_Strings M_Types S_RingBuf S_Trace M_Trace M_Mutex M_Steps P_Mutex M_Heap L_Heap S_Heap P_Heap S_Race M_Race L_Race L_RaceT L_RaceO L_RaceR L_RaceJ.
From Coq Require Import Lia Permutation.
Open Scope list_scope.
Open Scope nat_scope.

(** *** Accesses under the lock of a trace *)
Definition marker (a : action) : Prop := exists n, a = Use n \/ a = Fin n.
Definition plain (t : nat) (a : action) : Prop :=
  match a with
  | Rd (LState t') | Wr (LState t') | Rd (LId t') => t' = t
  | Rd (LEvent _) | Wr (LEvent _) | Rd (LText _) | Wr (LText _) | Rd (LFrames _) | Wr (LFrames _) | Acq (SPoolE _) | Acq (SPoolZ _) => True
  | _ => False
  end.
Lemma marker_access a : marker a -> access a = None.
Proof. intros (n & [->| ->]); reflexivity. Qed.
Lemma locked_pass l i pre t body p c : (forall a, In a pre -> marker a) -> length l <= p -> touched (l ++ by_ i (pre ++ locked t body)) p c -> passed (l ++ by_ i (pre ++ locked t body)) (SMtx t) p.
Proof.
  intros Hp L H. destruct (touched_by _ _ _ _ _ H) as [(w & H')|(L2 & a & w & Ha & Hw)]; [apply acc_bound in H'; lia|].
  assert (Es : pre ++ locked t body = (pre ++ Acq (SMtx t) :: body) ++ [Rel (SMtx t)]) by (unfold locked; rewrite <- app_assoc; reflexivity).
  rewrite Es in *. apply pass_split. apply know_seg. destruct (Nat.lt_ge_cases (p - length l) (length (pre ++ Acq (SMtx t) :: body))) as [B|B]; [lia|].
  exfalso. rewrite nth_error_app2 in Ha by exact B. destruct (p - length l - length (pre ++ Acq (SMtx t) :: body)) as [|y]; [injection Ha as <-; discriminate|destruct y; discriminate].
Qed.
Lemma locked_in a pre t body : In a (pre ++ locked t body) -> In a pre \/ a = Acq (SMtx t) \/ In a body \/ a = Rel (SMtx t).
Proof.
  intros H. apply in_app_or in H. destruct H as [H|[H|H]]; auto. apply in_app_or in H. destruct H as [H|[H|[]]]; auto.
Qed.
Lemma locked_marks pre t body : (forall a, In a pre -> marker a) -> (forall a, In a body -> plain t a) -> no_marks (pre ++ locked t body).
Proof.
  intros H1 H2. apply Forall_forall. intros a Ha. destruct (locked_in _ _ _ _ Ha) as [Q|[->|[Q| ->]]]; try exact Logic.I.
  - destruct (H1 a Q) as (n & [->| ->]); exact Logic.I.
  - apply H2 in Q. destruct a; cbn in Q; try exact Logic.I; contradiction.
Qed.
Lemma locked_private pre t body : (forall a, In a pre -> marker a) -> (forall a, In a body -> plain t a) -> private (pre ++ locked t body).
Proof.
  intros H1 H2. apply Forall_forall. intros a Ha. destruct (locked_in _ _ _ _ Ha) as [Q|[->|[Q| ->]]]; try exact Logic.I.
  - destruct (H1 a Q) as (n & [->| ->]); exact Logic.I.
  - apply H2 in Q. destruct a; cbn in Q; try exact Logic.I; try contradiction; [destruct x|destruct l|destruct l]; auto.
Qed.
Lemma locked_new pre t body n t' : (forall a, In a pre -> marker a) -> (forall a, In a body -> plain t a) -> ~ In (New n t') (pre ++ locked t body) /\ ~ In (Look n t') (pre ++ locked t body).
Proof.
  intros H1 H2. pose proof (locked_marks pre t body H1 H2) as M. unfold no_marks in M. rewrite Forall_forall in M. split; intros Q; apply M in Q; exact Q.
Qed.
Lemma locked_touch pre t body a c w : (forall a, In a pre -> marker a) -> (forall a, In a body -> plain t a) -> In a (pre ++ locked t body) -> access a = Some (c, w) ->
  match c with LState t' => t' = t | LId t' => t' = t /\ w = false | LRing _ | LSet _ => False | _ => True end.
Proof.
  intros H1 H2 Ha Hw. destruct (locked_in _ _ _ _ Ha) as [Q|[->|[Q| ->]]]; try discriminate.
  - rewrite (marker_access a (H1 a Q)) in Hw. discriminate.
  - apply H2 in Q. destruct a; cbn in Q, Hw; try discriminate; try contradiction; injection Hw as <- <-; destruct l; auto; contradiction.
Qed.
Lemma JT_locked way ring pool handles fin walks way' fin' (walks' : nat -> key -> Prop) (l : log) i pre t body c n :
  JT way ring pool handles fin walks l -> alive l t c n -> ~ In t pool ->
  (forall a, In a pre -> marker a) -> (forall a, In a body -> plain t a) ->
  (forall j t, In t (way' j) -> In t (way j)) -> (forall j k, walks j k -> walks' j k) ->
  (forall t' c n, alive l t' c n -> fin' t' = true -> fin t' = true \/
     (In (Fin n) pre /\ forall p, c < p -> is_look l t' p -> passed (l ++ by_ i (pre ++ locked t body)) (SMtx t') p)) ->
  JT way' ring pool handles fin' walks' (l ++ by_ i (pre ++ locked t body)).
Proof.
  intros Q A NP H1 H2 HW HK HF. apply (JT_step way ring pool handles fin walks); auto.
  - apply locked_marks; assumption.
  - apply incl_refl.
  - intros t' p L H. assert (t' = t).
    { destruct (touched_by _ _ _ _ _ H) as [(w & H')|(_ & a & w & Ha & Hw)]; [apply acc_bound in H'; lia|]. exact (locked_touch _ _ _ _ _ _ H1 H2 (nth_error_In _ _ Ha) Hw). }
    subst t'. split; [exact NP|]. exact (locked_pass _ _ _ _ _ _ _ H1 L H).
  - intros t' p w L H. assert (t' = t /\ w = false) as [-> ->].
    { destruct (acc_by _ _ _ _ _ _ H) as [H'|(_ & a & Ha & Hw)]; [apply acc_bound in H'; lia|]. exact (locked_touch _ _ _ _ _ _ H1 H2 (nth_error_In _ _ Ha) Hw). }
    split; [exact NP|]. split; [reflexivity|]. left. apply (locked_pass l i pre t body p (LId t) H1 L). exists false. exact H.
  - intros t' c' n' Al F. destruct (HF t' c' n' Al F) as [Q'|[Q1 Q2]]; [auto|]. right. split; [|exact Q2]. apply in_or_app. auto.
Qed.
Lemma accs_markers pre : (forall a, In a pre -> marker a) -> forall ys s, accs ys (pre ++ s) = accs ys s.
Proof.
  induction pre as [|a pre IH]; intros H ys s; [reflexivity|]. cbn [app accs]. destruct (H a (or_introl eq_refl)) as (n & [->| ->]); cbn [access app]; apply IH; intros b Hb; apply H; right; exact Hb.
Qed.
Lemma accs_locked t body : accs [] (locked t body) = accs [SMtx t] (body ++ [Rel (SMtx t)]).
Proof. reflexivity. Qed.
Lemma cov_locked l i pre t body : (forall a, In a pre -> marker a) -> Forall (covered l i) (accs [SMtx t] body) -> Forall (covered l i) (accs [] (pre ++ locked t body)).
Proof. intros H F. rewrite (accs_markers pre H), accs_locked. apply accs_app_safe; [exact F|constructor]. Qed.

(** What Finish needs to know: nobody looks any more. *)
Lemma finish_looks way ring pool handles fin walks (l : log) i pre t body c n p :
  JT way ring pool handles fin walks l -> (forall q g n t, nth_error l q = Some (g, Look n t) -> nth_error handles n = Some t) ->
  In (Fin n) pre -> orderly (l ++ by_ i (pre ++ locked t body)) -> alive l t c n -> c < p -> is_look l t p ->
  passed (l ++ by_ i (pre ++ locked t body)) (SMtx t) p.
Proof.
  intros Q HL HF O A L (g & m & Hp). set (l' := l ++ by_ i (pre ++ locked t body)) in *.
  destruct (t_new1 _ _ _ _ _ _ _ Q m t (HL _ _ _ _ Hp)) as (c' & g' & Hc').
  assert (Hp' : nth_error l' p = Some (g, Look m t)) by (apply nth_old; exact Hp). assert (Hc2 : nth_error l' c' = Some (g', New m t)) by (apply nth_old; exact Hc').
  assert (B : c' < p) by (apply (hb_lt l'); apply (o_known _ O m t c' p g' g Hc2); auto).
  destruct A as [(ga & Ha) Hno].
  assert (E : c' = c).
  { destruct (Nat.lt_trichotomy c' c) as [C|[C|C]]; [|exact C|].
    - exfalso. destruct (t_again _ _ _ _ _ _ _ Q _ _ _ _ _ _ _ Hc' Ha C) as (f & g'' & Hf & Lf).
      assert (p < f) by (apply (o_freed _ O m t c' p f g' g'' g Hc2 (nth_old _ _ _ _ Hf) (proj1 Lf)); auto). lia.
    - exfalso. exact (proj1 (Hno c' g' C) m Hc'). }
  subst c'. rewrite Ha in Hc'. injection Hc' as _ ->.
  apply in_split in HF. destruct HF as (p1 & p2 & ->). set (f := length l + length p1).
  assert (Hf : nth_error l' f = Some (i, Fin m)).
  { unfold l', f. rewrite nth_by by lia. replace (length l + length p1 - length l) with (length p1) by lia. rewrite <- app_assoc. rewrite nth_error_app2, Nat.sub_diag by lia. reflexivity. }
  pose proof (o_look _ O m t p f g i Hp' Hf) as Hb.
  set (body' := (p1 ++ Fin m :: p2) ++ Acq (SMtx t) :: body). set (e := length l + length body').
  assert (He : nth_error l' e = Some (i, Rel (SMtx t))).
  { unfold l', e. rewrite nth_by by lia. replace (length l + length body' - length l) with (length body') by lia.
    replace ((p1 ++ Fin m :: p2) ++ locked t body) with (body' ++ [Rel (SMtx t)]) by (unfold body', locked; rewrite <- app_assoc; reflexivity).
    rewrite nth_error_app2, Nat.sub_diag by lia. reflexivity. }
  exists e, i. split; [exact He|]. right. apply (hb_trans _ _ f); [exact Hb|]. apply (hb_program _ _ _ i (Fin m) (Rel (SMtx t))); [|exact Hf|exact He].
  unfold e, f, body'. rewrite !app_length. cbn [length]. lia.
Qed.

Section Steps.
Context {arg world pc : Type}.
Variable Sprintf : world -> string -> list arg -> string.
Variable CallersFrames : list pc -> list rframe.
Notation env := (env arg world pc).
Notation heap := (heap arg pc).
Notation machine := (machine arg world pc).
Notation rmachine := (rmachine arg world pc).
Notation hop := (hop arg world pc).
Notation walk := (walk arg world pc).
Notation rop := (rop arg world pc).
Notation inv := (inv (arg := arg) (world := world) (pc := pc)).
Notation h_step := (h_step Sprintf CallersFrames).
Notation r_step := (r_step Sprintf CallersFrames).

Lemma inv_give (m : machine) i q o : inv m -> nth_error (hm_threads m) i = Some (HIdle, q) -> inv (give m i o).
Proof.
  intros I Hi. assert (P : Permutation (places (give m i o)) (places m)).
  { unfold places, in_pool, in_categories, with_goroutines, give. cbn [hm_heap hm_cats hm_threads]. do 2 apply Permutation_app_head. unfold set_thread.
    pose proof (flat_map_update (fun sp : hstate * list hop => on_the_way (fst sp)) (hm_threads m) i (HIdle, q) (HIdle, [o]) Hi) as Q. cbn [fst on_the_way app] in Q. symmetry. exact Q. }
  constructor.
  - exact (i_wf m I).
  - apply (Permutation_NoDup (Permutation_sym P)). exact (i_nodup m I).
  - intros t Ht. apply (i_places m I). exact (Permutation_in _ P Ht).
  - exact (i_handles m I).
  - intros j ks cap d p k. unfold give. cbn [hm_threads hm_cats]. unfold set_thread. rewrite nth_update_eq. destruct (Nat.eqb i j); [|apply (i_keys m I)].
    destruct (Nat.ltb i (length (hm_threads m))); discriminate.
Qed.
Lemma inv_set_heap (m : machine) t x (h' : heap) evs : inv m -> call_ok Sprintf CallersFrames t x (hm_heap m) h' evs -> inv (set_heap m h').
Proof.
  intros I C. assert (E : places (set_heap m h') = places m) by (unfold places, in_pool, set_heap; cbn [hm_heap]; rewrite (co_tpool _ _ _ _ _ _ _ C); reflexivity).
  constructor; unfold set_heap in *; cbn [hm_heap hm_handles hm_threads hm_cats] in *.
  - exact (co_wf _ _ _ _ _ _ _ C).
  - rewrite E. exact (i_nodup m I).
  - intros t'. rewrite E, (co_len _ _ _ _ _ _ _ C). apply (i_places m I).
  - intros t'. rewrite (co_len _ _ _ _ _ _ _ C). apply (i_handles m I).
  - exact (i_keys m I).
Qed.
Lemma threads_give (m : machine) i q o : nth_error (hm_threads m) i = Some (HIdle, q) -> nth_error (hm_threads (give m i o)) i = Some (HIdle, [o]).
Proof.
  intros Hi. unfold give. cbn [hm_threads]. unfold set_thread. rewrite nth_update_eq, Nat.eqb_refl. assert (L : i < length (hm_threads m)) by (apply nth_error_Some; congruence). apply Nat.ltb_lt in L. rewrite L. reflexivity.
Qed.
Lemma nth_set (m : machine) i st q st' q' : nth_error (hm_threads m) i = Some (st, q) ->
  forall j, nth_error (set_thread m i st' q') j = if Nat.eqb j i then Some (st', q') else nth_error (hm_threads m) j.
Proof.
  intros Hi j. unfold set_thread. rewrite nth_update_eq, (Nat.eqb_sym j i). assert (L : i < length (hm_threads m)) by (apply nth_error_Some; congruence). apply Nat.ltb_lt in L. rewrite L. reflexivity.
Qed.
Lemma nth_set_give (m : machine) i q o st' q' : nth_error (hm_threads m) i = Some (HIdle, q) ->
  forall j, nth_error (set_thread (give m i o) i st' q') j = if Nat.eqb j i then Some (st', q') else nth_error (hm_threads m) j.
Proof.
  intros Hi j. rewrite (nth_set (give m i o) i HIdle [o] st' q' (threads_give m i q o Hi)). destruct (Nat.eqb_spec j i) as [->|n]; [reflexivity|].
  unfold give. cbn [hm_threads]. rewrite (nth_set m i HIdle q HIdle [o] Hi). apply Nat.eqb_neq in n. rewrite n. reflexivity.
Qed.
Lemma nth_keep (m : machine) i st q : nth_error (hm_threads m) i = Some (st, q) -> forall j, nth_error (hm_threads m) j = if Nat.eqb j i then Some (st, q) else nth_error (hm_threads m) j.
Proof. intros H j. destruct (Nat.eqb_spec j i) as [->|n]; [exact H|reflexivity]. Qed.

(** The claim about a step. *)
Definition no_frames_next (r : rmachine) (i : nat) : Prop := forall w p a p0, nth_error (r_threads r) i = Some (w, p) -> p <> RFrames a :: p0.
Definition good (r : rmachine) (i : nat) (x : res rmachine) : Prop :=
  exists r', x = Ok r' /\ K r' /\ (J r -> orderly (r_log r') -> no_frames_next r i -> J r').
Lemma good_same r i : K r -> good r i (Ok r).
Proof. intros H. exists r. auto. Qed.
Lemma good_emit r i s m' w p : K r -> (blocked (r_log r) s = false -> K (MkRM m' (update i (w, p) (r_threads r)) (r_log r ++ by_ i s))) ->
  (blocked (r_log r) s = false -> J r -> orderly (r_log r ++ by_ i s) -> no_frames_next r i -> J (MkRM m' (update i (w, p) (r_threads r)) (r_log r ++ by_ i s))) ->
  good r i (emit r i s (Ok m') w p).
Proof.
  intros HK H1 H2. unfold emit. destruct (blocked (r_log r) s); [apply good_same; exact HK|]. cbn [bind]. eexists. split; [reflexivity|]. split; [apply H1; reflexivity|].
  intros HJ HO HN. exact (H2 eq_refl HJ HO HN).
Qed.
Lemma call_fin t (x : env * call arg) (h h' : heap) evs t' : call_ok Sprintf CallersFrames t x h h' evs -> fin h' t' = true -> fin h t' = true \/ (t' = t /\ snd x = CallFinish).
Proof.
  intros C. unfold fin. destruct (Nat.eq_dec t' t) as [->|n].
  - pose proof (co_value _ _ _ _ _ _ _ C) as V. apply (f_equal (@ct_finished arg pc)) in V. unfold trace_value at 1 in V. cbn [set_events ct_finished] in V. rewrite V.
    assert (E : ct_finished (trace_value h t) = ct_finished (to_head (tr_at h t))) by reflexivity. rewrite <- E. generalize (trace_value h t). intros ct. destruct x as [e x]. unfold do_call. cbn [snd fst].
    destruct x; auto.
    + unfold log_call, Tracef, LazyTracef, Errorf, LazyErrorf, add_event. destruct k; destruct (ct_finished ct) eqn:F; auto; cbn; try destruct (_ <=? _)%Z; cbn; rewrite ?F; auto.
    + unfold EventsDetail. destruct (snapshotEvents _ _ _ _ _) as [a b]. cbn. auto.
  - rewrite (proj1 (co_other _ _ _ _ _ _ _ C t' n)). auto.
Qed.

(** Steps under the lock of a trace. *)
Lemma J_locked (r : rmachine) i w p st q w' p' st' q' (m' : machine) pre t body c n :
  K r -> J r -> nth_error (r_threads r) i = Some (w, p) -> nth_error (hm_threads (r_m r)) i = Some (st, q) ->
  (forall j, nth_error (hm_threads m') j = if Nat.eqb j i then Some (st', q') else nth_error (hm_threads (r_m r)) j) ->
  incl (on_the_way st') (on_the_way st) -> hm_cats m' = hm_cats (r_m r) -> h_tpool (hm_heap m') = h_tpool (hm_heap (r_m r)) -> hm_handles m' = hm_handles (r_m r) ->
  (forall k, is_in w k <-> is_in w' k) -> (forall c, is_rs w c <-> is_rs w' c) -> incl (list_of w' st') (list_of w st) -> incl (todo_of w') (todo_of w) ->
  alive (r_log r) t c n -> ~ In t (h_tpool (hm_heap (r_m r))) ->
  (forall a, In a pre -> marker a) -> (forall a, In a body -> plain t a) -> Forall (covered (r_log r) i) (accs [SMtx t] body) ->
  JO (hm_heap m') (r_log r ++ by_ i (pre ++ locked t body)) ->
  (forall t' c n, alive (r_log r) t' c n -> fin (hm_heap m') t' = true -> fin (hm_heap (r_m r)) t' = true \/
     (In (Fin n) pre /\ forall p, c < p -> is_look (r_log r) t' p -> passed (r_log r ++ by_ i (pre ++ locked t body)) (SMtx t') p)) ->
  J (MkRM m' (update i (w', p') (r_threads r)) (r_log r ++ by_ i (pre ++ locked t body))).
Proof.
  intros HK HJ Hi Hst Hts HW HC HP HH HI HR HL HT A NP H1 H2 Cov HO HF. constructor; cbn [r_m r_threads r_log].
  - apply race_free_script; [exact (j_race r HJ)|]. apply cov_locked; assumption.
  - exact HO.
  - rewrite HC, HP, HH. apply (JT_locked (way (hm_threads (r_m r))) _ _ _ (fin (hm_heap (r_m r))) (walks (r_threads r)) _ _ _ _ _ _ _ _ c n); auto.
    + exact (j_t r HJ).
    + apply (way_less _ _ _ _ _ _ _ Hst Hts HW).
    + intros j k Q. apply (walks_same _ _ _ _ _ _ Hi HI). exact Q.
  - rewrite HC. apply (JR_private (there (hm_cats (r_m r))) _ (listed (r_threads r) (hm_threads (r_m r))) _ (walks (r_threads r)) _ (resizing (r_threads r))).
    + exact (j_r r HJ).
    + apply locked_private; assumption.
    + auto.
    + apply (walks_same _ _ _ _ _ _ Hi HI).
    + intros j k Q. apply (listed_less _ _ _ _ _ _ _ _ _ _ _ _ Hi Hst Hts HL) in Q. split; [exact (k_list r HK j k Q)|exact Q].
    + apply (resizing_same _ _ _ _ _ _ Hi HR).
  - apply (todo_keep r i _ m' w p w' p'); auto.
    + intros k Q. apply HI. exact Q.
    + intros j k t' _ Q. rewrite HC. split; [exact Q|]. intros n'. apply (locked_new pre t body n' t'); assumption.
  - rewrite HH. intros q0 g n0 t0 Hq. pose proof (looks_keep _ i _ _ [] (j_looks r HJ) (fun n t' => proj2 (locked_new pre t body n t' H1 H2)) q0 g n0 t0 Hq) as Q. rewrite app_nil_r in Q. exact Q.
Qed.
Lemma events_plain t n stacks (h h' : heap) a : In a (events_script t n stacks h h') -> plain t a.
Proof.
  unfold events_script. intros [<-|H]; [reflexivity|]. apply in_flat_map in H. destruct H as (ev & Hev & H).
  apply in_app_or in H. destruct H as [[<-|[]]|H]; [exact Logic.I|]. apply in_app_or in H. destruct H as [H|H].
  - destruct stacks; [|destruct H]. destruct H as [<-|H]; [exact Logic.I|]. apply in_map_iff in H. destruct H as (b & <- & H). exact Logic.I.
  - apply in_map_iff in H. destruct H as (z & <- & H). exact Logic.I.
Qed.
Lemma log_plain t ev z (h : heap) a : In a (log_body t ev z h) -> plain t a.
Proof.
  unfold log_body. destruct (got_cases ev SPoolE (h_epool h)) as [[_ ->]|[_ ->]], (got_cases z SPoolZ (h_zpool h)) as [[_ ->]|[_ ->]]; cbn [app In]; intros H;
    repeat match type of H with _ \/ _ => destruct H as [<-|H]; [cbn; auto|] end; destruct H.
Qed.
Lemma quiet_JO t (h h' : heap) l i pre body : JO h l -> t < length (h_traces h) -> (forall a, In a pre -> marker a) -> (forall a, In a body -> plain t a) ->
  (forall a c w, In a body -> access a = Some (c, w) -> is_object c = false) ->
  (forall t', to_events (tr_at h' t') = to_events (tr_at h t')) -> h_events h' = h_events h -> h_stringers h' = h_stringers h -> h_arrays h' = h_arrays h ->
  h_epool h' = h_epool h -> h_zpool h' = h_zpool h -> length (h_traces h') = length (h_traces h) -> JO h' (l ++ by_ i (pre ++ locked t body)).
Proof.
  intros HO L H1 H2 H3 E1 E2 E3 E4 E5 E6 E7. apply (JO_quiet h); auto.
  - intros t' e He. cbv beta in *. rewrite E1 in He. exact He.
  - rewrite E5. apply incl_refl.
  - rewrite E6. apply incl_refl.
  - lia.
  - intros a c w Ha Hw. destruct (locked_in _ _ _ _ Ha) as [Q|[->|[Q| ->]]]; try discriminate; [rewrite (marker_access a (H1 a Q)) in Hw; discriminate|exact (H3 a c w Q Hw)].
  - intros a t' w Ha Hw. rewrite E7. destruct Hw as [Hw|Hw]; pose proof (locked_touch _ _ _ _ _ _ H1 H2 Ha Hw) as Q; cbn in Q; [destruct Q as [-> _]|subst t']; exact L.
Qed.
Lemma call_body t (x : env * call arg) ch (h h' : heap) evs l i pre : wf h -> t < length (h_traces h) -> JO h l ->
  h_call Sprintf CallersFrames t x ch h = Ok (h', evs) -> call_ok Sprintf CallersFrames t x h h' evs ->
  (forall p, touched l p (LState t) -> know l i p \/ passed l (SMtx t) p) -> (forall p, acc l p (LId t) true -> know l i p) -> (forall a, In a pre -> marker a) ->
  (forall a, In a (call_script t (snd x) ch h h') -> plain t a) /\ Forall (covered l i) (accs [SMtx t] (call_script t (snd x) ch h h')) /\
  JO h' (l ++ by_ i (pre ++ locked t (call_script t (snd x) ch h h'))).
Proof.
  intros W L HO E C HS HI H1.
  assert (CS : forall w, covered l i (LState t, w, [SMtx t])).
  { intros w p w' A _. destruct (HS p (ex_intro _ w' A)) as [Q|Q]; [auto|]. right. exists (SMtx t). split; [left; reflexivity|exact Q]. }
  assert (CI : covered l i (LId t, false, [SMtx t])).
  { intros p w' A [->|Q]; [|discriminate]. left. exact (HI p A). }
  assert (Ev : forall o', to_events o' = to_events (tr_at h t) -> forall t', to_events (tr_at (set_trace t o' h) t') = to_events (tr_at h t')).
  { intros o' Eo t'. rewrite (tr_at_set t o' h t' L). destruct (Nat.eqb_spec t t') as [->|n]; [exact Eo|reflexivity]. }
  destruct x as [e [k f a| |n|n s]]; cbn [snd call_script] in *.
  - unfold h_call in E. cbn [snd fst] in E. injection E as <- <-. unfold log_script, h_log. fold (tr_at h t).
    destruct (ct_finished (to_head (tr_at h t))) eqn:F.
    + assert (Pl : forall a, In a [Rd (LState t)] -> plain t a) by (intros b [<-|[]]; reflexivity). split; [exact Pl|]. split; [constructor; [apply CS|constructor]|].
      apply (quiet_JO t h); auto. intros b c w [<-|[]]; intros [= <- <-]; reflexivity.
    + destruct (ct_eventsmax (to_head (tr_at h t)) <=? zlen (to_events (tr_at h t)))%Z eqn:M.
      * assert (Em : ct_eventsmax (if is_error_kind k then mark_errored (to_head (tr_at h t)) else to_head (tr_at h t)) = ct_eventsmax (to_head (tr_at h t))) by (destruct (is_error_kind k); reflexivity).
        rewrite Em, M. assert (Pl : forall a, In a [Rd (LState t); Wr (LState t)] -> plain t a) by (intros b [<-|[<-|[]]]; reflexivity). split; [exact Pl|].
        split; [constructor; [apply CS|constructor; [apply CS|constructor]]|]. apply (quiet_JO t h); auto.
        -- intros b c w [<-|[<-|[]]]; intros [= <- <-]; reflexivity.
        -- cbn [set_trace h_traces]. apply length_update.
      * destruct (log_logs Sprintf t e (ch_ep ch) (ch_zp ch) k f a h W L F M) as (ev & z & E1 & E2 & G). unfold h_log in G. fold (tr_at h t) in G. rewrite F in G.
        destruct (pool_get zeroEO (ch_ep ch) (h_epool h) (h_events h)) as [[ev' x1] x2]. destruct (pool_get zeroStringer (ch_zp ch) (h_zpool h) (h_stringers h)) as [[z' x3] x4]. cbn [fst] in E1, E2. subst ev' z'.
        change ([Rd (LState t)] ++ got ev SPoolE (h_epool h) ++ [Wr (LEvent ev)] ++ got z SPoolZ (h_zpool h) ++ [Wr (LText z); Wr (LState t)]) with (log_body t ev z h).
        split; [intros b Hb; exact (log_plain _ _ _ _ _ Hb)|]. pose proof (lg_ep _ _ _ _ _ G) as (_ & _ & G1). pose proof (lg_zp _ _ _ _ _ G) as (_ & _ & G2).
        split; [apply (cov_log h); auto|]. apply (JO_log h); auto.
        -- pose proof (co_wf _ _ _ _ _ _ _ C) as W'. unfold h_log in W'. fold (tr_at h t) in W'. rewrite F in W'. exact W'.
        -- intros b Hb. apply marker_access. apply H1. exact Hb.
  - unfold h_call in E. cbn [snd fst] in E. fold (tr_at h t) in E. injection E as <- <-.
    assert (Pl : forall a, In a [Rd (LState t); Rd (LId t); Wr (LState t)] -> plain t a) by (intros b [<-|[<-|[<-|[]]]]; reflexivity). split; [exact Pl|].
    split; [constructor; [apply CS|constructor; [apply CI|constructor; [apply CS|constructor]]]|]. apply (quiet_JO t h); auto.
    + intros b c w [<-|[<-|[<-|[]]]]; intros [= <- <-]; reflexivity.
    + cbn [set_trace h_traces]. apply length_update.
  - unfold h_call in E. cbn [snd fst] in E. fold (tr_at h t) in E. injection E as <- <-.
    assert (Pl : forall a, In a [Wr (LState t)] -> plain t a) by (intros b [<-|[]]; reflexivity). split; [exact Pl|].
    split; [constructor; [apply CS|constructor]|]. apply (quiet_JO t h); auto.
    + intros b c w [<-|[]]; intros [= <- <-]; reflexivity.
    + cbn [set_trace h_traces]. apply length_update.
  - pose proof (events_reads Sprintf CallersFrames t e n s ch h h' evs W E) as R. split; [intros b Hb; exact (events_plain _ _ _ _ _ _ Hb)|].
    split; [apply (cov_events h); auto|]. apply (JO_events h); auto.
    + exact (co_wf _ _ _ _ _ _ _ C).
    + intros b Hb. apply marker_access. apply H1. exact Hb.
Qed.

(** *** Steps that do not access traces *)
Definition far (s : list action) : Prop :=
  Forall (fun a => match a with New _ _ | Recycle _ | Look _ _ => False | Rd c | Wr c => match c with LRing _ | LSet _ => True | _ => False end | _ => True end) s.
Lemma far_access s a c w : far s -> In a s -> access a = Some (c, w) -> match c with LRing _ | LSet _ => True | _ => False end.
Proof. unfold far. rewrite Forall_forall. intros F Ha Hw. apply F in Ha. destruct a; cbn in Hw; try discriminate; injection Hw as <- <-; auto. Qed.
Lemma far_touch s l i p c : far s -> match c with LRing _ | LSet _ => False | _ => True end -> touched (l ++ by_ i s) p c -> touched l p c.
Proof.
  intros F Hc H. destruct (touched_by _ _ _ _ _ H) as [H'|(_ & a & w & Ha & Hw)]; [exact H'|]. exfalso. pose proof (far_access s a c w F (nth_error_In _ _ Ha) Hw) as Q. destruct c; auto.
Qed.
Record same_objects (h h' : heap) : Prop := {
  sm_traces : h_traces h' = h_traces h; sm_events : h_events h' = h_events h; sm_stringers : h_stringers h' = h_stringers h; sm_arrays : h_arrays h' = h_arrays h;
  sm_pools : incl (h_tpool h') (h_tpool h) /\ incl (h_epool h') (h_epool h) /\ incl (h_zpool h') (h_zpool h)
}.
Lemma same_objects_refl (h : heap) : same_objects h h.
Proof. constructor; auto. repeat split; apply incl_refl. Qed.
Lemma J_far (r : rmachine) i s w p w' p' (m' : machine) : J r -> nth_error (r_threads r) i = Some (w, p) -> same_objects (hm_heap (r_m r)) (hm_heap m') -> hm_handles m' = hm_handles (r_m r) -> far s ->
  Forall (covered (r_log r) i) (accs [] s) ->
  (forall j t, In t (way (hm_threads m') j) -> In t (way (hm_threads (r_m r)) j) \/ (j = i /\ exists k, In t (ringi (hm_cats (r_m r)) k) /\ In (Acq (SRing k)) s /\ forall j, ~ walks (r_threads r) j k)) ->
  (forall k t, In t (ringi (hm_cats m') k) -> In t (ringi (hm_cats (r_m r)) k) \/ (In t (way (hm_threads (r_m r)) i) /\ In (Rel (SRing k)) s)) ->
  (forall j k, walks (r_threads r) j k -> walks (update i (w', p') (r_threads r)) j k \/ (j = i /\ In (Rel (SRing k)) s)) ->
  JR (there (hm_cats m')) (listed (update i (w', p') (r_threads r)) (hm_threads m')) (walks (update i (w', p') (r_threads r))) (resizing (update i (w', p') (r_threads r))) (r_log r ++ by_ i s) ->
  (forall j k t, walks (r_threads r) j k -> In t (ringi (hm_cats (r_m r)) k) -> In t (ringi (hm_cats m') k)) ->
  (forall k t, is_in w' k -> In t (todo_of w') -> (is_in w k /\ In t (todo_of w)) \/
     (In t (ringi (hm_cats (r_m r)) k) /\ In t (ringi (hm_cats m') k) /\ In (Acq (SRing k)) s)) ->
  J (MkRM m' (update i (w', p') (r_threads r)) (r_log r ++ by_ i s)).
Proof.
  intros HJ Hi SO HH F Cov HW HR HK HJR HT HTi. destruct (sm_pools _ _ SO) as (P1 & P2 & P3).
  assert (NN : forall n t, ~ In (New n t) s) by (intros n t Q; unfold far in F; rewrite Forall_forall in F; exact (F _ Q)).
  assert (NL : forall n t, ~ In (Look n t) s) by (intros n t Q; unfold far in F; rewrite Forall_forall in F; exact (F _ Q)).
  constructor; cbn [r_m r_threads r_log].
  - apply race_free_script; [exact (j_race r HJ)|exact Cov].
  - apply (JO_quiet (hm_heap (r_m r))); auto.
    + exact (j_o r HJ).
    + intros t. cbv beta. unfold tr_at. rewrite (sm_traces _ _ SO). apply incl_refl.
    + exact (sm_events _ _ SO).
    + exact (sm_stringers _ _ SO).
    + exact (sm_arrays _ _ SO).
    + rewrite (sm_traces _ _ SO). lia.
    + intros a c x Ha Hw. pose proof (far_access s a c x F Ha Hw) as Q. destruct c; try contradiction; reflexivity.
    + intros a t x Ha [Hw|Hw]; pose proof (far_access s a _ x F Ha Hw) as Q; destruct Q.
  - rewrite HH. apply (JT_step (way (hm_threads (r_m r))) (ringi (hm_cats (r_m r))) (h_tpool (hm_heap (r_m r))) _ (fin (hm_heap (r_m r))) (walks (r_threads r))); auto.
    + exact (j_t r HJ).
    + unfold far in F. unfold no_marks. apply Forall_forall. rewrite Forall_forall in F. intros a Ha. apply F in Ha. destruct a; auto.
    + intros t x L H. apply far_touch in H; [|exact F|exact Logic.I]. destruct H as (y & H). apply acc_bound in H. lia.
    + intros t x y L H. assert (H' : touched (r_log r ++ by_ i s) x (LId t)) by (exists y; exact H). apply far_touch in H'; [|exact F|exact Logic.I]. destruct H' as (z & H'). apply acc_bound in H'. lia.
    + intros t c n _ Q. left. unfold fin, tr_at in *. rewrite (sm_traces _ _ SO) in Q. exact Q.
  - exact HJR.
  - intros j k v x t Hj Hk Ht. rewrite (nth_upd _ _ _ _ _ _ Hi) in Hj. destruct (Nat.eqb_spec j i) as [->|n].
    + injection Hj as <- <-. destruct (HTi k t Hk Ht) as [[Q1 Q2]|(Q1 & Q2 & Q3)].
      * destruct (j_todo r HJ i k w p t Hi Q1 Q2) as [A B]. split; [apply (HT i); [exists w, p; auto|exact A]|]. intros c n Al. apply know_mono. apply (B c n). apply (alive_back _ i s); auto.
      * split; [exact Q2|]. intros c n Al. apply (alive_back _ i s) in Al; [|auto]. apply (know_seg_acq _ _ _ (SRing k)); [exact Q3|]. exact (proj1 (t_ring _ _ _ _ _ _ _ (j_t r HJ) k t c n Q1 Al)).
    + destruct (j_todo r HJ j k v x t Hj Hk Ht) as [A B]. split; [apply (HT j); [exists v, x; auto|exact A]|]. intros c n' Al. apply know_mono. apply (B c n'). apply (alive_back _ i s); auto.
  - rewrite HH. intros q0 g n0 t0 Hq. pose proof (looks_keep _ i _ _ [] (j_looks r HJ) NL q0 g n0 t0 Hq) as Q. rewrite app_nil_r in Q. exact Q.
Qed.
(** Nothing but channels. *)
Definition silent (s : list action) : Prop := Forall (fun a => match a with Acq (SChan _) | Rel (SChan _) => True | _ => False end) s.
Lemma silent_accs s : silent s -> forall ys, accs ys s = [].
Proof. induction 1 as [|a s Ha Hs IH]; intros ys; [reflexivity|]. cbn [accs]. destruct a; try destruct Ha; cbn [access app]; apply IH. Qed.
Lemma J_silent (r : rmachine) i s w p st q w' p' st' q' (m' : machine) : K r -> J r -> nth_error (r_threads r) i = Some (w, p) -> nth_error (hm_threads (r_m r)) i = Some (st, q) ->
  (forall j, nth_error (hm_threads m') j = if Nat.eqb j i then Some (st', q') else nth_error (hm_threads (r_m r)) j) ->
  same_objects (hm_heap (r_m r)) (hm_heap m') -> hm_handles m' = hm_handles (r_m r) -> hm_cats m' = hm_cats (r_m r) -> silent s ->
  incl (on_the_way st') (on_the_way st) -> (forall k, is_in w k <-> is_in w' k) -> (forall c, is_rs w c <-> is_rs w' c) -> incl (list_of w' st') (list_of w st) -> incl (todo_of w') (todo_of w) ->
  J (MkRM m' (update i (w', p') (r_threads r)) (r_log r ++ by_ i s)).
Proof.
  intros HK HJ Hi Hst Hts SO HH HC S HW HI HR HL HT.
  assert (F : far s) by (unfold far, silent in *; rewrite Forall_forall in *; intros a Ha; apply S in Ha; destruct a; auto; contradiction).
  apply (J_far r i s w p w' p' m' HJ Hi SO HH F).
  - rewrite (silent_accs s S). constructor.
  - intros j t Q. left. exact (way_less _ _ _ _ _ _ _ Hst Hts HW j t Q).
  - intros k t Q. rewrite HC in Q. auto.
  - intros j k Q. left. apply (walks_same _ _ _ _ _ _ Hi HI). exact Q.
  - rewrite HC. apply (JR_private (there (hm_cats (r_m r))) _ (listed (r_threads r) (hm_threads (r_m r))) _ (walks (r_threads r)) _ (resizing (r_threads r))).
    + exact (j_r r HJ).
    + unfold private, silent in *. rewrite Forall_forall in *. intros a Ha. apply S in Ha. destruct a; auto; try contradiction; destruct x; auto.
    + auto.
    + apply (walks_same _ _ _ _ _ _ Hi HI).
    + intros j k Q. apply (listed_less _ _ _ _ _ _ _ _ _ _ _ _ Hi Hst Hts HL) in Q. split; [exact (k_list r HK j k Q)|exact Q].
    + apply (resizing_same _ _ _ _ _ _ Hi HR).
  - intros j k t _ Q. rewrite HC. exact Q.
  - intros k t Q1 Q2. left. split; [apply HI; exact Q1|apply HT; exact Q2].
Qed.
End Steps.

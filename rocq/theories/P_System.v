(** C75: the traces that collectors hold are what was done through them. *)
From Verif Require Import Go L_List M_Strings M_Types S_RingBuf S_Trace M_Trace L_Trace M_Mutex M_Steps P_Mutex M_Heap L_Heap S_Heap P_Heap S_System P_Trace M_Filter S_Filter S_Collector M_RingBuf M_RingBufs L_RingBufs M_Stats S_Order M_Search S_Search L_Search P_Search D_Demo.
From Coq Require Import Lia Permutation.
Open Scope string_scope.
Open Scope list_scope.
Open Scope nat_scope.

Lemma last_index_app t l x : last_index t (l ++ [x]) = if Nat.eqb x t then Some (length l) else last_index t l.
Proof. induction l as [|y l IH]; cbn [app last_index length]; [destruct (Nat.eqb x t); reflexivity|]. rewrite IH. destruct (Nat.eqb x t); reflexivity. Qed.
Lemma last_index_nth t l n : last_index t l = Some n -> nth_error l n = Some t.
Proof.
  revert n. induction l as [|y l IH]; intros n; cbn [last_index]; [discriminate|]. destruct (last_index t l) as [i|]; [intros [= <-]; cbn; apply IH; reflexivity|].
  destruct (Nat.eqb_spec y t); [intros [= <-]; cbn; congruence|discriminate].
Qed.
Lemma last_index_in t l : In t l -> exists n, last_index t l = Some n.
Proof.
  induction l as [|y l IH]; intros H; [destruct H|]. cbn [last_index]. destruct (last_index t l) as [i|] eqn:E; [eauto|]. destruct H as [->|H]; [rewrite Nat.eqb_refl; eauto|].
  destruct (IH H) as [n Q]. discriminate.
Qed.
Lemma nth_update_error {A} (l : list A) : forall i j x, nth_error (update i x l) j = if Nat.eqb i j then (match nth_error l i with Some _ => Some x | None => None end) else nth_error l j.
Proof. induction l as [|y l IH]; intros [|i] [|j] x; cbn; try reflexivity; [destruct (Nat.eqb i j); reflexivity|]. apply IH. Qed.

Section Proofs.
Context {arg world pc : Type}.
Variable Sprintf : world -> string -> list arg -> string.
Variable CallersFrames : list pc -> list rframe.
Notation env := (env arg world pc).
Notation coreTrace := (coreTrace arg pc).
Notation machine := (machine arg world pc).
Notation act := (act arg world pc).
Notation h_step := (h_step Sprintf CallersFrames).
Notation h_run := (h_run Sprintf CallersFrames).
Notation acts := (acts Sprintf CallersFrames).
Notation proper := (proper Sprintf CallersFrames).
Notation should_be := (should_be Sprintf CallersFrames).
Notation run := (run Sprintf CallersFrames).

Definition busy (m : machine) (t : nat) : Prop := In t (in_categories m) \/ In t (with_goroutines m).
Definition unfinished (log : list act) (n : nat) : Prop := existsb is_finish (calls_through n log) = false.

Record sound (log : list act) (m : machine) : Prop := {
  j_len : length (creations log) = length (hm_handles m);
  j_open : forall n t, nth_error (hm_handles m) n = Some t -> unfinished log n -> owner m t = Some n /\ ~ In t (in_pool m);
  j_value : forall n t, owner m t = Some n -> ~ In t (in_pool m) -> unfinished log n \/ busy m t -> exists k, should_be log n k (trace_value (hm_heap m) t);
  j_owner : forall t, busy m t -> exists n, owner m t = Some n;
  j_ring : forall k r t n, get_ring k (hm_cats m) = Some r -> In t (bl_items r) -> owner m t = Some n -> option_map (fun x => fst (fst (fst (fst x)))) (nth_error (creations log) n) = Some k;
  j_adding : forall j t k p n, nth_error (hm_threads m) j = Some (HAdding t k, p) -> owner m t = Some n -> option_map (fun x => fst (fst (fst (fst x)))) (nth_error (creations log) n) = Some k;
  j_order : forall k, match get_ring k (hm_cats m) with
                      | Some r => map (owner m) (bl_items r) = map Some (firstn (length (bl_items r)) (rev (added_to k log)))
                      | None => added_to k log = []
                      end;
  j_calls : forall n, length (hm_handles m) <= n -> calls_through n log = [];
  j_cap : forall k r, get_ring k (hm_cats m) = Some r -> length (bl_items r) <= bl_cap r
}.

Lemma ring_in_categories k cats r t : get_ring k cats = Some r -> In t (bl_items r) -> In t (flat_map (fun kr : nat * string * blist nat => bl_items (snd kr)) cats).
Proof.
  induction cats as [|[k' q] cats IH]; [discriminate|]. cbn [get_ring flat_map snd]. destruct (key_eq k k'); [intros [= ->] H; apply in_or_app; auto|].
  intros E H. apply in_or_app. right. apply IH; assumption.
Qed.
Lemma get_ring_set k k' r cats : get_ring k cats <> None -> get_ring k' (set_ring k r cats) = if key_eq k' k then Some r else get_ring k' cats.
Proof.
  induction cats as [|[k2 q] cats IH]; [cbn; congruence|]. cbn [get_ring set_ring]. destruct (key_eq k k2) eqn:E.
  - intros _. cbn [get_ring]. apply key_eq_spec in E as ->. destruct (key_eq k' k2); reflexivity.
  - intros H. cbn [get_ring]. destruct (key_eq k' k2) eqn:E'; [|apply IH; exact H]. apply key_eq_spec in E' as ->.
    destruct (key_eq k2 k) eqn:E2; [|reflexivity]. apply key_eq_spec in E2 as ->. rewrite (proj2 (key_eq_spec k k) eq_refl) in E. discriminate.
Qed.

Lemma calls_snoc n (log a : list act) : calls_through n (log ++ a) = calls_through n log ++ calls_through n a.
Proof. apply flat_map_app. Qed.
Lemma created_snoc (log a : list act) : creations (log ++ a) = creations log ++ creations a.
Proof. apply flat_map_app. Qed.
Lemma added_snoc k (log a : list act) : added_to k (log ++ a) = added_to k log ++ added_to k a.
Proof. apply flat_map_app. Qed.
Lemma key_kept (log a : list act) n k : option_map (fun x => fst (fst (fst (fst x)))) (nth_error (creations log) n) = Some k ->
  option_map (fun x => fst (fst (fst (fst x)))) (nth_error (creations (log ++ a)) n) = Some k.
Proof.
  rewrite created_snoc. destruct (nth_error (creations log) n) as [x|] eqn:E; [|discriminate].
  rewrite nth_error_app1 by (apply nth_error_Some; congruence). rewrite E. auto.
Qed.
Lemma creation_kept (log a : list act) n x : nth_error (creations log) n = Some x -> nth_error (creations (log ++ a)) n = Some x.
Proof. intros E. rewrite created_snoc, nth_error_app1 by (apply nth_error_Some; congruence). exact E. Qed.

Lemma sound_start programs : sound [] (hm_start programs).
Proof.
  constructor; try reflexivity.
  - intros [|n] t H; discriminate.
  - intros n t H. discriminate.
  - intros t [[]|H]. unfold with_goroutines in H. cbn in H. apply in_flat_map in H as (x & Hx & H). apply in_map_iff in Hx as (p & <- & _). destruct H.
  - intros k r t n H. discriminate.
  - intros j t k p n H. cbn in H. apply nth_error_In, in_map_iff in H as (q & H & _). discriminate.
  - discriminate.
Qed.

Lemma unfinished_snoc log (a : list act) n : unfinished (log ++ a) n -> unfinished log n.
Proof. unfold unfinished. rewrite calls_snoc, existsb_app. intros H. apply Bool.orb_false_iff in H. tauto. Qed.
Lemma busy_threads (m m' : machine) i s p s' p' : nth_error (hm_threads m) i = Some (s, p) -> hm_threads m' = set_thread m i s' p' ->
  forall t, In t (with_goroutines m') -> In t (on_the_way s') \/ In t (with_goroutines m).
Proof.
  intros E Q t. unfold with_goroutines. rewrite Q. intros H. apply in_flat_map in H as (x & Hx & H). apply In_nth_error in Hx as [j Hx]. unfold set_thread in Hx.
  rewrite nth_update_error in Hx. destruct (Nat.eqb i j); [rewrite E in Hx; injection Hx as <-; auto|]. right. apply in_flat_map. exists x. split; [exact (nth_error_In _ _ Hx)|exact H].
Qed.
Lemma way_in (m : machine) i s p t : nth_error (hm_threads m) i = Some (s, p) -> In t (on_the_way s) -> In t (with_goroutines m).
Proof. intros E H. apply in_flat_map. exists (s, p). split; [exact (nth_error_In _ _ E)|exact H]. Qed.
Lemma owner_same (m m' : machine) t : hm_handles m' = hm_handles m -> owner m' t = owner m t.
Proof. unfold owner. intros ->. reflexivity. Qed.
Lemma adding_threads (m m' : machine) i s p s' p' : nth_error (hm_threads m) i = Some (s, p) -> hm_threads m' = set_thread m i s' p' -> (forall t k, s' <> HAdding t k) ->
  forall j t k q, nth_error (hm_threads m') j = Some (HAdding t k, q) -> nth_error (hm_threads m) j = Some (HAdding t k, q).
Proof.
  intros E Q N j t k q. rewrite Q. unfold set_thread. rewrite nth_update_error. destruct (Nat.eqb i j); [|auto]. rewrite E. intros [= -> _]. destruct (N t k eq_refl).
Qed.
Lemma finish_not_adding ts t k : finish_state ts <> HAdding t k.
Proof. destruct ts; discriminate. Qed.

(** Steps after which the categories are what they were. *)
Lemma keep log (a : list act) (m m' : machine) : inv m -> sound log m -> hm_handles m' = hm_handles m -> hm_cats m' = hm_cats m -> creations a = [] -> (forall k, added_to k a = []) -> (forall n, length (hm_handles m) <= n -> calls_through n a = []) ->
  (forall t, In t (with_goroutines m') -> In t (with_goroutines m)) ->
  (forall j t k q, nth_error (hm_threads m') j = Some (HAdding t k, q) -> nth_error (hm_threads m) j = Some (HAdding t k, q)) ->
  (forall t, In t (in_pool m') -> In t (in_pool m) \/ exists n, owner m t = Some n /\ ~ unfinished log n) ->
  (forall t n, owner m t = Some n -> ~ In t (in_pool m) -> ~ In t (in_pool m') -> unfinished log n \/ busy m t ->
     trace_value (hm_heap m') t = run (calls_through n a) (trace_value (hm_heap m) t)) ->
  sound (log ++ a) m'.
Proof.
  intros I J Hh Hc Ca Ad Cl Hg Ht Hp Hv.
  assert (O : forall t, owner m' t = owner m t) by (intros t; apply owner_same; exact Hh).
  assert (B : forall t, busy m' t -> busy m t) by (intros t [H|H]; [left; unfold in_categories in *; rewrite Hc in H; exact H|right; auto]).
  assert (U : forall n t, nth_error (hm_handles m') n = Some t -> unfinished (log ++ a) n -> owner m' t = Some n /\ ~ In t (in_pool m')).
  { intros n t Hn Hu. rewrite Hh in Hn. apply unfinished_snoc in Hu. destruct (j_open _ _ J n t Hn Hu) as [Q1 Q2]. rewrite O. split; [exact Q1|].
    intros Q. destruct (Hp t Q) as [Q3|(n' & Q3 & Q4)]; [exact (Q2 Q3)|]. rewrite Q1 in Q3. injection Q3 as <-. exact (Q4 Hu). }
  constructor.
  - rewrite created_snoc, Ca, app_nil_r, Hh. exact (j_len _ _ J).
  - exact U.
  - intros n t. rewrite O. intros Ho Np Hub.
    assert (Hub' : unfinished log n \/ busy m t) by (destruct Hub as [Q|Q]; [left; exact (unfinished_snoc _ _ _ Q)|right; auto]).
    assert (Np' : ~ In t (in_pool m)).
    { destruct Hub' as [Q|Q]; [apply (j_open _ _ J n t); [exact (last_index_nth _ _ _ Ho)|exact Q]|exact (nodup_apart m t I Q)]. }
    destruct (j_value _ _ J n t Ho Np' Hub') as (k & g & now & id & src & Q1 & Q2). exists k, g, now, id, src. split; [exact (creation_kept _ a _ _ Q1)|].
    rewrite (Hv t n Ho Np' Np Hub'), Q2, calls_snoc. unfold M_Trace.run. rewrite fold_left_app. reflexivity.
  - intros t H. rewrite O. exact (j_owner _ _ J t (B t H)).
  - intros k r t n. rewrite Hc, O. intros H1 H2 H3. apply key_kept. exact (j_ring _ _ J k r t n H1 H2 H3).
  - intros j t k p n H. rewrite O. intros H1. apply key_kept. exact (j_adding _ _ J j t k p n (Ht _ _ _ _ H) H1).
  - intros k. rewrite Hc, added_snoc, Ad, app_nil_r. pose proof (j_order _ _ J k) as Q. destruct (get_ring k (hm_cats m)); [|exact Q].
    rewrite (map_ext _ _ O). exact Q.
  - intros n. rewrite Hh, calls_snoc. intros L. rewrite (j_calls _ _ J n L), (Cl n L). reflexivity.
  - rewrite Hc. exact (j_cap _ _ J).
Qed.

Lemma map_firstn {A B} (f : A -> B) n l : map f (firstn n l) = firstn n (map f l).
Proof. symmetry. apply firstn_map. Qed.
Lemma removelast_len {A} (l : list A) n : length l = S n -> removelast l = firstn n l.
Proof. intros E. rewrite List.removelast_firstn_len, E. reflexivity. Qed.

(** Steps that only change one category. *)
Lemma ring_changed log (a : list act) (m m' : machine) k0 r' : inv m -> sound log m -> hm_handles m' = hm_handles m -> hm_heap m' = hm_heap m ->
  (forall k, get_ring k (hm_cats m') = if key_eq k k0 then Some r' else get_ring k (hm_cats m)) ->
  creations a = [] -> (forall n, calls_through n a = []) -> (forall k, key_eq k k0 = false -> added_to k a = []) ->
  (forall t, In t (in_categories m') -> busy m t) -> (forall t, In t (with_goroutines m') -> busy m t) ->
  (forall j t k q, nth_error (hm_threads m') j = Some (HAdding t k, q) -> nth_error (hm_threads m) j = Some (HAdding t k, q)) ->
  (forall t n, In t (bl_items r') -> owner m t = Some n -> option_map (fun x => fst (fst (fst (fst x)))) (nth_error (creations log) n) = Some k0) ->
  map (owner m) (bl_items r') = map Some (firstn (length (bl_items r')) (rev (added_to k0 (log ++ a)))) -> length (bl_items r') <= bl_cap r' ->
  sound (log ++ a) m'.
Proof.
  intros I J Hh Hp Hr Ca Cl Ad Hc Hg Ht Hk Ho Hl.
  assert (O : forall t, owner m' t = owner m t) by (intros t; apply owner_same; exact Hh).
  assert (B : forall t, busy m' t -> busy m t) by (intros t [H|H]; auto).
  assert (P : in_pool m' = in_pool m) by (unfold in_pool; rewrite Hp; reflexivity).
  constructor.
  - rewrite created_snoc, Ca, app_nil_r, Hh. exact (j_len _ _ J).
  - intros n t. rewrite Hh, O, P. intros H Q. apply (j_open _ _ J n t H). exact (unfinished_snoc _ _ _ Q).
  - intros n t. rewrite O, P, Hp. intros H1 H2 H3. destruct (j_value _ _ J n t H1 H2) as (k & g & now & id & src & Q1 & Q2).
    + destruct H3 as [H3|H3]; [left; exact (unfinished_snoc _ _ _ H3)|auto].
    + exists k, g, now, id, src. split; [exact (creation_kept _ a _ _ Q1)|]. rewrite calls_snoc, Cl, app_nil_r. exact Q2.
  - intros t H. rewrite O. exact (j_owner _ _ J t (B t H)).
  - intros k r t n. rewrite Hr, O. destruct (key_eq k k0) eqn:E.
    + apply key_eq_spec in E as ->. intros [= <-] H1 H2. apply key_kept. exact (Hk t n H1 H2).
    + intros H1 H2 H3. apply key_kept. exact (j_ring _ _ J k r t n H1 H2 H3).
  - intros j t k p n H. rewrite O. intros H1. apply key_kept. exact (j_adding _ _ J j t k p n (Ht _ _ _ _ H) H1).
  - intros k. rewrite Hr. destruct (key_eq k k0) eqn:E.
    + apply key_eq_spec in E as ->. rewrite (map_ext _ _ O). exact Ho.
    + rewrite added_snoc, (Ad k E), app_nil_r. pose proof (j_order _ _ J k) as Q. destruct (get_ring k (hm_cats m)); [|exact Q].
      rewrite (map_ext _ _ O). exact Q.
  - intros n. rewrite Hh, calls_snoc, Cl, app_nil_r. exact (j_calls _ _ J n).
  - intros k r. rewrite Hr. destruct (key_eq k k0); [intros [= <-]; exact Hl|exact (j_cap _ _ J k r)].
Qed.

Lemma calls_one n n' x : calls_through n [ACall n' x] = if Nat.eqb n' n then [x] else [] :> history arg env.
Proof. unfold calls_through. cbn. destruct (Nat.eqb n' n); reflexivity. Qed.
Lemma added_one k k' n : added_to k [AAdd k' n : act] = if key_eq k' k then [n] else [].
Proof. unfold added_to. cbn [flat_map]. destruct (key_eq k' k); reflexivity. Qed.
Lemma run_nil c : run [] c = c.
Proof. reflexivity. Qed.

Lemma sound_step log m i m' : inv m -> sound log m -> use_ok log m i -> h_step m i = Ok m' -> sound (log ++ act_of m i) m'.
Proof.
  intros I J Us E.
  assert (SO : step_ok Sprintf CallersFrames m i m').
  { destruct (step_exists Sprintf CallersFrames m i I) as (m2 & E2 & S). rewrite E in E2. injection E2 as ->. exact S. }
  assert (Stay : act_of m i = [] -> m' = m -> sound (log ++ act_of m i) m') by (intros -> ->; rewrite app_nil_r; exact J).
  unfold h_step in E. destruct (nth_error (hm_threads m) i) as [[s prog]|] eqn:Ht.
  2: { injection E as <-. apply Stay; [unfold act_of; rewrite Ht; reflexivity|reflexivity]. }
  pose proof (so_values _ _ _ _ _ SO) as V. pose proof (so_pool _ _ _ _ _ SO) as Pl.
  destruct s as [|t key|ks cap dropped|ts].
  - destruct prog as [|[c cat g now id src pick|n x ch|c cap|kt ke kz] p].
    + injection E as <-. apply Stay; [unfold act_of; rewrite Ht; reflexivity|reflexivity].
    + (* NewTrace *)
      destruct (h_new g now id pick src cat (hm_heap m)) as [h t] eqn:En. injection E as <-. set (m' := MkHM _ _ _ _ _ _) in *.
      assert (Eff : effect_of m i = [Created t g now id src cat]) by (unfold effect_of; rewrite Ht, En; reflexivity).
      assert (Ac : act_of m i = [ANew (c, cat) g now id src]) by (unfold act_of; rewrite Ht; reflexivity). rewrite Ac.
      destruct (so_created _ _ _ _ _ SO _ _ _ _ _ _ Eff) as (_ & Nt & Hin). rewrite Eff in V, Pl. cbn [fold_left apply] in V.
      assert (O : forall t', owner m' t' = if Nat.eqb t t' then Some (length (hm_handles m)) else owner m t') by (intros t'; apply last_index_app).
      assert (Cl : forall n, calls_through n (log ++ [ANew (c, cat) g now id src]) = calls_through n log) by (intros n; rewrite calls_snoc; apply app_nil_r).
      assert (Fin : forall n, nth_error (hm_handles m) n = Some t -> ~ unfinished log n).
      { intros n Hn Hu. destruct (j_open _ _ J n t Hn Hu) as [_ Q]. destruct Hin as [Hin|Hin]; [exact (Q Hin)|]. pose proof (i_handles m I t (nth_error_In _ _ Hn)). lia. }
      assert (Nb : ~ busy m t).
      { intros Q. destruct Hin as [Hin|Hin]; [exact (nodup_apart m t I Q Hin)|]. assert (In t (places m)) by (unfold places; apply in_or_app; right; apply in_or_app; exact Q).
        pose proof (i_places m I t H). lia. }
      assert (B : forall t', busy m' t' -> t' = t \/ busy m t').
      { intros t' [H|H]; [right; left; exact H|]. destruct (busy_threads m m' i _ _ _ _ Ht eq_refl t' H) as [[<-|[]]|Q]; [auto|right; right; exact Q]. }
      assert (Ow : forall t' n, owner m t' = Some n -> n <> length (hm_handles m)).
      { intros t' n H. apply last_index_nth in H. assert (n < length (hm_handles m)) by (apply nth_error_Some; congruence). lia. }
      assert (Fresh : calls_through (length (hm_handles m)) log = []).
      { apply (j_calls _ _ J). reflexivity. }
      constructor.
      * rewrite created_snoc, app_length, (j_len _ _ J). cbn. rewrite app_length. reflexivity.
      * intros n t' Hn. unfold unfinished. rewrite Cl. intros Hu. cbn [hm_handles m'] in Hn. rewrite O. destruct (Nat.lt_ge_cases n (length (hm_handles m))) as [Ln|Ln].
        -- rewrite nth_error_app1 in Hn by exact Ln. destruct (Nat.eqb_spec t t') as [<-|Ne]; [destruct (Fin n Hn Hu)|]. destruct (j_open _ _ J n t' Hn Hu) as [Q1 Q2].
           split; [exact Q1|]. intros Q. destruct (Pl t' Q) as [Q3|Q3]; [exact (Q2 Q3)|discriminate].
        -- rewrite nth_error_app2 in Hn by exact Ln. destruct (n - length (hm_handles m)) as [|[|?]] eqn:Ed; try discriminate. injection Hn as <-.
           rewrite Nat.eqb_refl. split; [f_equal; lia|exact Nt].
      * intros n t'. rewrite O, V. unfold unfinished. rewrite Cl. destruct (Nat.eqb_spec t t') as [<-|Ne].
        -- intros [= <-] _ _. exists (c, cat), g, now, id, src. rewrite Nat.eqb_refl. split.
           ++ rewrite created_snoc, nth_error_app2 by (rewrite (j_len _ _ J); reflexivity). rewrite (j_len _ _ J), Nat.sub_diag. reflexivity.
           ++ rewrite Cl, Fresh. reflexivity.
        -- intros H1 H2 H3. replace (Nat.eqb t' t) with false by (symmetry; apply Nat.eqb_neq; congruence). destruct (j_value _ _ J n t' H1) as (k & g' & now' & id' & src' & Q1 & Q2).
           ++ intros Q. assert (H3' : unfinished log n \/ busy m t') by (destruct H3 as [H3|H3]; [auto|destruct (B _ H3); [congruence|auto]]).
              destruct H3' as [H3'|H3']; [|exact (nodup_apart m t' I H3' Q)]. apply (j_open _ _ J n t'); [exact (last_index_nth _ _ _ H1)|exact H3'|exact Q].
           ++ destruct H3 as [H3|H3]; [auto|destruct (B _ H3); [congruence|auto]].
           ++ exists k, g', now', id', src'. split; [exact (creation_kept _ _ _ _ Q1)|]. rewrite Cl. exact Q2.
      * intros t' H. rewrite O. destruct (Nat.eqb_spec t t') as [<-|Ne]; [eauto|]. destruct (B t' H) as [->|Q]; [congruence|]. exact (j_owner _ _ J t' Q).
      * intros k r t' n H1 H2. rewrite O. destruct (Nat.eqb_spec t t') as [<-|Ne].
        -- destruct Nb. left. exact (ring_in_categories k _ r t H1 H2).
        -- intros H3. apply key_kept. exact (j_ring _ _ J k r t' n H1 H2 H3).
      * intros j t' k q n. cbn [hm_threads m']. unfold set_thread. rewrite nth_update_error, O. destruct (Nat.eqb i j) eqn:Ej.
        -- rewrite Ht. intros [= <- <- <-]. rewrite Nat.eqb_refl. intros [= <-]. rewrite created_snoc, nth_error_app2 by (rewrite (j_len _ _ J); reflexivity).
           rewrite (j_len _ _ J), Nat.sub_diag. reflexivity.
        -- intros H. destruct (Nat.eqb_spec t t') as [<-|Ne]; [destruct Nb; right; exact (way_in m j _ _ t H (or_introl eq_refl))|]. intros H1. apply key_kept. exact (j_adding _ _ J j t' k q n H H1).
      * intros k. cbn [hm_cats m']. rewrite added_snoc. cbn [added_to flat_map app]. rewrite app_nil_r. pose proof (j_order _ _ J k) as Q. destruct (get_ring k (hm_cats m)) as [r|] eqn:Er; [|exact Q].
        rewrite <- Q. apply map_ext_in. intros t' H. rewrite O. destruct (Nat.eqb_spec t t') as [<-|Ne]; [|reflexivity]. destruct Nb. left. exact (ring_in_categories k _ r t Er H).
      * intros n. cbn [hm_handles m']. rewrite app_length. cbn [length]. intros L. rewrite Cl. apply (j_calls _ _ J). lia.
      * exact (j_cap _ _ J).
    + (* a call *)
      destruct (nth_error (hm_handles m) n) as [t|] eqn:Hn.
      2: { injection E as <-. apply Stay; [unfold act_of; rewrite Ht, Hn; reflexivity|reflexivity]. }
      assert (Lt : t < length (h_traces (hm_heap m))) by (apply (i_handles m I); exact (nth_error_In _ _ Hn)).
      destruct (h_call_ok Sprintf CallersFrames t x ch _ (i_wf m I) Lt) as (h & evs & Ec & CO). rewrite Ec in E. cbn [bind] in E. injection E as <-. set (m' := MkHM _ _ _ _ _ _) in *.
      assert (Eff : effect_of m i = [Called t x]) by (unfold effect_of; rewrite Ht, Hn; reflexivity).
      assert (Ac : act_of m i = [ACall n x]) by (unfold act_of; rewrite Ht, Hn; reflexivity). rewrite Ac. rewrite Eff in V, Pl. cbn [fold_left apply] in V.
      assert (On : owner m t = Some n).
      { unfold use_ok in Us. rewrite Ht in Us. destruct (Us t Hn) as [Q|[Q _]]; [|exact Q]. apply (j_open _ _ J n t Hn Q). }
      apply (keep log _ m m' I J); try reflexivity.
      * intros n' L. rewrite calls_one. destruct (Nat.eqb_spec n n') as [<-|_]; [|reflexivity]. apply nth_error_None in L. congruence.
      * intros t' H. destruct (busy_threads m m' i _ _ _ _ Ht eq_refl t' H) as [[]|Q]; exact Q.
      * apply (adding_threads m m' i _ _ _ _ Ht eq_refl). discriminate.
      * intros t' H. destruct (Pl t' H); [auto|discriminate].
      * intros t' n' Ho _ _ _. rewrite V, calls_one. destruct (Nat.eqb_spec t' t) as [->|Ne].
        -- rewrite On in Ho. injection Ho as <-. rewrite Nat.eqb_refl. reflexivity.
        -- destruct (Nat.eqb_spec n n') as [<-|_]; [|reflexivity]. apply last_index_nth in Ho. congruence.
    + (* SetCategorySize *)
      assert (Ac : act_of m i = []) by (unfold act_of; rewrite Ht; reflexivity). rewrite Ac.
      assert (Eff : effect_of m i = []) by (unfold effect_of; rewrite Ht; reflexivity). rewrite Eff in V, Pl.
      destruct (cap <=? 0)%Z; injection E as <-; set (m' := MkHM _ _ _ _ _ _) in *; apply (keep log _ m m' I J); try reflexivity.
      * intros t' H. destruct (busy_threads m m' i _ _ _ _ Ht eq_refl t' H) as [[]|Q]; exact Q.
      * apply (adding_threads m m' i _ _ _ _ Ht eq_refl). discriminate.
      * auto.
      * intros t' H. destruct (busy_threads m m' i _ _ _ _ Ht eq_refl t' H) as [[]|Q]; exact Q.
      * apply (adding_threads m m' i _ _ _ _ Ht eq_refl). discriminate.
      * auto.
    + (* the garbage collector *)
      assert (Ac : act_of m i = []) by (unfold act_of; rewrite Ht; reflexivity). rewrite Ac.
      assert (Eff : effect_of m i = []) by (unfold effect_of; rewrite Ht; reflexivity). rewrite Eff in V, Pl.
      injection E as <-; set (m' := MkHM _ _ _ _ _ _) in *; apply (keep log _ m m' I J); try reflexivity.
      * intros t' H. destruct (busy_threads m m' i _ _ _ _ Ht eq_refl t' H) as [[]|Q]; exact Q.
      * apply (adding_threads m m' i _ _ _ _ Ht eq_refl). discriminate.
      * intros t' H. destruct (Pl t' H); [auto|discriminate].
  - (* Add *)
    destruct (j_owner _ _ J t) as [n On]; [right; exact (way_in m i _ _ t Ht (or_introl eq_refl))|].
    assert (Ac : act_of m i = [AAdd key n]) by (unfold act_of; rewrite Ht, On; reflexivity). rewrite Ac.
    destruct (get_ring key (get_or_create key (hm_sizes m (fst key)) (hm_cats m))) as [r|] eqn:Er; [|destruct (get_created _ _ _ Er)].
    destruct (bl_add 0 r t) as [r' out] eqn:Ea. destruct (bl_add_items _ _ _ _ Ea) as [lost Pa]. injection E as <-. set (m' := MkHM _ _ _ _ _ _) in *.
    pose proof (set_ring_items key r r' _ Er) as Pr. rewrite items_created in Pr.
    assert (Tb : In t (with_goroutines m)) by exact (way_in m i _ _ t Ht (or_introl eq_refl)).
    assert (Ri : forall t', In t' (bl_items r) -> In t' (in_categories m)).
    { intros t' H. pose proof (ring_in_categories _ _ _ _ Er H) as Q. rewrite items_created in Q. exact Q. }
    assert (Ord : map (owner m) (bl_items r) = map Some (firstn (length (bl_items r)) (rev (added_to key log)))).
    { pose proof (j_order _ _ J key) as Q. unfold get_or_create in Er. destruct (get_ring key (hm_cats m)) as [r0|] eqn:E0; [congruence|].
      rewrite get_ring_app, E0 in Er. cbn [get_ring] in Er. rewrite (proj2 (key_eq_spec key key) eq_refl) in Er. injection Er as <-. reflexivity. }
    assert (Keys : forall t' n', In t' (bl_items r) -> owner m t' = Some n' -> option_map (fun x => fst (fst (fst (fst x)))) (nth_error (creations log) n') = Some key).
    { intros t' n' H1 H2. unfold get_or_create in Er. destruct (get_ring key (hm_cats m)) as [r0|] eqn:E0.
      - rewrite E0 in Er. injection Er as ->. exact (j_ring _ _ J key r t' n' E0 H1 H2).
      - rewrite get_ring_app, E0 in Er. cbn [get_ring] in Er. rewrite (proj2 (key_eq_spec key key) eq_refl) in Er. injection Er as <-. destruct H1. }
    assert (Capr : length (bl_items r) <= bl_cap r).
    { unfold get_or_create in Er. destruct (get_ring key (hm_cats m)) as [r0|] eqn:E0; [exact (j_cap _ _ J key r Er)|].
      rewrite get_ring_app, E0 in Er. cbn [get_ring] in Er. rewrite (proj2 (key_eq_spec key key) eq_refl) in Er. injection Er as <-. cbn. lia. }
    assert (Add1 : added_to key (log ++ [AAdd key n]) = added_to key log ++ [n]).
    { rewrite added_snoc. cbn. rewrite (proj2 (key_eq_spec key key) eq_refl). reflexivity. }
    apply (ring_changed log _ m m' key r' I J); try reflexivity.
    + intros k. cbn [hm_cats m']. rewrite get_ring_set by (rewrite Er; discriminate). destruct (key_eq k key) eqn:Ek; [reflexivity|].
      unfold get_or_create. destruct (get_ring key (hm_cats m)); [reflexivity|]. rewrite get_ring_app. destruct (get_ring k (hm_cats m)); [reflexivity|]. cbn [get_ring]. rewrite Ek. reflexivity.
    + intros k Ek. cbn. destruct (key_eq key k) eqn:Ek'; [|reflexivity]. apply key_eq_spec in Ek' as ->. rewrite (proj2 (key_eq_spec k k) eq_refl) in Ek. discriminate.
    + intros t' H. assert (Q : In t' (bl_items r' ++ flat_map (fun kr => bl_items (snd kr)) (hm_cats m))).
      { apply (Permutation_in _ (Permutation_sym Pr)). apply in_or_app. right. exact H. }
      apply in_app_or in Q as [Q|Q]; [|left; exact Q]. assert (Q' : In t' (t :: bl_items r)) by (apply (Permutation_in _ (Permutation_sym Pa)); apply in_or_app; auto).
      destruct Q' as [<-|Q']; [right; exact Tb|left; exact (Ri _ Q')].
    + intros t' H. destruct (busy_threads m m' i _ _ _ _ Ht eq_refl t' H) as [Q|Q]; [|right; exact Q]. rewrite finish_state_way in Q.
      assert (Q' : In t' (t :: bl_items r)) by (apply (Permutation_in _ (Permutation_sym Pa)); apply in_or_app; right; apply in_or_app; auto).
      destruct Q' as [<-|Q']; [right; exact Tb|left; exact (Ri _ Q')].
    + apply (adding_threads m m' i _ _ _ _ Ht eq_refl). intros t' k. apply finish_not_adding.
    + intros t' n' H1 H2. assert (Q' : In t' (t :: bl_items r)) by (apply (Permutation_in _ (Permutation_sym Pa)); apply in_or_app; auto).
      destruct Q' as [<-|Q']; [|exact (Keys t' n' Q' H2)]. exact (j_adding _ _ J i t key _ n' Ht H2).
    + rewrite Add1, rev_app_distr. cbn [rev app]. revert Ea. unfold bl_add. destruct (bl_cap r) as [|cp]; [intros [= <- _]|].
      * destruct (bl_items r); [reflexivity|cbn in Capr; lia].
      * destruct (Nat.eqb_spec (length (bl_items r)) (S cp)) as [El|_]; intros [= <- _]; cbn [bl_items map length firstn]; f_equal; try exact On; [|exact Ord].
        rewrite (removelast_len _ _ El), map_firstn, Ord, <- map_firstn, firstn_firstn, firstn_length. do 2 f_equal; lia.
    + revert Ea. unfold bl_add. destruct (bl_cap r) as [|cp] eqn:Ec; [intros [= <- _]; lia|].
      destruct (Nat.eqb_spec (length (bl_items r)) (S cp)) as [El|Nl]; intros [= <- _]; cbn [bl_items bl_cap length]; [rewrite (removelast_len _ _ El), firstn_length|]; lia.
  - (* Resize *)
    assert (Ac : act_of m i = []) by (unfold act_of; rewrite Ht; reflexivity). rewrite Ac.
    assert (Eff : effect_of m i = []) by (unfold effect_of; rewrite Ht; reflexivity). rewrite Eff in V, Pl.
    destruct ks as [|k ks].
    + injection E as <-; set (m' := MkHM _ _ _ _ _ _) in *; apply (keep log _ m m' I J); try reflexivity.
      * intros t' H. destruct (busy_threads m m' i _ _ _ _ Ht eq_refl t' H) as [Q|Q]; [|exact Q]. rewrite finish_state_way in Q. exact (way_in m i _ _ t' Ht Q).
      * apply (adding_threads m m' i _ _ _ _ Ht eq_refl). intros t' k. apply finish_not_adding.
      * auto.
    + destruct (get_ring k (hm_cats m)) as [r|] eqn:Er; [|discriminate]. destruct (bl_resize r cap) as [r' out] eqn:Ea. pose proof (bl_resize_items _ _ _ _ Ea) as Pa.
      injection E as <-. set (m' := MkHM _ _ _ _ _ _) in *. pose proof (set_ring_items k r r' _ Er) as Pr.
      apply (ring_changed log _ m m' k r' I J); try reflexivity.
      * intros k'. cbn [hm_cats m']. apply get_ring_set. rewrite Er. discriminate.
      * intros t' H. assert (Q : In t' (bl_items r' ++ flat_map (fun kr => bl_items (snd kr)) (hm_cats m))).
        { apply (Permutation_in _ (Permutation_sym Pr)). apply in_or_app. right. exact H. }
        left. apply in_app_or in Q as [Q|Q]; [|exact Q]. apply (ring_in_categories k _ r t' Er). apply (Permutation_in _ (Permutation_sym Pa)). apply in_or_app. auto.
      * intros t' H. destruct (busy_threads m m' i _ _ _ _ Ht eq_refl t' H) as [Q|Q]; [|right; exact Q]. cbn [on_the_way] in Q.
        apply in_app_or in Q as [Q|Q]; [right; exact (way_in m i _ _ t' Ht Q)|]. left. apply (ring_in_categories k _ r t' Er). apply (Permutation_in _ (Permutation_sym Pa)). apply in_or_app. auto.
      * apply (adding_threads m m' i _ _ _ _ Ht eq_refl). discriminate.
      * intros t' n' H1 H2. apply (j_ring _ _ J k r t' n' Er); [|exact H2]. apply (Permutation_in _ (Permutation_sym Pa)). apply in_or_app. auto.
      * rewrite app_nil_r. pose proof (j_order _ _ J k) as Q. rewrite Er in Q. revert Ea. unfold bl_resize. destruct (cap <=? 0)%Z; intros [= <- _]; [exact Q|]. cbn [bl_items].
        rewrite map_firstn, Q, <- map_firstn, firstn_firstn, firstn_length. do 2 f_equal; lia.
      * pose proof (j_cap _ _ J k r Er) as Q. revert Ea. unfold bl_resize. destruct (cap <=? 0)%Z; intros [= <- _]; [exact Q|]. cbn [bl_items bl_cap]. rewrite firstn_length. lia.
  - (* Free *)
    assert (Ac : act_of m i = []) by (unfold act_of; rewrite Ht; reflexivity). rewrite Ac.
    destruct ts as [|t ts].
    + assert (Eff : effect_of m i = []) by (unfold effect_of; rewrite Ht; reflexivity). rewrite Eff in V, Pl.
      injection E as <-; set (m' := MkHM _ _ _ _ _ _) in *; apply (keep log _ m m' I J); try reflexivity.
      * intros t' H. destruct (busy_threads m m' i _ _ _ _ Ht eq_refl t' H) as [[]|Q]; exact Q.
      * apply (adding_threads m m' i _ _ _ _ Ht eq_refl). discriminate.
      * auto.
    + assert (Eff : effect_of m i = [Freed t]) by (unfold effect_of; rewrite Ht; reflexivity). rewrite Eff in V, Pl. cbn [fold_left apply] in V.
      assert (Tb : In t (with_goroutines m)) by exact (way_in m i _ _ t Ht (or_introl eq_refl)).
      destruct (j_owner _ _ J t (or_intror Tb)) as [n On]. assert (Np : ~ In t (in_pool m)) by exact (nodup_apart m t I (or_intror Tb)).
      destruct (j_value _ _ J n t On Np (or_intror (or_intror Tb))) as (k & g & now & id & src & Q1 & Q2).
      assert (Fin : ct_finished (trace_value (hm_heap m) t) = existsb is_finish (calls_through n log)) by (rewrite Q2; apply C07_finished_iff_finish_called).
      destruct (h_free t (hm_heap m)) as [h|] eqn:Ef; [|discriminate]. cbn [bind] in E. injection E as <-. set (m' := MkHM _ _ _ _ _ _) in *.
      apply (keep log _ m m' I J); try reflexivity.
      * intros t' H. destruct (busy_threads m m' i _ _ _ _ Ht eq_refl t' H) as [Q|Q]; [|exact Q]. rewrite finish_state_way in Q. exact (way_in m i _ _ t' Ht (or_intror Q)).
      * apply (adding_threads m m' i _ _ _ _ Ht eq_refl). intros t' k'. apply finish_not_adding.
      * intros t' H. destruct (Pl t' H) as [Q|Q]; [auto|]. injection Q as <-. right. exists n. split; [exact On|]. unfold unfinished. rewrite <- Fin. intros F.
        unfold h_free in Ef. change (ct_finished (trace_value (hm_heap m) t)) with (ct_finished (to_head (nth t (h_traces (hm_heap m)) zeroTO))) in F. rewrite F in Ef. injection Ef as <-. exact (Np H).
      * intros t' n' Ho _ Np' Hb. rewrite V, run_nil. destruct (Nat.eqb_spec t' t) as [->|Ne]; [|reflexivity].
        unfold M_Trace.Free. destruct (ct_finished (trace_value (hm_heap m) t)) eqn:F; [|reflexivity]. destruct Np'. unfold h_free in Ef. cbn [in_pool hm_heap m'].
        change (ct_finished (trace_value (hm_heap m) t)) with (ct_finished (to_head (nth t (h_traces (hm_heap m)) zeroTO))) in F. rewrite F in Ef. cbn [negb] in Ef.
        destruct (h_free_events _ _) as [h2|]; [|discriminate]. cbn [bind] in Ef. injection Ef as <-. left. reflexivity.
Qed.

Lemma sound_run sched : forall log m m', inv m -> sound log m -> proper log sched m -> h_run sched m = Ok m' -> inv m' /\ sound (log ++ acts sched m) m'.
Proof.
  induction sched as [|i sched IH]; intros log m m' I J P R; cbn [M_Heap.h_run S_System.acts] in *.
  - injection R as <-. rewrite app_nil_r. auto.
  - cbn [S_System.proper] in P. destruct P as [P1 P2]. destruct (h_step m i) as [m1|] eqn:E; [|discriminate]. cbn [bind] in R.
    pose proof (inv_step Sprintf CallersFrames _ _ _ I (step_fun Sprintf CallersFrames _ _ _ I E)) as I1.
    pose proof (sound_step log m i m1 I J P1 E) as J1. destruct (IH _ m1 m' I1 J1 P2 R) as [Q1 Q2]. rewrite <- app_assoc in Q2. auto.
Qed.

(** Nobody changes the category size. *)
Record plain (log : list act) (m : machine) : Prop := {
  p_threads : forall j s p, nth_error (hm_threads m) j = Some (s, p) -> keeps_size p /\ match s with HResizing _ _ _ => False | _ => True end;
  p_sizes : forall c, hm_sizes m c = 1000%Z;
  p_rings : forall k r, get_ring k (hm_cats m) = Some r -> bl_cap r = Z.to_nat 1000 /\ length (bl_items r) = Nat.min (Z.to_nat 1000) (length (added_to k log))
}.
Lemma plain_start programs : Forall keeps_size programs -> plain [] (hm_start programs).
Proof.
  intros H. constructor.
  - intros j s p E. cbn in E. apply nth_error_In, in_map_iff in E as (q & E & Hq). injection E as <- <-. rewrite Forall_forall in H. auto.
  - reflexivity.
  - discriminate.
Qed.
Lemma plain_same log (a : list act) (m m' : machine) i s p s' p' : plain log m -> nth_error (hm_threads m) i = Some (s, p) -> hm_threads m' = set_thread m i s' p' -> hm_sizes m' = hm_sizes m ->
  hm_cats m' = hm_cats m -> (forall k, added_to k a = []) -> keeps_size p' -> match s' with HResizing _ _ _ => False | _ => True end -> plain (log ++ a) m'.
Proof.
  intros P Ht Ht' Hs Hc Ad Hp Hs'. constructor.
  - intros j s0 p0. rewrite Ht'. unfold set_thread. rewrite nth_update_error. destruct (Nat.eqb i j); [rewrite Ht; intros [= <- <-]; auto|]. apply (p_threads _ _ P).
  - rewrite Hs. exact (p_sizes _ _ P).
  - intros k r. rewrite Hc, added_snoc, Ad, app_nil_r. exact (p_rings _ _ P k r).
Qed.
Lemma plain_step log m i m' : inv m -> sound log m -> plain log m -> h_step m i = Ok m' -> plain (log ++ act_of m i) m'.
Proof.
  intros I J P E. unfold h_step in E. destruct (nth_error (hm_threads m) i) as [[s prog]|] eqn:Ht.
  2: { injection E as <-. unfold act_of. rewrite Ht, app_nil_r. exact P. }
  destruct (p_threads _ _ P _ _ _ Ht) as [Kp Ks]. unfold act_of. rewrite Ht.
  destruct s as [|t key|ks cap dropped|ts]; [| |destruct Ks|].
  - destruct prog as [|[c cat g now id src pick|n x ch|c cap|kt ke kz] p].
    + injection E as <-. rewrite app_nil_r. exact P.
    + destruct (h_new g now id pick src cat (hm_heap m)) as [h t]. injection E as <-. inversion Kp. eapply (plain_same log _ m); try reflexivity; eauto.
    + inversion Kp. destruct (nth_error (hm_handles m) n) as [t|]; [|injection E as <-; rewrite app_nil_r; exact P].
      destruct (h_call Sprintf CallersFrames t x ch (hm_heap m)) as [[h evs]|]; [|discriminate]. cbn [bind] in E. injection E as <-. eapply (plain_same log _ m); try reflexivity; eauto.
    + inversion Kp. contradiction.
    + inversion Kp. injection E as <-. eapply (plain_same log _ m); try reflexivity; eauto.
  - destruct (j_owner _ _ J t) as [n On]; [right; exact (way_in m i _ _ t Ht (or_introl eq_refl))|]. rewrite On.
    destruct (get_ring key (get_or_create key (hm_sizes m (fst key)) (hm_cats m))) as [r|] eqn:Er; [|discriminate].
    destruct (bl_add 0 r t) as [r' out] eqn:Ea. injection E as <-.
    assert (Hr : bl_cap r = Z.to_nat 1000 /\ length (bl_items r) = Nat.min (Z.to_nat 1000) (length (added_to key log))).
    { pose proof (j_order _ _ J key) as Q. unfold get_or_create in Er. destruct (get_ring key (hm_cats m)) as [r0|] eqn:E0; [rewrite E0 in Er; injection Er as ->; exact (p_rings _ _ P key r E0)|].
      rewrite get_ring_app, E0 in Er. cbn [get_ring] in Er. rewrite (proj2 (key_eq_spec key key) eq_refl) in Er. injection Er as <-. rewrite Q, (p_sizes _ _ P). cbn [bl_cap bl_items length]. lia. }
    constructor; cbn [hm_threads hm_sizes hm_cats].
    + intros j s p. unfold set_thread. rewrite nth_update_error. destruct (Nat.eqb i j); [rewrite Ht; intros [= <- <-]|apply (p_threads _ _ P)]. split; [exact Kp|].
      destruct (match out with RAdd d true => [d] | _ => [] end); exact Logic.I.
    + exact (p_sizes _ _ P).
    + intros k q. rewrite get_ring_set by (rewrite Er; discriminate). rewrite added_snoc. destruct (key_eq k key) eqn:Ek.
      * apply key_eq_spec in Ek as ->. intros [= <-]. rewrite added_one, (proj2 (key_eq_spec key key) eq_refl), app_length. cbn [length].
        destruct Hr as [H1 H2]. revert Ea. unfold bl_add. rewrite H1. generalize (length (added_to key log)) H2. destruct (Z.to_nat 1000) as [|cp] eqn:Ez; [apply (f_equal Z.of_nat) in Ez; rewrite Z2Nat.id in Ez by lia; discriminate|].
        intros na Hl. destruct (Nat.eqb_spec (length (bl_items r)) (S cp)) as [El|Nl]; intros [= <- _]; cbn [bl_cap bl_items length]; (split; [reflexivity|]); [rewrite (removelast_len _ _ El), firstn_length|]; lia.
      * assert (Ek' : key_eq key k = false). { destruct (key_eq key k) eqn:Q; [|reflexivity]. apply key_eq_spec in Q as ->. rewrite (proj2 (key_eq_spec k k) eq_refl) in Ek. discriminate. }
        rewrite added_one, Ek', app_nil_r. intros Hq. apply (p_rings _ _ P k q). revert Hq. unfold get_or_create. destruct (get_ring key (hm_cats m)); [auto|]. rewrite get_ring_app.
        destruct (get_ring k (hm_cats m)); [auto|]. cbn [get_ring]. rewrite Ek. discriminate.
  - destruct ts as [|t ts]; [injection E as <-; eapply (plain_same log _ m); try reflexivity; eauto|].
    destruct (h_free t (hm_heap m)) as [h|]; [|discriminate]. cbn [bind] in E. injection E as <-. eapply (plain_same log _ m); try reflexivity; eauto. destruct ts; exact Logic.I.
Qed.
Lemma plain_run sched : forall log m m', inv m -> sound log m -> plain log m -> proper log sched m -> h_run sched m = Ok m' -> plain (log ++ acts sched m) m'.
Proof.
  induction sched as [|i sched IH]; intros log m m' I J Pl P R; cbn [M_Heap.h_run S_System.acts] in *.
  - injection R as <-. rewrite app_nil_r. auto.
  - cbn [S_System.proper] in P. destruct P as [P1 P2]. destruct (h_step m i) as [m1|] eqn:E; [|discriminate]. cbn [bind] in R.
    pose proof (inv_step Sprintf CallersFrames _ _ _ I (step_fun Sprintf CallersFrames _ _ _ I E)) as I1.
    pose proof (sound_step log m i m1 I J P1 E) as J1. rewrite app_assoc. exact (IH _ m1 m' I1 J1 (plain_step log m i m1 I J Pl E) P2 R).
Qed.

Lemma seen_told er log n key c : should_be log n key c -> seen Sprintf CallersFrames er c = told Sprintf CallersFrames er log n.
Proof.
  intros (g & now & id & src & Hn & ->). unfold seen, told. rewrite Hn. cbv zeta.
  rewrite C07_finished_iff_finish_called, C07_errored_iff_error_call_before_finish, C10_duration.
  destruct (run_const Sprintf CallersFrames (calls_through n log) (newCoreTrace g now id zeroCoreTrace src (snd key))) as (Q1 & Q2 & Q3 & Q4 & _).
  unfold Source, ID, Category, Started. rewrite Q1, Q2, Q3, Q4. reflexivity.
Qed.
End Proofs.

(** However goroutines that create traces, use them and change category sizes are
    interleaved: every category holds the traces last put into it, newest first, and each is
    exactly what the calls made through it say, from how it was created; pools, recycled
    objects and the calls on other traces do not show. *)
Theorem C75_held_traces :
  forall (arg world pc : Type) (Sprintf : world -> string -> list arg -> string) (CallersFrames : list pc -> list rframe)
         (programs : list (list (hop arg world pc))) (sched : list nat),
    proper Sprintf CallersFrames [] sched (hm_start programs) ->
    let log := acts Sprintf CallersFrames sched (hm_start programs) in
    exists m, h_run Sprintf CallersFrames sched (hm_start programs) = Ok m /\
      forall key,
        match get_ring key (hm_cats m) with
        | None => added_to key log = []
        | Some r => Forall2 (fun t n => owner m t = Some n /\ should_be Sprintf CallersFrames log n key (trace_value (hm_heap m) t))
                            (bl_items r) (firstn (length (bl_items r)) (rev (added_to key log)))
        end.
Proof.
  intros arg world pc Sp CF programs sched P log. destruct (run_ok Sp CF sched _ (inv_start programs)) as (m & R & _). exists m. split; [exact R|].
  destruct (sound_run Sp CF sched [] _ m (inv_start programs) (sound_start Sp CF programs) P R) as [I J]. cbn [app] in J. fold log in J. intros key.
  pose proof (j_order _ _ _ _ J key) as Q. destruct (get_ring key (hm_cats m)) as [r|] eqn:Er; [|exact Q].
  assert (Hin : forall t, In t (bl_items r) -> In t (bl_items r)) by auto.
  assert (Gen : forall l ns, (forall t, In t l -> In t (bl_items r)) -> map (owner m) l = map Some ns ->
    Forall2 (fun t n => owner m t = Some n /\ should_be Sp CF log n key (trace_value (hm_heap m) t)) l ns); [|exact (Gen _ _ Hin Q)].
  clear Hin Q. induction l as [|t l IH]; intros [|n ns] Hin Q; try discriminate; [constructor|]. cbn [map] in Q. injection Q as Q1 Q2. constructor.
  - split; [exact Q1|]. pose proof (Hin t (or_introl eq_refl)) as Ht. pose proof (ring_in_categories key _ r t Er Ht) as Hc.
    destruct (j_value _ _ _ _ J n t Q1) as (k & Q); [apply (nodup_apart m t I); left; exact Hc|right; left; exact Hc|].
    pose proof (j_ring _ _ _ _ J key r t n Er Ht Q1) as Hk. destruct Q as (g & now & id & src & H1 & H2). rewrite H1 in Hk. cbn in Hk. injection Hk as ->.
    exists g, now, id, src. auto.
  - apply IH; [intros t' H; apply Hin; right; exact H|exact Q2].
Qed.
Print Assumptions C75_held_traces.

(** A trace that is not finished is exactly that too, for whoever has it, also after the
    collector dropped it. *)
Theorem C75_unfinished_traces :
  forall (arg world pc : Type) (Sprintf : world -> string -> list arg -> string) (CallersFrames : list pc -> list rframe)
         (programs : list (list (hop arg world pc))) (sched : list nat) m n t,
    proper Sprintf CallersFrames [] sched (hm_start programs) -> h_run Sprintf CallersFrames sched (hm_start programs) = Ok m ->
    let log := acts Sprintf CallersFrames sched (hm_start programs) in
    nth_error (hm_handles m) n = Some t -> existsb is_finish (calls_through n log) = false ->
    exists key, should_be Sprintf CallersFrames log n key (trace_value (hm_heap m) t).
Proof.
  intros arg world pc Sp CF programs sched m n t P R log Hn Hu.
  destruct (sound_run Sp CF sched [] _ m (inv_start programs) (sound_start Sp CF programs) P R) as [I J]. cbn [app] in J. fold log in J.
  destruct (j_open _ _ _ _ J n t Hn Hu) as [Q1 Q2]. exact (j_value _ _ _ _ J n t Q1 Q2 (or_introl Hu)).
Qed.
Print Assumptions C75_unfinished_traces.

(** Every Events call returned what the calls before it on that trace say. *)
Theorem C75_reads :
  forall (arg world pc : Type) (Sprintf : world -> string -> list arg -> string) (CallersFrames : list pc -> list rframe)
         (programs : list (list (hop arg world pc))) (sched : list nat) m i m' n e k stacks evs,
    proper Sprintf CallersFrames [] (sched ++ [i]) (hm_start programs) -> h_run Sprintf CallersFrames sched (hm_start programs) = Ok m ->
    h_step Sprintf CallersFrames m i = Ok m' -> hm_results m' = hm_results m ++ [(n, e, k, stacks, evs)] ->
    let log := acts Sprintf CallersFrames sched (hm_start programs) in
    exists key c, should_be Sprintf CallersFrames log n key c /\
      map (hevent_value (hm_heap m')) evs = snd (EventsDetail Sprintf CallersFrames e k stacks c).
Proof.
  intros arg world pc Sp CF programs sched m i m' n e k st evs P R S Hr log.
  assert (P12 : proper Sp CF [] sched (hm_start programs) /\ use_ok log m i).
  { clear S Hr. subst log. change (acts Sp CF sched (hm_start programs)) with ([] ++ acts Sp CF sched (hm_start programs)). revert P R. generalize (hm_start programs) at 1 2 3 4 as m0. generalize (@nil (act arg world pc)) as log.
    induction sched as [|j sched IH]; intros log m0 P R; cbn [app S_System.proper acts M_Heap.h_run] in *.
    - injection R as <-. rewrite app_nil_r. tauto.
    - destruct P as [P1 P2]. destruct (h_step Sp CF m0 j) as [m1|]; [|discriminate]. cbn [bind] in R. destruct (IH _ m1 P2 R) as [Q1 Q2]. rewrite <- app_assoc in Q2. auto. }
  destruct P12 as [P1 P2]. destruct (sound_run Sp CF sched [] _ m (inv_start programs) (sound_start Sp CF programs) P1 R) as [I J]. cbn [app] in J. fold log in J.
  pose proof (step_fun Sp CF _ _ _ I S) as SO.
  destruct (so_results _ _ _ _ _ SO) as [Q|(n' & e' & k' & st' & evs' & t & Q & Hn & Eff & A & _)]; rewrite Q in Hr.
  { apply (f_equal (@length _)) in Hr. rewrite app_length in Hr. cbn in Hr. lia. }
  apply app_inj_tail in Hr. destruct Hr as [_ Hr]. injection Hr as -> -> -> -> ->.
  assert (U : existsb is_finish (calls_through n log) = false \/ (owner m t = Some n /\ In t (in_categories m))).
  { unfold effect_of in Eff. unfold use_ok in P2. unfold h_step in S. destruct (nth_error (hm_threads m) i) as [[[|? ?|? ? ?|[|? ?]] [|[] ?]]|]; try discriminate.
    destruct (nth_error (hm_handles m) handle) as [t'|] eqn:Eh; [|discriminate]. injection Eff as -> ->.
    destruct (h_call Sp CF t (e, CallEvents k st) ch (hm_heap m)) as [[h evs2]|]; [|discriminate]. cbn [bind snd fst] in S. injection S as <-. cbn [hm_results] in Q.
    apply app_inj_tail in Q. destruct Q as [_ Q]. injection Q as -> _. apply P2. reflexivity. }
  assert (V : exists key, should_be Sp CF log n key (trace_value (hm_heap m) t)).
  { destruct U as [U|[U1 U2]].
    - destruct (j_open _ _ _ _ J n t Hn U) as [Q1 Q2]. exact (j_value _ _ _ _ J n t Q1 Q2 (or_introl U)).
    - apply (j_value _ _ _ _ J n t U1); [apply (nodup_apart m t I); left; exact U2|right; left; exact U2]. }
  destruct V as [key V]. exists key, (trace_value (hm_heap m) t). split; [exact V|exact A].
Qed.
Print Assumptions C75_reads.

(** *** Reading under the lock of a category *)
(** The next step of goroutine i changes the category, for which it needs its lock
    (ringbuffer.go:32, 96). *)
Definition touches {arg world pc} (key : nat * string) (m : machine arg world pc) (i : nat) : bool :=
  match nth_error (hm_threads m) i with
  | Some (HAdding _ k, _) => key_eq k key
  | Some (HResizing (k :: _) _ _, _) => key_eq k key
  | _ => false
  end.
Fixpoint untouched {arg world pc} (Sprintf : world -> string -> list arg -> string) (CallersFrames : list pc -> list rframe) (key : nat * string) (sched : list nat) (m : machine arg world pc) : Prop :=
  match sched with
  | [] => True
  | i :: sched => touches key m i = false /\ match h_step Sprintf CallersFrames m i with Ok m => untouched Sprintf CallersFrames key sched m | Panic => True end
  end.
(** A search holds the lock of a category while it reads its traces (ringbuffer.go:131-152).
    During that time, whatever other goroutines do elsewhere, the category is what it was, its
    traces stay held and are not given to anybody else: all these reads are proper use. *)
Theorem C75_walk :
  forall (arg world pc : Type) (Sprintf : world -> string -> list arg -> string) (CallersFrames : list pc -> list rframe)
         (programs : list (list (hop arg world pc))) (sched walk : list nat) m m' key r,
    h_run Sprintf CallersFrames sched (hm_start programs) = Ok m -> get_ring key (hm_cats m) = Some r ->
    untouched Sprintf CallersFrames key walk m -> h_run Sprintf CallersFrames walk m = Ok m' ->
    get_ring key (hm_cats m') = Some r /\ (forall t, In t (bl_items r) -> In t (in_categories m') /\ owner m' t = owner m t).
Proof.
  intros arg world pc Sp CF programs sched walk m m' key r R. destruct (run_fun Sp CF _ _ _ (inv_start programs) R) as [I _]. clear R.
  revert m I. induction walk as [|i walk IH]; intros m I Er Hu R; cbn [untouched M_Heap.h_run] in *.
  - injection R as <-. split; [exact Er|]. intros t Ht. split; [exact (ring_in_categories key _ r t Er Ht)|reflexivity].
  - destruct Hu as [Ht Hu]. destruct (h_step Sp CF m i) as [m1|] eqn:E; [|discriminate]. cbn [bind] in R. pose proof (step_fun Sp CF _ _ _ I E) as SO.
    assert (Er1 : get_ring key (hm_cats m1) = Some r).
    { unfold touches in Ht. unfold h_step in E. destruct (nth_error (hm_threads m) i) as [[s prog]|]; [|injection E as <-; exact Er]. destruct s as [|t k|ks cap dropped|ts].
      - destruct prog as [|[c cat g now id src pick|n x ch|c cap|kt ke kz] p]; try (injection E as <-; exact Er).
        + destruct (h_new g now id pick src cat (hm_heap m)). injection E as <-. exact Er.
        + destruct (nth_error (hm_handles m) n); [|injection E as <-; exact Er]. destruct (h_call _ _ _ _ _ _) as [[h evs]|]; [|discriminate]. injection E as <-. exact Er.
        + destruct (cap <=? 0)%Z; injection E as <-; exact Er.
      - destruct (get_ring k (get_or_create k (hm_sizes m (fst k)) (hm_cats m))) as [r0|] eqn:E0; [|discriminate]. destruct (bl_add 0 r0 t) as [r' out]. injection E as <-. cbn [hm_cats].
        rewrite get_ring_set by (rewrite E0; discriminate). destruct (key_eq key k) eqn:Ek; [apply key_eq_spec in Ek as ->; rewrite (proj2 (key_eq_spec k k) eq_refl) in Ht; discriminate|].
        unfold get_or_create. destruct (get_ring k (hm_cats m)); [exact Er|]. rewrite get_ring_app, Er. reflexivity.
      - destruct ks as [|k ks]; [injection E as <-; exact Er|]. destruct (get_ring k (hm_cats m)) as [r0|] eqn:E0; [|discriminate]. destruct (bl_resize r0 cap) as [r' out]. injection E as <-. cbn [hm_cats].
        rewrite get_ring_set by (rewrite E0; discriminate). destruct (key_eq key k) eqn:Ek; [apply key_eq_spec in Ek as ->; rewrite (proj2 (key_eq_spec k k) eq_refl) in Ht; discriminate|exact Er].
      - destruct ts as [|t ts]; [injection E as <-; exact Er|]. destruct (h_free t (hm_heap m)); [|discriminate]. injection E as <-. exact Er. }
    destruct (IH m1 (inv_step Sp CF _ _ _ I SO) Er1 Hu R) as [Q1 Q2]. split; [exact Q1|]. intros t Hin. destruct (Q2 t Hin) as [Q3 Q4]. split; [exact Q3|]. rewrite Q4.
    unfold owner. rewrite (so_handles _ _ _ _ _ SO). destruct (effect_of_one m i) as [Ee|[x Ee]]; rewrite Ee; [cbn; rewrite app_nil_r; reflexivity|].
    destruct x as [t' g now id src cat| |]; cbn [flat_map app]; rewrite ?app_nil_r; try reflexivity. rewrite last_index_app. destruct (Nat.eqb_spec t' t) as [->|_]; [|reflexivity].
    destruct (so_created _ _ _ _ _ SO _ _ _ _ _ _ Ee) as (_ & _ & Hc). pose proof (ring_in_categories key _ r t Er Hin) as Hcat. destruct Hc as [Hc|Hc]; [destruct (nodup_apart m t I (or_introl Hcat) Hc)|].
    assert (Hp : In t (places m)) by (unfold places; apply in_or_app; right; apply in_or_app; left; exact Hcat). pose proof (i_places m I t Hp). lia.
Qed.
Print Assumptions C75_walk.

(** *** Searches *)
Definition only_new (ops : list (coll_op nat)) : Prop := Forall (fun o => match o with CNew _ _ => True | _ => False end) ops.
Lemma size_only_new ops : only_new ops -> size_after ops = 1000%Z.
Proof. unfold size_after. generalize 1000%Z. induction ops as [|[c t|n o] ops IH]; intros z H; [reflexivity| |]; inversion H; [cbn [fold_left]; apply IH; assumption|contradiction]. Qed.
Definition put_into (cat : string) (ops : list (coll_op nat)) : list nat := flat_map (fun o => match o with CNew c t => if String.eqb c cat then [t] else [] | _ => [] end) ops.
Lemma firstn_cons_firstn {A} (x : A) l n : firstn n (x :: firstn n l) = firstn n (x :: l).
Proof. destruct n as [|n]; [reflexivity|]. rewrite !firstn_cons. f_equal. rewrite firstn_firstn. f_equal. lia. Qed.
Lemma held_only_new cat ops : only_new ops -> held cat ops = firstn (Z.to_nat 1000) (rev (put_into cat ops)).
Proof.
  unfold held. induction ops as [|o ops IH] using rev_ind; intros H; [symmetry; apply firstn_nil|]. apply Forall_app in H as [H1 H2].
  rewrite rev_app_distr. cbn [rev app]. destruct o as [c t|n o]; [|inversion H2; contradiction]. cbn [held_rev]. rewrite rev_involutive, (size_only_new ops H1), (IH H1).
  unfold put_into. rewrite flat_map_app, rev_app_distr. cbn [flat_map]. destruct (String.eqb c cat); cbn [app rev]; [apply firstn_cons_firstn|reflexivity].
Qed.
Lemma put_into_storage {arg world pc} c cat (log : list (act arg world pc)) : put_into cat (storage_ops c log) = added_to (c, cat) log.
Proof.
  unfold put_into, storage_ops, added_to. induction log as [|a log IH]; [reflexivity|]. cbn [flat_map]. rewrite flat_map_app, IH. f_equal. destruct a as [|[c' cat'] n|]; try reflexivity.
  unfold key_eq. cbn [fst snd]. destruct (Nat.eqb c' c); cbn [andb flat_map]; [|reflexivity]. destruct (String.eqb cat' cat); reflexivity.
Qed.
Lemma storage_only_new {arg world pc} c (log : list (act arg world pc)) : only_new (storage_ops c log).
Proof. unfold storage_ops, only_new. induction log as [|[|[c' cat'] n|] log IH]; cbn [flat_map]; try exact IH; [constructor|]. cbn [fst snd]. destruct (Nat.eqb c' c); [constructor; [exact Logic.I|exact IH]|exact IH]. Qed.

(** A search of collector c at any moment, if nobody changes the category size: it finds,
    newest first and as many as its limit allows, traces that are among the 1000 last put into their
    category, that match, and shows of each exactly what was done through it.  And what it
    reads of the memory of a trace is that. *)
Theorem C75_search :
  forall (arg world pc : Type) (Sprintf : world -> string -> list arg -> string) (CallersFrames : list pc -> list rframe)
         (RE : Type) (Compile : string -> RE + string) (MatchString : RE -> string -> bool)
         (programs : list (list (hop arg world pc))) (sched : list nat) m c er sort order source (req : SearchRequest RE) acc,
    Forall keeps_size programs -> proper Sprintf CallersFrames [] sched (hm_start programs) -> h_run Sprintf CallersFrames sched (hm_start programs) = Ok m ->
    is_order order -> is_sort Less sort -> unused (req_Filter req) -> decides Compile MatchString (req_Filter req) acc ->
    let log := acts Sprintf CallersFrames sched (hm_start programs) in
    let newest cat := firstn (Z.to_nat 1000) (rev (added_to (c, cat) log)) in
    (forall cat, match get_ring (c, cat) (hm_cats m) with
                 | None => newest cat = []
                 | Some r => map (owner m) (bl_items r) = map Some (newest cat) /\
                             map (fun t => seen Sprintf CallersFrames er (trace_value (hm_heap m) t)) (bl_items r) = map (told Sprintf CallersFrames er log) (newest cat)
                 end) /\
    exists s freed req' resp, coll_run 0 new_collector_storage (storage_ops c log) = Ok (s, freed) /\
      Search Compile MatchString (told Sprintf CallersFrames er log) sort order source s req = Ok (req', resp) /\
      in_order newer (resp_Traces resp) /\
      exists names rest, NoDup names /\ (forall cat, newest cat <> [] -> In cat names) /\
        let found := matching (told Sprintf CallersFrames er log) (req_StackDepth req) acc (flat_map newest names) in
        Permutation (resp_Traces resp ++ rest) found /\ zlen (resp_Traces resp) = Z.min (effective_limit (req_Limit req)) (zlen found).
Proof.
  intros arg world pc Sp CF RE Compile MatchString programs sched m c er sort order source req acc Hk P R Ho Hs Hu Hd log newest.
  destruct (sound_run Sp CF sched [] _ m (inv_start programs) (sound_start Sp CF programs) P R) as [I J]. cbn [app] in J. fold log in J.
  pose proof (plain_run Sp CF sched [] _ m (inv_start programs) (sound_start Sp CF programs) (plain_start programs Hk) P R) as Pl. cbn [app] in Pl. fold log in Pl.
  destruct (C75_held_traces arg world pc Sp CF programs sched P) as (m2 & R2 & H). rewrite R in R2. injection R2 as <-. fold log in H.
  split.
  - intros cat. specialize (H (c, cat)). destruct (get_ring (c, cat) (hm_cats m)) as [r|] eqn:Er; [|unfold newest; rewrite H; apply firstn_nil].
    destruct (p_rings _ _ Pl _ _ Er) as [_ Hl]. assert (En : firstn (length (bl_items r)) (rev (added_to (c, cat) log)) = newest cat).
    { unfold newest. rewrite Hl. rewrite <- rev_length. generalize (rev (added_to (c, cat) log)). intros l. generalize (Z.to_nat 1000). intros N. destruct (Nat.min_spec N (length l)) as [[_ ->]|[Q ->]]; [reflexivity|].
      rewrite firstn_all, firstn_all2 by exact Q. reflexivity. }
    rewrite En in H. clear - H. split; induction H as [|t n l ns [H1 H2] _ IH]; cbn [map]; f_equal; auto. apply (seen_told Sp CF er log n (c, cat)). exact H2.
  - set (ops := storage_ops c log). assert (Hv : Forall valid_op ops).
    { pose proof (storage_only_new c log) as Q. fold ops in Q. unfold only_new in Q. rewrite Forall_forall in *. intros o Hin. specialize (Q o Hin). destruct o; [exact Logic.I|contradiction]. }
    destruct (coll_run_spec 0 ops _ [] CRep_init Hv) as (s & freed & Hrun & _).
    destruct (C22_search_sound Compile MatchString nat 0 (told Sp CF er log) sort order source ops s freed req acc Hv Hrun Ho Hs Hu Hd) as (req' & resp & E & Q1 & Q2 & _ & rest & Q3).
    exists s, freed, req', resp. split; [exact Hrun|]. split; [exact E|]. split; [exact Q1|]. exists (categories ops), rest.
    assert (Hh : forall cat, held cat ops = newest cat) by (intros cat; unfold ops, newest; rewrite held_only_new by apply storage_only_new; rewrite put_into_storage; reflexivity).
    split; [apply categories_NoDup|]. split.
    + intros cat Hn. apply categories_In. unfold newest in Hn. destruct (added_to (c, cat) log) as [|n l] eqn:Ea; [destruct Hn; apply firstn_nil|].
      assert (Hin : In n (put_into cat ops)) by (unfold ops; rewrite put_into_storage, Ea; left; reflexivity).
      apply in_flat_map in Hin as (o & Hin & Hq). exists n. destruct o as [c' t|]; [|destruct Hq]. destruct (String.eqb_spec c' cat) as [->|]; [|destruct Hq]. destruct Hq as [->|[]]. exact Hin.
    + unfold all_held in Q2, Q3. rewrite (flat_map_ext _ _ Hh) in Q2, Q3. split; [exact Q3|exact Q2].
Qed.
Print Assumptions C75_search.

(** Two goroutines: one creates A, logs, finishes; the other creates B in the same category
    in between, logs an error through it, and reads A while it is held. *)
Definition demo_two : list (list (hop nat demo_world Z)) :=
  [[demo_create "one" "A" None; demo_use 0 (CallLog KTracef "first" []); demo_use 0 CallFinish];
   [demo_create "one" "B" None; demo_use 1 (CallLog KErrorf "bad" []); demo_use 0 (CallEvents 0 false)]].
Definition demo_two_sched : list nat := [0; 1; 0; 1; 0; 1; 0; 1].
Example C75_instance :
  let log := acts demo_Sprintf demo_frames demo_two_sched (hm_start demo_two) in
  Forall keeps_size demo_two /\ proper demo_Sprintf demo_frames [] demo_two_sched (hm_start demo_two) /\
  firstn (Z.to_nat 1000) (rev (added_to (0, "one") log)) = [1; 0] /\
  map (fun n => let s := told demo_Sprintf demo_frames (demo_e 130) log n in (TraceID s, TraceStarted s, TraceDuration s, TraceFinished s, TraceErrored s, map What (TraceEvents s))) [1; 0] =
    [("B", 100, 30, false, true, ["bad"]); ("A", 100, 10, true, false, ["first"])]%Z.
Proof.
  split; [repeat constructor|]. split.
  { vm_compute. repeat (split; [first [exact Logic.I|intros t [= <-]; first [left; reflexivity|right; split; [reflexivity|auto]]]|]). exact Logic.I. }
  split; vm_compute; reflexivity.
Qed.

(** Finding: without that discipline it is false: in the run of C17_stale_handle_refuted, the
    trace C is held, nothing was logged through it, and it has an event. *)
Theorem C75_late_call_refuted :
  let programs := [demo_reuse ++ [demo_use 0 (CallLog KTracef "late" [])]] in
  let log := acts demo_Sprintf demo_frames (repeat 0 13) (hm_start programs) in
  exists m, demo_heap (repeat 0 13) (hm_start programs) = Ok m /\ get_ring (0, "two") (hm_cats m) = Some (MkBL 1 [0]) /\ added_to (0, "two") log = [2] /\
    calls_through 2 log = [] /\ map z_fmt (map ce_what (ct_events (trace_value (hm_heap m) 0))) = ["late"] /\
    ~ proper demo_Sprintf demo_frames [] (repeat 0 13) (hm_start programs).
Proof.
  intros programs log. eexists. split; [vm_compute; reflexivity|]. split; [vm_compute; reflexivity|]. split; [vm_compute; reflexivity|]. split; [vm_compute; reflexivity|]. split; [vm_compute; reflexivity|].
  vm_compute. intuition. repeat match goal with H : forall t, Some _ = Some t -> _ |- _ => specialize (H _ eq_refl) end. intuition congruence.
Qed.
Print Assumptions C75_late_call_refuted.

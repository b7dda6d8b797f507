(** C84: what a collector holds is bounded by its settings and the number of categories. *)
From Verif Require Import Go L_List M_Strings M_Types S_RingBuf S_Trace M_Trace L_Trace M_Heap L_Heap S_Heap P_Heap S_Bound D_Demo.
From Coq Require Import Lia.
Open Scope string_scope.
Open Scope list_scope.
Open Scope nat_scope.

Lemma sum_bound {A} (f : A -> nat) b (l : list A) : (forall x, In x l -> f x <= b) -> list_sum (map f l) <= length l * b.
Proof.
  induction l as [|x l IH]; intros H; [cbn; lia|]. cbn [map list_sum length]. change (list_sum (f x :: map f l)) with (f x + list_sum (map f l)).
  pose proof (H x (or_introl eq_refl)). assert (list_sum (map f l) <= length l * b) by (apply IH; intros y Y; apply H; right; exact Y). lia.
Qed.

Section Proofs.
Context {arg world pc : Type}.
Variable Sprintf : world -> string -> list arg -> string.
Variable CallersFrames : list pc -> list rframe.
Notation env := (env arg world pc).
Notation coreTrace := (coreTrace arg pc).
Notation machine := (machine arg world pc).
Notation hop := (hop arg world pc).
Notation h_step := (h_step Sprintf CallersFrames).
Notation h_run := (h_run Sprintf CallersFrames).
Notation apply := (apply Sprintf CallersFrames).
Variables size events : nat.
Hypothesis size_ok : (1000 <= Z.of_nat size)%Z.
Hypothesis events_ok : (10 <= Z.of_nat events)%Z.
Variable names : list (nat * string).

(** ** One trace *)
Definition trace_ok (c : coreTrace) : Prop := (ct_eventsmax c <= Z.of_nat events)%Z /\ length (ct_events c) <= events.
Definition call_within (c : call arg) : Prop := match c with CallSetMaxEvents n => (Z.min n traceMaxEventsMax <= Z.of_nat events)%Z | _ => True end.
Lemma trace_ok_call c x : call_within (snd x) -> trace_ok c -> trace_ok (do_call Sprintf CallersFrames c x).
Proof.
  intros W [A B]. destruct x as [e [k f a| |n|n s]]; cbn [do_call fst snd call_within] in *; unfold do_call; cbn [fst snd].
  - rewrite log_call_eq || idtac.
    assert (ADD : forall lazy iserr c, trace_ok c -> trace_ok (add_event Sprintf e lazy iserr f a c)).
    { clear. intros lazy iserr c [A B]. unfold add_event, zlen. destruct (Z.leb_spec (ct_eventsmax c) (Z.of_nat (length (ct_events c)))) as [L|L]; split; cbn [ct_eventsmax ct_events]; try assumption.
      rewrite app_length. cbn [length]. lia. }
    assert (MARK : trace_ok (mark_errored c)) by (split; cbn; assumption).
    destruct k; unfold log_call, Tracef, LazyTracef, Errorf, LazyErrorf; destruct (ct_finished c); try (split; assumption); apply ADD; try exact MARK; split; assumption.
  - unfold Finish. destruct (ct_finished c); split; cbn; assumption.
  - unfold SetMaxEvents. split; [|exact B]. cbn [ct_eventsmax]. unfold traceMaxEventsMin, traceMaxEventsMax in *.
    destruct (Z.ltb_spec n 10); [lia|]. destruct (Z.ltb_spec 10000 n); lia.
  - rewrite EventsDetail_eq. split; cbn [fst ct_events ct_eventsmax]; [exact A|]. rewrite app_length, map_length, firstn_length, skipn_length. lia.
Qed.

Definition effect_within (x : effect arg world pc) : Prop :=
  match x with
  | Created _ g _ _ _ _ => (g_maxEvents g <= Z.of_nat events)%Z
  | Called _ c => call_within (snd c)
  | Freed _ => True
  end.
Lemma trace_ok_apply l : Forall effect_within l -> forall v : nat -> coreTrace, (forall t, trace_ok (v t)) -> forall t, trace_ok (fold_left apply l v t).
Proof.
  induction 1 as [|x l W _ IH]; intros v V t; [apply V|]. cbn [fold_left]. apply IH. clear t. intros t.
  destruct x as [t0 g now id src cat|t0 x|t0]; cbn [S_Heap.apply effect_within] in *; destruct (Nat.eqb t t0); try apply V.
  - split; cbn; [exact W|lia].
  - apply trace_ok_call; [exact W|apply V].
  - unfold Free. destruct (negb _); [apply V|]. destruct (V t0) as [A B]. split; cbn; [exact A|lia].
Qed.

(** ** The machine *)
Notation op_within := (op_within (arg := arg) (world := world) (pc := pc) size events).
Definition ring_ok (kr : nat * string * blist nat) : Prop := bl_cap (snd kr) <= size /\ length (bl_items (snd kr)) <= bl_cap (snd kr).
Definition key_ok (k : nat * string) : Prop := In k names.
Definition thread_ok (sp : hstate * list hop) : Prop :=
  Forall op_within (snd sp) /\ Forall (fun o => incl (named o) names) (snd sp) /\
  match fst sp with HAdding _ k => In k names | HResizing _ cap _ => (cap <= Z.of_nat size)%Z | _ => True end.
Record bounded (m : machine) : Prop := {
  b_traces : forall t, trace_ok (trace_value (hm_heap m) t);
  b_sizes : forall c, (hm_sizes m c <= Z.of_nat size)%Z;
  b_rings : Forall ring_ok (hm_cats m);
  b_nodup : NoDup (map fst (hm_cats m));
  b_names : incl (map fst (hm_cats m)) names;
  b_threads : Forall thread_ok (hm_threads m)
}.

Lemma Forall_update {A} (P : A -> Prop) i x l : P x -> Forall P l -> Forall P (update i x l).
Proof.
  intros Hx. revert i. induction l as [|y l IH]; intros [|i] F; cbn; try constructor; inversion F; subst; auto.
Qed.
Lemma set_ring_keys k r : forall cats, map fst (set_ring k r cats) = map fst cats.
Proof. induction cats as [|[k' r'] cats IH]; [reflexivity|]. cbn. destruct (key_eq k k'); cbn; [reflexivity|]. f_equal. exact IH. Qed.
Lemma set_ring_ok k r : forall cats, ring_ok (k, r) -> Forall ring_ok cats -> Forall ring_ok (set_ring k r cats).
Proof. intros cats R F. induction F as [|[k' r'] cats C F IH]; [constructor|]. cbn. destruct (key_eq k k'); constructor; auto. Qed.
Lemma get_ring_in k : forall cats r, get_ring k cats = Some r -> In (k, r) cats.
Proof.
  induction cats as [|[k' r'] cats IH]; intros r; [discriminate|]. cbn. destruct (key_eq k k') eqn:E; [|auto]. intros X. injection X as <-. apply key_eq_spec in E. subst. left. reflexivity.
Qed.
Lemma get_ring_none k : forall cats, get_ring k cats = None -> ~ In k (map fst cats).
Proof. intros cats E I. apply (get_of_key k cats I). exact E. Qed.

Lemma effect_of_within (m : machine) i : bounded m -> Forall effect_within (effect_of m i).
Proof.
  intros B. unfold effect_of. destruct (nth_error (hm_threads m) i) as [[s p]|] eqn:E; [|constructor].
  pose proof (proj1 (Forall_forall _ _) (b_threads _ B) _ (nth_error_In _ _ E)) as (W & _ & _). cbn [snd] in W.
  destruct s as [|t k|ks cap d|ts]; try constructor.
  - destruct p as [|o p]; [constructor|]. inversion W as [|? ? W1 _]; subst. destruct o as [c cat g now id src pick|n [e x] ch|c cap|kt ke kz]; try constructor; [exact W1|constructor|].
    destruct (nth_error (hm_handles m) n); constructor; [|constructor]. cbn [effect_within snd]. destruct x; cbn in *; auto.
  - destruct ts; constructor; [exact Logic.I|constructor].
Qed.

Lemma bounded_step (m : machine) i m' : inv m -> bounded m -> h_step m i = Ok m' -> bounded m'.
Proof.
  intros I B E. pose proof (step_fun Sprintf CallersFrames m i m' I E) as SO.
  assert (T : forall t, trace_ok (trace_value (hm_heap m') t)).
  { intros t. rewrite (so_values _ _ _ _ _ SO t). apply trace_ok_apply; [apply effect_of_within; exact B|apply (b_traces _ B)]. }
  unfold M_Heap.h_step in E. destruct (nth_error (hm_threads m) i) as [[s p]|] eqn:EN; [|injection E as <-; exact B].
  pose proof (proj1 (Forall_forall _ _) (b_threads _ B) _ (nth_error_In _ _ EN)) as (W & NM & ST). cbn [fst snd] in *.
  assert (TH : forall s' p', thread_ok (s', p') -> Forall thread_ok (set_thread m i s' p')) by (intros s' p' O; apply Forall_update; [exact O|apply (b_threads _ B)]).
  destruct s as [|t k|ks cap d|ts].
  - destruct p as [|o p]; [injection E as <-; exact B|]. inversion W as [|? ? W1 W2]; subst. inversion NM as [|? ? N1 N2]; subst.
    destruct o as [c cat g now id src pick|n x ch|c cap|kt ke kz].
    + destruct (h_new g now id pick src cat (hm_heap m)) as [h t]. injection E as <-. constructor; cbn [hm_heap hm_sizes hm_cats hm_threads]; try apply B; [exact T|].
      apply TH. split; [exact W2|]. split; [exact N2|]. cbn. apply N1. left. reflexivity.
    + destruct (nth_error (hm_handles m) n); [|injection E as <-; exact B].
      destruct (h_call Sprintf CallersFrames _ x ch (hm_heap m)) as [[h evs]|]; [|discriminate]. cbn [bind] in E. injection E as <-.
      constructor; cbn [hm_heap hm_sizes hm_cats hm_threads]; try exact T; try apply B. apply TH. split; [exact W2|]. split; [exact N2|exact Logic.I].
    + destruct (cap <=? 0)%Z; injection E as <-; constructor; cbn [hm_heap hm_sizes hm_cats hm_threads]; try apply B; try exact T.
      * apply TH. split; [exact W2|]. split; [exact N2|exact Logic.I].
      * intros c'. destruct (Nat.eqb c' c); [exact W1|apply B].
      * apply TH. split; [exact W2|]. split; [exact N2|exact W1].
    + injection E as <-. constructor; cbn [hm_heap hm_sizes hm_cats hm_threads]; try exact T; try apply B. apply TH. split; [exact W2|]. split; [exact N2|exact Logic.I].
  - set (cats := get_or_create k (hm_sizes m (fst k)) (hm_cats m)) in *.
    assert (CATS : Forall ring_ok cats /\ NoDup (map fst cats) /\ incl (map fst cats) names).
    { unfold cats, get_or_create. destruct (get_ring k (hm_cats m)) eqn:EG; [split; [apply B|split; apply B]|].
      split; [apply Forall_app; split; [apply B|constructor; [|constructor]]; split; cbn; [pose proof (b_sizes _ B (fst k)); lia|lia]|]. rewrite map_app. cbn [map fst]. split.
      - apply NoDup_app_snoc || (apply (Permutation.Permutation_NoDup (Permutation.Permutation_cons_append (map fst (hm_cats m)) k))). constructor; [apply get_ring_none; exact EG|apply B].
      - intros x X. apply in_app_or in X as [X|[<-|[]]]; [apply (b_names _ B); exact X|exact ST]. }
    clearbody cats. destruct CATS as (C1 & C2 & C3). destruct (get_ring k cats) as [r|] eqn:EG; [|discriminate].
    pose proof (proj1 (Forall_forall _ _) C1 _ (get_ring_in _ _ _ EG)) as [R1 R2]. cbn [snd] in R1, R2.
    destruct (bl_add 0 r t) as [r' out] eqn:EA. injection E as <-.
    assert (RO : ring_ok (k, r')).
    { unfold ring_ok. cbn [snd]. unfold bl_add in EA. destruct (bl_cap r) as [|cap] eqn:EC; [injection EA as <- _; rewrite EC; auto|]. rewrite <- EC in *.
      destruct (Nat.eqb_spec (length (bl_items r)) (bl_cap r)) as [L|L]; injection EA as <- _; cbn [bl_cap bl_items length]; (split; [exact R1|]); [|lia].
      destruct (bl_items r) as [|y l] eqn:EI; [cbn in *; lia|]. rewrite <- EI in *. assert (length (removelast (bl_items r)) = pred (length (bl_items r))); [|lia].
      clear. generalize (bl_items r). intros q. induction q as [|a [|b q] IH]; [reflexivity|reflexivity|]. change (length (removelast (a :: b :: q))) with (S (length (removelast (b :: q)))). rewrite IH. reflexivity. }
    constructor; cbn [hm_heap hm_sizes hm_cats hm_threads]; try apply B.
    + apply set_ring_ok; assumption.
    + rewrite set_ring_keys. exact C2.
    + rewrite set_ring_keys. exact C3.
    + apply TH. split; [exact W|]. split; [exact NM|]. destruct out as [d0 [|]| | |]; exact Logic.I.
  - destruct ks as [|k ks].
    + injection E as <-. constructor; cbn [hm_heap hm_sizes hm_cats hm_threads]; try exact T; try apply B. apply TH. split; [exact W|]. split; [exact NM|]. destruct d; exact Logic.I.
    + destruct (get_ring k (hm_cats m)) as [r|] eqn:EG; [|discriminate].
      pose proof (proj1 (Forall_forall _ _) (b_rings _ B) _ (get_ring_in _ _ _ EG)) as [R1 R2]. cbn [snd] in R1, R2.
      destruct (bl_resize r cap) as [r' out] eqn:ER. injection E as <-.
      assert (RO : ring_ok (k, r')).
      { unfold ring_ok. cbn [snd]. unfold bl_resize in ER. destruct (Z.leb_spec cap 0); injection ER as <- _; [auto|]. cbn [bl_cap bl_items]. rewrite firstn_length. lia. }
      constructor; cbn [hm_heap hm_sizes hm_cats hm_threads]; try apply B.
      * apply set_ring_ok; [exact RO|apply B].
      * rewrite set_ring_keys. apply B.
      * rewrite set_ring_keys. apply B.
      * apply TH. split; [exact W|]. split; [exact NM|exact ST].
  - destruct ts as [|t ts].
    + injection E as <-. constructor; cbn [hm_heap hm_sizes hm_cats hm_threads]; try exact T; try apply B. apply TH. split; [exact W|]. split; [exact NM|exact Logic.I].
    + destruct (h_free t (hm_heap m)) as [h|]; [|discriminate]. cbn [bind] in E. injection E as <-.
      constructor; cbn [hm_heap hm_sizes hm_cats hm_threads]; try exact T; try apply B. apply TH. split; [exact W|]. split; [exact NM|]. destruct ts; exact Logic.I.
Qed.
Lemma bounded_run sched : forall (m m' : machine), inv m -> bounded m -> h_run sched m = Ok m' -> bounded m'.
Proof.
  induction sched as [|i sched IH]; intros m m' I B; cbn [M_Heap.h_run]; [intros E; injection E as <-; exact B|].
  destruct (h_step m i) as [m1|] eqn:E; [|discriminate]. cbn [bind]. apply IH; [|exact (bounded_step m i m1 I B E)].
  exact (inv_step Sprintf CallersFrames m i m1 I (step_fun Sprintf CallersFrames m i m1 I E)).
Qed.
Lemma bounded_start (programs : list (list hop)) : Forall (Forall op_within) programs -> incl (all_named programs) names -> bounded (hm_start programs).
Proof.
  intros W N. constructor; cbn [hm_start hm_heap hm_sizes hm_cats hm_threads].
  - intros t. unfold trace_value, tr_at. cbn [empty_heap h_traces]. destruct t; split; cbn; lia.
  - intros c. exact size_ok.
  - constructor.
  - constructor.
  - intros x [].
  - apply Forall_forall. intros x X. apply in_map_iff in X as (p & <- & X). split; [exact (proj1 (Forall_forall _ _) W p X)|]. split; [|exact Logic.I].
    apply Forall_forall. intros o O k K. apply N. unfold all_named. apply in_flat_map. exists p. split; [exact X|]. apply in_flat_map. exists o. auto.
Qed.
Lemma in_categories_length (m : machine) : length (in_categories m) = list_sum (map (fun kr => length (bl_items (snd kr))) (hm_cats m)).
Proof. unfold in_categories. induction (hm_cats m) as [|kr l IH]; [reflexivity|]. cbn [flat_map map]. rewrite app_length, IH. reflexivity. Qed.
End Proofs.

(** Whatever goroutines do, in any order: if no category size above [size] (at least the
    default of 1000) and no event limit above [events] (at least 10) is ever set, then no
    category holds more traces, and no trace more events; so the categories hold at most
    [size] traces and [size * events] events each.  There is one category for each name
    that was used. *)
Theorem C84_bounded :
  forall (arg world pc : Type) (Sprintf : world -> string -> list arg -> string) (CallersFrames : list pc -> list rframe)
         (programs : list (list (hop arg world pc))) (sched : list nat) size events m,
    (1000 <= Z.of_nat size)%Z -> (10 <= Z.of_nat events)%Z -> Forall (Forall (op_within size events)) programs ->
    h_run Sprintf CallersFrames sched (hm_start programs) = Ok m ->
    (forall key r, In (key, r) (hm_cats m) -> length (bl_items r) <= bl_cap r <= size) /\
    (forall t, events_of m t <= events) /\
    room m <= length (hm_cats m) * size /\
    length (in_categories m) <= length (hm_cats m) * size /\
    events_held m <= length (hm_cats m) * size * events /\
    NoDup (map fst (hm_cats m)) /\ incl (map fst (hm_cats m)) (all_named programs).
Proof.
  intros arg world pc Sp CF programs sched size events m HS HE W R.
  pose proof (bounded_run Sp CF size events HS HE (all_named programs) sched _ m (inv_start programs)
    (bounded_start size events HS HE (all_named programs) programs W (incl_refl _)) R) as B.
  assert (RING : forall key r, In (key, r) (hm_cats m) -> length (bl_items r) <= bl_cap r <= size).
  { intros key r I. destruct (proj1 (Forall_forall _ _) (b_rings _ _ _ _ B) _ I) as [A1 A2]. cbn [snd] in *. auto. }
  assert (EV : forall t, events_of m t <= events) by (intros t; apply (b_traces _ _ _ _ B t)).
  assert (LEN : length (in_categories m) <= length (hm_cats m) * size).
  { rewrite in_categories_length. apply sum_bound. intros [k r] I. destruct (RING k r I). cbn. lia. }
  split; [exact RING|]. split; [exact EV|]. split; [apply sum_bound; intros [k r] I; apply (RING k r I)|]. split; [exact LEN|].
  split; [|split; [apply B|apply B]]. unfold events_held. etransitivity; [apply (sum_bound (events_of m) events); intros t _; apply EV|]. apply Nat.mul_le_mono_r. exact LEN.
Qed.

(** The process-wide event limit: whatever was asked for, it is between 10 and 10000. *)
Definition limited {arg world pc} (size : nat) (o : hop arg world pc) : Prop :=
  match o with
  | HNewTrace _ _ g _ _ _ _ => exists asked, g_maxEvents g = g_maxEvents (fold_left SetTraceMaxEvents asked initial_globals)
  | HSetCategorySize _ cap => (cap <= Z.of_nat size)%Z
  | _ => True
  end.
Lemma asked_max asked : (g_maxEvents (fold_left SetTraceMaxEvents asked initial_globals) <= 10000)%Z.
Proof.
  assert (G : forall g, (g_maxEvents g <= 10000)%Z -> (g_maxEvents (fold_left SetTraceMaxEvents asked g) <= 10000)%Z); [|apply G; unfold initial_globals, traceMaxEventsDefault; cbn [g_maxEvents]; lia].
  induction asked as [|n asked IH]; intros g L; [exact L|]. cbn [fold_left]. apply IH. unfold SetTraceMaxEvents, traceMaxEventsMin, traceMaxEventsMax. cbn [g_maxEvents].
  destruct (Z.ltb_spec n 10); [cbn; lia|]. destruct (Z.ltb_spec 10000 n); lia.
Qed.
(** So no trace ever holds more than 10000 events, whatever limits are asked for. *)
Theorem C84_ten_thousand_events :
  forall (arg world pc : Type) (Sprintf : world -> string -> list arg -> string) (CallersFrames : list pc -> list rframe)
         (programs : list (list (hop arg world pc))) (sched : list nat) size m,
    (1000 <= Z.of_nat size)%Z -> Forall (Forall (limited size)) programs ->
    h_run Sprintf CallersFrames sched (hm_start programs) = Ok m ->
    (forall t, (Z.of_nat (events_of m t) <= 10000)%Z) /\
    (Z.of_nat (events_held m) <= Z.of_nat (length (hm_cats m)) * Z.of_nat size * 10000)%Z.
Proof.
  intros arg world pc Sp CF programs sched size m HS W R.
  destruct (C84_bounded arg world pc Sp CF programs sched size (Z.to_nat 10000) m HS ltac:(rewrite Z2Nat.id; lia)) as (_ & A & _ & _ & B & _); [|exact R|split].
  - apply Forall_forall. intros p P. apply Forall_forall. intros o O. pose proof (proj1 (Forall_forall _ _) (proj1 (Forall_forall _ _) W p P) o O) as L.
    destruct o as [c cat g now id src pick|n [e x] ch|c cap|kt ke kz]; cbn [op_within limited] in *; auto.
    + destruct L as [asked ->]. rewrite Z2Nat.id by lia. apply asked_max.
    + destruct x; auto. rewrite Z2Nat.id by lia. unfold traceMaxEventsMax. lia.
  - intros t. specialize (A t). lia.
  - apply Nat2Z.inj_le in B. rewrite !Nat2Z.inj_mul, Z2Nat.id in B by lia. exact B.
Qed.

(** Finding: the number of categories is not bounded by any setting, and a category is never
    removed: programs that use [n] names reserve room for [n * 1000] traces, for every [n]. *)
Fixpoint name (n : nat) : string := match n with O => "" | S n => String "c" (name n) end.
Lemma name_inj : forall a b, name a = name b -> a = b.
Proof. induction a as [|a IH]; intros [|b] E; cbn in E; try discriminate; [reflexivity|]. injection E as E. f_equal. exact (IH b E). Qed.
Definition create_all (l : list nat) : list (hop nat demo_world Z) := map (fun n => demo_create (name n) "id" None) l.

Lemma create_all_runs : forall l (m : machine nat demo_world Z),
  NoDup l -> (forall n, In n l -> ~ In (0, name n) (map fst (hm_cats m))) -> hm_sizes m 0 = 1000%Z -> hm_threads m = [(HIdle, create_all l)] ->
  exists m', demo_heap (repeat 0 (2 * length l)) m = Ok m' /\ length (hm_cats m') = length (hm_cats m) + length l /\
             length (in_categories m') = length (in_categories m) + length l /\ room m' = room m + length l * Z.to_nat 1000.
Proof.
  induction l as [|n l IH]; intros m ND FR SZ TH; [exists m; cbn; rewrite !Nat.add_0_r; auto|].
  inversion ND as [|? ? NI ND']; subst.
  replace (2 * length (n :: l)) with (S (S (2 * length l))) by (cbn [length]; lia). cbn [repeat]. unfold demo_heap. cbn [h_run].
  unfold h_step at 1. rewrite TH. cbn [nth_error create_all map demo_create].
  destruct (h_new (MkGlobals 10 false) 100 "id" None "src" (name n) (hm_heap m)) as [h t] eqn:EH. cbn [bind].
  unfold h_step at 1. cbn [hm_threads set_thread]. unfold set_thread. rewrite TH. cbn [update nth_error hm_cats hm_sizes fst]. rewrite SZ.
  assert (G : get_ring (0, name n) (hm_cats m) = None).
  { destruct (get_ring (0, name n) (hm_cats m)) as [r|] eqn:E; [|reflexivity]. exfalso. apply (FR n (or_introl eq_refl)). apply in_map_iff. exists ((0, name n), r). split; [reflexivity|]. exact (get_ring_in _ _ _ E). }
  unfold get_or_create. rewrite G, get_ring_app, G. cbn [get_ring]. rewrite (proj2 (key_eq_spec (0, name n) (0, name n)) eq_refl).
  assert (A : forall cap, cap <> 0 -> bl_add 0 (MkBL cap []) t = (MkBL cap [t], RAdd 0 false)).
  { intros [|cap]; [congruence|]. intros _. reflexivity. }
  assert (C : Z.to_nat 1000 <> 0) by (intros X; apply (f_equal Z.of_nat) in X; rewrite Z2Nat.id in X by lia; discriminate).
  rewrite (A _ C). cbn [bind finish_state hm_heap hm_handles hm_results hm_threads update].
  assert (S' : forall cats, get_ring (0, name n) cats = None -> set_ring (0, name n) (MkBL (Z.to_nat 1000) [t]) (cats ++ [((0, name n), MkBL (Z.to_nat 1000) [])]) = cats ++ [((0, name n), MkBL (Z.to_nat 1000) [t])]).
  { induction cats as [|[k r] cats IHc]; intros E; cbn [get_ring app set_ring] in *.
    - rewrite (proj2 (key_eq_spec (0, name n) (0, name n)) eq_refl). reflexivity.
    - destruct (key_eq (0, name n) k); [discriminate|]. f_equal. exact (IHc E). }
  rewrite (S' _ G). match goal with |- exists m', h_run _ _ _ ?M = _ /\ _ => destruct (IH M) as (m' & R1 & R2 & R3 & R4) end.
  - exact ND'.
  - cbn [hm_cats]. intros n' I' X. rewrite map_app in X. apply in_app_or in X as [X|[X|[]]]; [exact (FR n' (or_intror I') X)|]. cbn in X. injection X as X. apply name_inj in X. subst. contradiction.
  - exact SZ.
  - reflexivity.
  - exists m'. split; [exact R1|]. rewrite R2, R3, R4. unfold in_categories, room. cbn [hm_cats].
    rewrite flat_map_app, map_app, !app_length, list_sum_app. cbn [flat_map map snd bl_items bl_cap length app list_sum fold_right].
    change (list_sum [Z.to_nat 1000]) with (Z.to_nat 1000 + 0). split; [lia|]. split; [lia|]. rewrite Nat.add_0_r. lia.
Qed.
Theorem C84_categories_refuted :
  forall n, exists program sched m,
    Forall (op_within (Z.to_nat 1000) 10) program /\ demo_heap sched (hm_start [program]) = Ok m /\
    length (hm_cats m) = n /\ length (in_categories m) = n /\ room m = n * Z.to_nat 1000.
Proof.
  intros n. destruct (create_all_runs (seq 0 n) (hm_start [create_all (seq 0 n)])) as (m & R1 & R2 & R3 & R4).
  - apply seq_NoDup.
  - intros k _ [].
  - reflexivity.
  - reflexivity.
  - rewrite seq_length in *. exists (create_all (seq 0 n)), (repeat 0 (2 * n)), m. split; [|split; [exact R1|split; [exact R2|split; [exact R3|exact R4]]]].
    apply Forall_forall. intros o O. apply in_map_iff in O as (k & <- & _). cbn. lia.
Qed.

(** Two goroutines.  The first makes five traces in two categories, the second one sets a
    size of 2 and logs, more often than the limit of 10 allows. *)
Definition demo_bound : list (list (hop nat demo_world Z)) :=
  [[demo_create "one" "A" None; demo_create "one" "B" None; demo_create "one" "C" None; demo_create "two" "D" None; demo_create "one" "E" None];
   repeat (demo_use 0 (CallLog KTracef "x" [])) 12 ++ [demo_use 0 CallFinish; demo_use 1 (CallSetMaxEvents 3); HSetCategorySize 0 2]].
Example C84_instance :
  exists m, Forall (Forall (op_within (Z.to_nat 1000) 10)) demo_bound /\ Forall (Forall (limited (Z.to_nat 1000))) demo_bound /\
    demo_heap ([0; 0; 0; 0; 0; 0; 0; 0] ++ repeat 1 12) (hm_start demo_bound) = Ok m /\
    length (hm_cats m) = 2 /\ length (in_categories m) = 4 /\ events_of m 0 = 10 /\ events_held m = 10 /\
    exists m', demo_heap (repeat 1 8 ++ [0; 0; 0]) m = Ok m' /\ length (hm_cats m') = 2 /\ length (in_categories m') = 3 /\ room m' = 4 /\ events_held m' = 0.
Proof.
  eexists. split; [repeat constructor; cbn; lia|].
  split; [repeat (apply Forall_cons || apply Forall_nil); cbn [limited demo_create demo_use]; try exact Logic.I; try (rewrite Z2Nat.id; lia); exists [10%Z]; reflexivity|]. split; [vm_compute; reflexivity|].
  split; [reflexivity|]. split; [reflexivity|]. split; [reflexivity|]. split; [reflexivity|]. eexists. split; [vm_compute; reflexivity|]. vm_compute. auto.
Qed.

Print Assumptions C84_bounded.
Print Assumptions C84_ten_thousand_events.
Print Assumptions C84_categories_refuted.

(** C100: nothing is left running. *)
From Coq Require Import List Bool Arith Lia Permutation.
From Verif Require Import M_Goroutines S_Goroutines L_Goroutines.
Import ListNotations.

(** When Search of a MultiSearcher returns, each of its goroutines has ended, each result was
    taken exactly once and no other is left. *)
Theorem C100_search_leaves_nothing n s : sc_reach n s -> sc_returned n s ->
  (forall i, i < n -> sc_phase s i = SEnded) /\ (forall i, n <= i -> sc_phase s i = SNot)
  /\ Permutation (sc_gathered s) (seq 0 n) /\ sc_buffer s = [].
Proof.
  intros R [E1 E2]. pose proof (sc_inv_reach n s R) as I. pose proof (sc_count n s I) as C. pose proof I as [I1 I2 I3 I4].
  assert (B : sc_buffer s = []). { destruct (sc_buffer s); [reflexivity|]. cbn in C. lia. }
  rewrite B, app_nil_r in *.
  assert (P : Permutation (sc_gathered s) (seq 0 n)).
  { apply NoDup_Permutation_bis; [exact I4|rewrite seq_length; lia|]. intros i Hin. apply in_seq. split; [lia|]. cbn. apply (sc_members n s i I). rewrite B, app_nil_r. exact Hin. }
  split; [|split; [|split; [exact P|reflexivity]]].
  - intros i Hi. apply I3. eapply Permutation_in; [apply Permutation_sym, P|]. apply in_seq. lia.
  - intros i Hi. apply I2. lia.
Qed.

(** A goroutine that has its result can always deliver it and end. *)
Theorem C100_search_results_never_wait n s i : sc_reach n s -> sc_phase s i = SSending -> length (sc_buffer s) < n.
Proof.
  intros R E. pose proof (sc_inv_reach n s R) as I. pose proof I as [I1 I2 I3 I4].
  assert (i < n). { destruct (Nat.le_gt_cases (sc_started s) i) as [H|H]; [|lia]. apply I2 in H. congruence. }
  assert (N : ~ In i (sc_gathered s ++ sc_buffer s)) by (intros Hin; apply I3 in Hin; congruence).
  assert (L : length (i :: sc_gathered s ++ sc_buffer s) <= n).
  { rewrite <- (seq_length n 0). apply NoDup_incl_length; [now constructor|]. intros j [<-|Hin]; apply in_seq; [lia|]. pose proof (sc_members n s j I Hin). lia. }
  cbn in L. rewrite app_length in L. lia.
Qed.

(** Search waits for its searchers and for nothing else: as long as it has not returned and no
    searcher works, it or one of its goroutines can go on. *)
Theorem C100_search_waits_for_searchers_only n s : sc_reach n s -> ~ sc_returned n s -> (forall i, sc_phase s i <> SSearching) ->
  exists s', sc_step n s s' /\ sc_cancelled s' = sc_cancelled s
    /\ (sc_started s' = S (sc_started s) \/ length (sc_buffer s') = S (length (sc_buffer s)) \/ length (sc_gathered s') = S (length (sc_gathered s))).
Proof.
  intros R NR NS. pose proof (sc_inv_reach n s R) as I. pose proof (sc_count n s I) as C. pose proof (fun i => C100_search_results_never_wait n s i R) as Room.
  pose proof I as [I1 I2 I3 I4]. destruct s as [k ph b g c]. cbn in *.
  destruct (Nat.eq_dec k n) as [->|N].
  2:{ exists (MkSc (S k) (supd ph k SSearching) b g c). split; [constructor; lia|]. auto. }
  destruct b as [|i b].
  - assert (X : exists i, i < n /\ ph i = SSending).
    { assert (L : length g < n). { unfold sc_returned in NR. cbn in *. lia. }
      assert (Y : exists i, i < n /\ ~ In i g).
      { clear - L. destruct (Forall_Exists_dec (fun i => In i g) (fun i => in_dec Nat.eq_dec i g) (seq 0 n)) as [F|X].
        - exfalso. assert (length (seq 0 n) <= length g). { apply NoDup_incl_length; [apply seq_NoDup|]. intros i Hin. rewrite Forall_forall in F. auto. } rewrite seq_length in *. lia.
        - apply Exists_exists in X. destruct X as (i & Hin & H). apply in_seq in Hin. exists i. split; [lia|exact H]. }
      destruct Y as (i & Hi & Hn). exists i. split; [exact Hi|].
      rewrite app_nil_r in I3. destruct (ph i) eqn:P; auto.
      - apply I2 in P. lia.
      - now elim (NS i).
      - apply I3 in P. contradiction. }
    destruct X as (i & Hi & P). exists (MkSc n (supd ph i SEnded) ([] ++ [i]) g c). split; [constructor; [exact P|cbn; lia]|]. cbn. auto.
  - exists (MkSc n ph b (g ++ [i]) c). split; [constructor; cbn in C; lia|]. cbn. rewrite app_length. cbn. split; [reflexivity|]. right. right. lia.
Qed.

(** Finding: it does wait for all of them, also when its context is done.  Whichever searcher
    does not return, the search then does not. *)
Lemma scattered n : exists s, sc_reach n s /\ sc_started s = n /\ (forall j, sc_phase s j = if j <? n then SSearching else SNot)
  /\ sc_buffer s = [] /\ sc_gathered s = [].
Proof.
  assert (G : forall k, k <= n -> exists s, sc_reach n s /\ sc_started s = k /\ (forall j, sc_phase s j = if j <? k then SSearching else SNot) /\ sc_buffer s = [] /\ sc_gathered s = []).
  { induction k as [|k IH]; intros Hk.
    - exists sc_init. split; [constructor|]. repeat split.
    - destruct IH as ([k0 ph b g c] & R & E & P & B & G); [lia|]. cbn -[Nat.ltb Nat.eqb] in *. subst. eexists. split; [eapply sc_r1; [exact R|apply sc_go; lia]|]. cbn -[Nat.ltb Nat.eqb]. split; [reflexivity|]. split; [|auto].
      intros j. unfold supd. destruct (Nat.eqb_spec j k) as [->|N]. { destruct (Nat.ltb_spec k (S k)); [reflexivity|lia]. }
      rewrite P. destruct (Nat.ltb_spec j k), (Nat.ltb_spec j (S k)); try reflexivity; lia. }
  now apply G.
Qed.
Lemma all_but n i : exists s, sc_reach n s /\ sc_started s = n
  /\ (forall j, sc_phase s j = if j <? n then (if j =? i then SSearching else SEnded) else SNot) /\ sc_buffer s = [].
Proof.
  assert (G : forall k, k <= n -> exists s, sc_reach n s /\ sc_started s = n
    /\ (forall j, sc_phase s j = if j <? n then (if (j <? k) && negb (j =? i) then SEnded else SSearching) else SNot)
    /\ sc_buffer s = [] /\ length (sc_gathered s) <= k).
  { induction k as [|k IH]; intros Hk.
    - destruct (scattered n) as (s & R & E & P & B & G). exists s. split; [exact R|]. split; [exact E|]. split; [exact P|]. split; [exact B|]. rewrite G. cbn -[Nat.ltb Nat.eqb]. lia.
    - destruct IH as ([k0 ph b g c] & R & E & P & B & G); [lia|]. cbn -[Nat.ltb Nat.eqb] in *. subst.
      destruct (Nat.eq_dec k i) as [->|N].
      + exists (MkSc n ph [] g c). split; [exact R|]. cbn -[Nat.ltb Nat.eqb]. split; [reflexivity|]. split; [|split; [reflexivity|lia]].
        intros j. rewrite P. destruct (Nat.ltb_spec j i), (Nat.ltb_spec j (S i)), (Nat.eqb_spec j i); cbn; try reflexivity; lia.
      + eexists. split. { eapply sc_r1; [eapply sc_r1; [eapply sc_r1; [exact R|apply (sc_return n k)]|apply (sc_send n k)]|cbn -[Nat.ltb Nat.eqb]; apply sc_gather].
          - rewrite P. destruct (Nat.ltb_spec k n); [|lia]. rewrite Nat.ltb_irrefl. reflexivity.
          - apply supd_same.
          - cbn -[Nat.ltb Nat.eqb]. lia.
          - lia. }
        cbn -[Nat.ltb Nat.eqb]. split; [reflexivity|]. split; [|split; [reflexivity|rewrite app_length; cbn; lia]].
        intros j. unfold supd. destruct (Nat.eqb_spec j k) as [->|Nj].
        * destruct (Nat.ltb_spec k n); [|lia]. destruct (Nat.ltb_spec k (S k)); [|lia]. apply Nat.eqb_neq in N. rewrite N. reflexivity.
        * rewrite P. destruct (Nat.ltb_spec j k), (Nat.ltb_spec j (S k)); try reflexivity; lia. }
  destruct (G n (le_n n)) as (s & R & E & P & B & _). exists s. split; [exact R|]. split; [exact E|]. split; [|exact B].
  intros j. rewrite P. destruct (Nat.ltb_spec j n); [|reflexivity]. cbn -[Nat.ltb Nat.eqb]. now destruct (j =? i).
Qed.
Theorem C100_cancelled_search_still_waits_refuted n i : i < n ->
  exists s, sc_reach n s /\ sc_cancelled s = true /\ (forall j, j < n -> j <> i -> sc_phase s j = SEnded) /\ sc_phase s i = SSearching
    /\ forall s', sc_step n s s' -> s' = s \/ sc_phase s' i = SSending.
Proof.
  intros Hi. destruct (all_but n i) as ([k ph b g c] & R & E & P & B). cbn -[Nat.ltb Nat.eqb] in *. subst.
  exists (MkSc n ph [] g true). split; [eapply sc_r1; [exact R|constructor]|]. cbn -[Nat.ltb Nat.eqb]. split; [reflexivity|]. split; [|split].
  - intros j Hj Nj. rewrite P. destruct (Nat.ltb_spec j n); [|lia]. apply Nat.eqb_neq in Nj. now rewrite Nj.
  - rewrite P. destruct (Nat.ltb_spec i n); [|lia]. now rewrite Nat.eqb_refl.
  - intros s' St. inversion St; subst; cbn; auto; try lia.
    + right. match goal with H : ph _ = SSearching |- _ => rename H into Q end. rewrite P in Q. destruct (i0 <? n); [|discriminate]. destruct (Nat.eqb_spec i0 i) as [->|]; [|discriminate]. apply supd_same.
    + match goal with H : ph _ = SSending |- _ => rename H into Q end. rewrite P in Q. destruct (i0 <? n); [|discriminate]. destruct (i0 =? i); discriminate.
Qed.

(** Before its context is done no call of StreamClient.Stream closes its connection or ends the
    goroutine that would, whether or not the call returned. *)
Theorem C100_client_keeps_its_goroutine s k : cl_steps cl_init s -> cl_done s = false -> In k (cl_calls s) ->
  k_closed k = false /\ k_watcher k <> WEnded /\ (k_phase k = KReading -> k_watcher k = WWaiting).
Proof.
  intros R D Hin. pose proof (cl_inv s R) as F. rewrite Forall_forall in F. destruct (F k Hin) as [I1 I2 I3 I4]. rewrite D in I4.
  assert (W : k_watcher k <> WEnded) by (intros E; apply I4 in E; discriminate).
  split; [|split; [exact W|]].
  - destruct (k_closed k); [|reflexivity]. elim W. now apply I3.
  - intros P. apply I2 in P. now destruct (k_watcher k).
Qed.
(** Once it is done all calls and all their goroutines can end, and nothing else is needed. *)
Theorem C100_client_ends s : cl_steps cl_init s -> cl_done s = true -> exists s', cl_steps s s' /\ Forall gone (cl_calls s').
Proof.
  intros R D. pose proof (cl_inv s R) as F. destruct s as [l d]. cbn in *. subst d. destruct (cl_ends_from l F []) as (l' & S & G). exists (MkCalls l' true). auto.
Qed.
(** Finding: until then any number of goroutines and connections can be left of calls that
    returned, and none of them can end. *)
Theorem C100_client_left_running_refuted m : exists s, cl_steps cl_init s /\ cl_done s = false /\ length (cl_calls s) = m
  /\ Forall returned (cl_calls s) /\ waiting (cl_calls s) = m
  /\ forall s', cl_step s s' -> cl_done s' = true \/ cl_calls s' = cl_calls s ++ [k_new].
Proof.
  set (k := MkK KReturned WWaiting false).
  assert (R : cl_steps cl_init (MkCalls (repeat k m) false)).
  { induction m as [|m IH]; [constructor|]. eapply cl_trans; [exact IH|].
    econstructor; [apply cl_call|]. econstructor; [apply cl_one, k_open|]. econstructor; [apply cl_one, k_fail|].
    replace (repeat k (S m)) with (repeat k m ++ [k]); [constructor|]. clear. induction m as [|m IH]; [reflexivity|]. cbn. now rewrite IH. }
  exists (MkCalls (repeat k m) false). split; [exact R|]. cbn. split; [reflexivity|]. split; [apply repeat_length|].
  assert (A : forall x, In x (repeat k m) -> x = k) by (intros x; apply repeat_spec).
  split; [apply Forall_forall; intros x Hx; now rewrite (A x Hx)|]. split.
  - clear. unfold waiting. induction m as [|m IH]; [reflexivity|]. cbn. now rewrite IH.
  - intros s' St. remember (MkCalls (repeat k m) false) as s eqn:Es. destruct St as [l d|l1 x x' l2 d St|l d]; injection Es as El Ed; subst.
    + now right.
    + exfalso. assert (x = k). { apply A. rewrite <- El. apply in_elt. } subst x. unfold k in St. inversion St. discriminate.
    + now left.
Qed.

(** When the streams of trc stream have returned, nothing is left of them but goroutines whose
    context was cancelled. *)
Theorem C100_stream_leaves_nothing n s : st_steps (st_init n) s -> st_main s = MReturned ->
  Forall (fun a => a_run a = RReturned /\ a_reporter a = false /\ Forall (fun t => told t /\ returned (snd t)) (a_turns a)) (st_addrs s).
Proof.
  intros R E. destruct (st_inv_reach n s R) as [I1 I2 I3 I4]. specialize (I4 E). rewrite Forall_forall in *. intros a Hin.
  destruct (I2 a Hin) as [J1 J2 J3 J4 J5]. specialize (I4 a Hin). cbn in I4. split; [exact I4|]. split; [auto|].
  rewrite I4 in J1. apply (shape_past _ _ J1); discriminate.
Qed.
(** At all times, and however often its streams failed, each address has at most one call that
    has not returned, and at most one whose context was not cancelled. *)
Theorem C100_stream_one_call_at_a_time n s a : st_steps (st_init n) s -> In a (st_addrs s) ->
  unreturned (map snd (a_turns a)) <= 1 /\ length (untold a) <= 1.
Proof.
  intros R Hin. destruct (st_inv_reach n s R) as [I1 I2 _ _]. rewrite Forall_forall in I2. destruct (I2 a Hin) as [J1 _ _ _ _].
  assert (P : forall ts, Forall past ts -> unreturned (map snd ts) = 0 /\ filter (fun t : bool * call => negb (fst t)) ts = []).
  { clear. induction 1 as [|[t k] ts [E1 E2] F [IH1 IH2]]; [split; reflexivity|]. cbn in *. subst t. unfold unreturned in *. cbn. rewrite E2. auto. }
  unfold untold. destruct J1 as [ph ts N1 N2 F|ts k F|ts k F]; destruct (P ts F) as [P1 P2].
  - rewrite P1, P2. cbn. lia.
  - rewrite filter_app, P2, map_app. unfold unreturned in *. rewrite filter_app, app_length, P1. cbn. destruct (k_phase k); cbn; lia.
  - rewrite filter_app, P2, map_app. unfold unreturned in *. rewrite filter_app, app_length, P1. cbn. destruct (k_phase k); cbn; lia.
Qed.
(** Nothing ends before the command is cancelled. *)
Theorem C100_stream_goes_on n s : st_steps (st_init n) s -> st_cancelled s = false ->
  st_main s = MWaiting /\ length (st_addrs s) = n /\ Forall (fun a => a_run a <> RReturned /\ a_reporter a = true) (st_addrs s).
Proof.
  intros R E. destruct (st_inv_reach n s R) as [I1 I2 I3 I4]. rewrite E in *. split; [|split; [exact I1|]].
  - destruct (st_main s); [reflexivity| |]; discriminate I3; discriminate.
  - eapply Forall_impl; [|exact I2]. intros a [J1 J2 J3 J4 J5]. split.
    + intros Q. rewrite Q in J3. discriminate.
    + destruct (a_reporter a); [reflexivity|]. discriminate J4; reflexivity.
Qed.
(** Once it is, from whatever state, everything can end. *)
Theorem C100_stream_ends n s : st_steps (st_init n) s -> st_cancelled s = true ->
  exists s', st_steps s s' /\ st_main s' = MReturned /\
    Forall (fun a => a_run a = RReturned /\ a_reporter a = false /\ Forall gone (map snd (a_turns a))) (st_addrs s').
Proof.
  intros R E. destruct (st_inv_reach n s R) as [I1 I2 I3 I4]. destruct s as [m l c]. cbn in *. subst c.
  destruct (st_addrs_end m l I2 []) as (l' & S & G). cbn in S.
  assert (F : Forall (fun a => a_run a = RReturned) l') by (eapply Forall_impl; [|exact G]; intros a A; apply A).
  exists (MkStreams MReturned l' true). split; [|split; [reflexivity|]].
  - eapply st_trans; [exact S|].
    assert (J : st_steps (MkStreams MJoining l' true) (MkStreams MReturned l' true)) by (econstructor; [now apply st_wait|constructor]).
    destruct m; [econstructor; [apply st_stop|exact J]|exact J|constructor].
  - cbn. eapply Forall_impl; [|exact G]. intros a (A1 & A2 & A3). split; [exact A1|]. split; [exact A2|]. apply Forall_map. eapply Forall_impl; [|exact A3]. intros t [_ T]. exact T.
Qed.

(** A search over two; a command with one address whose first stream failed and whose second was
    cancelled, with both goroutines about to end. *)
Example C100_search_instance : exists s, sc_reach 2 s /\ sc_returned 2 s /\ sc_gathered s = [1; 0].
Proof.
  eexists. split; [|split; [split|]].
  - eapply sc_r1; [|eapply (sc_gather 2 0 _ [] [1]); cbn; lia].
    eapply sc_r1; [|eapply (sc_gather 2 1 _ [0] []); cbn; lia].
    eapply sc_r1; [|eapply (sc_send 2 0 2 _ [1]); [|cbn; lia]].
    eapply sc_r1; [|eapply (sc_send 2 1 2 _ []); [|cbn; lia]].
    eapply sc_r1; [|eapply (sc_return 2 0)].
    eapply sc_r1; [|eapply (sc_return 2 1)].
    eapply sc_r1; [|apply sc_go; lia]. eapply sc_r1; [apply sc_r0|apply sc_go; lia].
    all: reflexivity.
  - reflexivity.
  - reflexivity.
  - reflexivity.
Qed.
Example C100_client_instance : exists s, cl_steps cl_init s /\ cl_done s = true /\ cl_calls s = [MkK KReturned WWaiting false; MkK KReading WEnded true].
Proof.
  exists (MkCalls [MkK KReturned WWaiting false; MkK KReading WEnded true] true). split; [|split; reflexivity].
  econstructor; [apply cl_call|]. cbn. econstructor; [eapply (cl_one []); apply k_open|]. cbn. econstructor; [eapply (cl_one []); apply k_fail|]. cbn.
  econstructor; [apply cl_call|]. cbn. econstructor; [eapply (cl_one [_]); apply k_open|]. cbn. econstructor; [apply cl_cancel|].
  econstructor; [eapply (cl_one [_]); apply k_watch; reflexivity|]. cbn. constructor.
Qed.
Example C100_stream_instance : exists s, st_steps (st_init 1) s /\ st_main s = MReturned
  /\ st_addrs s = [MkA RReturned false [(true, MkK KReturned WWaiting false); (true, MkK KReturned WEnded true)]].
Proof.
  exists (MkStreams MReturned [MkA RReturned false [(true, MkK KReturned WWaiting false); (true, MkK KReturned WEnded true)]] true).
  split; [|split; reflexivity]. unfold st_init, a_new. cbn.
  econstructor; [eapply (st_one _ [] _ _ []); eapply a_turn; reflexivity|]. cbn.
  econstructor; [eapply (st_one _ [] _ _ []); eapply (a_call _ _ _ []); apply k_open|]. cbn.
  econstructor; [eapply (st_one _ [] _ _ []); eapply (a_call _ _ _ []); apply k_fail|]. cbn.
  econstructor; [eapply (st_one _ [] _ _ []); eapply (a_error _ _ []); reflexivity|]. cbn.
  econstructor; [eapply (st_one _ [] _ _ []); eapply a_wake|]. cbn.
  econstructor; [eapply (st_one _ [] _ _ []); eapply a_turn; reflexivity|]. cbn.
  econstructor; [eapply (st_one _ [] _ _ []); eapply (a_call _ _ _ [_]); apply k_open|]. cbn.
  econstructor; [apply st_cancel|].
  econstructor; [eapply (st_one _ [] _ _ []); eapply (a_done _ _ [_]); reflexivity|]. cbn.
  econstructor; [eapply (st_one _ [] _ _ []); eapply (a_call _ _ _ [_]); apply k_watch; reflexivity|]. cbn.
  econstructor; [eapply (st_one _ [] _ _ []); eapply (a_call _ _ _ [_]); apply k_end|]. cbn.
  econstructor; [eapply (st_one _ [] _ _ []); eapply (a_join _ _ [_]); reflexivity|]. cbn.
  econstructor; [eapply (st_one _ [] _ _ []); eapply a_report; reflexivity|]. cbn.
  econstructor; [eapply (st_one _ [] _ _ []); eapply a_return|]. cbn.
  econstructor; [apply st_stop|]. econstructor; [apply st_wait; repeat constructor|]. constructor.
Qed.

Print Assumptions C100_search_leaves_nothing.
Print Assumptions C100_search_results_never_wait.
Print Assumptions C100_search_waits_for_searchers_only.
Print Assumptions C100_cancelled_search_still_waits_refuted.
Print Assumptions C100_client_keeps_its_goroutine.
Print Assumptions C100_client_ends.
Print Assumptions C100_client_left_running_refuted.
Print Assumptions C100_stream_leaves_nothing.
Print Assumptions C100_stream_one_call_at_a_time.
Print Assumptions C100_stream_goes_on.
Print Assumptions C100_stream_ends.

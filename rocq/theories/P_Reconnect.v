(** C86: a stream over several connections. *)
From Verif Require Import Go M_Strings M_Types M_Filter S_Filter L_Filter M_Text M_Json S_Json M_Broker S_Broker L_Broker S_TraceView P_Filter P_Search P_Broker P_Json M_StreamHttp S_StreamHttp L_StreamHttp M_Reconnect P_StreamHttp D_Demo P_JsonFindings.
Open Scope string_scope.
Open Scope list_scope.
Open Scope Z_scope.

Section C86.
Context {RE : Type}.
Variable Compile : string -> RE + string.
Variable MatchString : RE -> string -> bool.
Variable time_text : Z -> option string.
Variable parse_time : string -> option Z.
Variable caps : string -> Z.
Variable f : Filter RE.
Variable interval : Z.
Notation bop := (bop RE).
Notation run := (b_run Compile MatchString caps).
Notation conn_step := (conn_step Compile MatchString time_text parse_time caps).
Notation conn_steps := (conn_steps Compile MatchString time_text parse_time caps).
Notation reachable := (conn_reachable Compile MatchString time_text parse_time caps).
Notation leg_runs := (leg_runs Compile MatchString time_text parse_time caps f interval).
Notation session := (session Compile MatchString time_text parse_time caps f interval).
Notation wanted := (wanted Compile MatchString).
Notation matching h := (filter (matches Compile MatchString f) (published h)).

(** The handler that the client left goes on.  Whatever it does itself is, for a handler
    with another channel, something that happens elsewhere, so it makes no difference to
    what C67 says of the new connection. *)
Theorem C86_old_handler :
  forall conn own s s', conn_step conn f own interval s s' ->
    exists ops, x_history s' = x_history s ++ ops /\
      (Forall (elsewhere conn) ops \/ forall other, other <> conn -> Forall (elsewhere other) ops).
Proof.
  intros conn own s s' H.
  assert (N : forall t t' : conn_state RE, x_history t' = x_history t -> exists ops, x_history t' = x_history t ++ ops /\
      (Forall (elsewhere conn) ops \/ forall other, other <> conn -> Forall (elsewhere other) ops)).
  { intros t t' E. exists []. rewrite app_nil_r. split; [exact E|left; constructor]. }
  assert (O : forall (t t' : conn_state RE) o, x_history t' = x_history t ++ [o] -> (forall other, other <> conn -> elsewhere other o) ->
      exists ops, x_history t' = x_history t ++ ops /\ (Forall (elsewhere conn) ops \/ forall other, other <> conn -> Forall (elsewhere other) ops)).
  { intros t t' o E K. exists [o]. split; [exact E|]. right. intros other D. repeat constructor; apply (K other D). }
  destruct H; try (apply N; reflexivity).
  - exists [o]. split; [reflexivity|]. left. repeat constructor; apply H.
  - apply (O _ _ (BStream conn f)); [reflexivity|]. intros other D. split; [exact Logic.I|]. cbn. congruence.
  - apply (O _ _ (BDone conn)); [reflexivity|]. intros other D. split; [exact Logic.I|]. cbn. congruence.
  - apply (O _ _ (BReceive conn)); [reflexivity|]. intros other D. split; [exact Logic.I|]. cbn. congruence.
  - apply (O _ _ (BReceive conn)); [reflexivity|]. intros other D. split; [exact Logic.I|]. cbn. congruence.
  - apply N. destruct H0; reflexivity.
  - apply (O _ _ (BGiveUp conn)); [inversion H1; reflexivity|]. intros other D. split; [exact Logic.I|]. cbn. congruence.
Qed.
Lemma steps_history conn own s s' : conn_steps conn f own interval s s' -> exists seg, x_history s' = x_history s ++ seg.
Proof.
  intros H. induction H as [|s s1 s2 H [seg IH] Hs]; [exists []; rewrite app_nil_r; reflexivity|].
  destruct (C86_old_handler _ _ _ _ Hs) as (ops & E & _). exists (seg ++ ops). rewrite E, IH, app_assoc. reflexivity.
Qed.

Lemma subseq_filter {A} (p : A -> bool) (l l' : list A) : subseq l l' -> subseq (filter p l) (filter p l').
Proof. intros H. induction H as [|x l l' H IH|x l l' H IH]; [constructor| |]; cbn [filter]; destruct (p x); try constructor; exact IH. Qed.
Lemma subseq_map {A B} (g : A -> B) (l l' : list A) : subseq l l' -> subseq (map g l) (map g l').
Proof. intros H. induction H; cbn; constructor; assumption. Qed.
Lemma filter_sub {A} (p : A -> bool) (l : list A) : subseq (filter p l) l.
Proof. induction l as [|x l IH]; [constructor|]. cbn. destruct (p x); constructor; exact IH. Qed.
Lemma published_app (h h' : list bop) : published (h ++ h') = published h ++ published h'. Proof. apply flat_map_app. Qed.
Lemma elsewhere_quiet conn (h : list bop) : Forall (elsewhere conn) h -> quiet conn h.
Proof.
  intros H. split; induction H as [|o h [_ Ho] H IH]; try reflexivity; cbn [existsb]; rewrite IH, orb_false_r; destruct o; cbn in *; try reflexivity; apply String.eqb_neq; exact Ho.
Qed.
Lemma after_past conn (past seg h1 h2 : list bop) : quiet conn past -> past ++ seg = h1 ++ BStream conn f :: h2 -> exists r, h1 = past ++ r /\ seg = r ++ BStream conn f :: h2.
Proof.
  intros [Q _]. revert h1. induction past as [|o past IH]; intros h1 E; [exists h1; split; [reflexivity|exact E]|].
  cbn [existsb] in Q. apply orb_false_iff in Q as [Q1 Q2]. destruct h1 as [|o' h1]; cbn in E; injection E as -> E.
  - cbn in Q1. rewrite String.eqb_refl in Q1. discriminate.
  - destruct (IH Q2 h1 E) as (r & -> & ->). exists r. split; reflexivity.
Qed.

Section Ok.
Hypothesis time_ok : forall t s, time_text t = Some s -> parse_time s = Some t.

Lemma leg_reachable l : leg_runs l -> reachable (leg_channel l) f (leg_request l) interval (leg_end l).
Proof. intros (s0 & H1 & H2). exists (leg_past l), s0. split; assumption. Qed.

(** A connection's subscription only sees what was published after its past. *)
Lemma wanted_since l : leg_runs l -> exists seg, x_history (leg_end l) = leg_past l ++ seg /\ subseq (wanted (leg_channel l) (x_history (leg_end l))) (matching seg).
Proof.
  intros R. pose proof (reachable_ok Compile MatchString time_text parse_time time_ok caps (leg_channel l) f (leg_request l) interval _ (leg_reachable l R)) as ((_ & G & _) & _).
  destruct R as (s0 & [Hp ->] & H). destruct (steps_history _ _ _ _ H) as (seg & E). cbn in E. exists seg. split; [exact E|].
  pose proof (elsewhere_quiet _ _ Hp) as Q.
  destruct (x_goroutine (leg_end l)).
  - unfold S_Broker.wanted. rewrite quiet_wanted by exact G. apply subseq_nil_l.
  - destruct G as (h1 & h2 & E1 & Q1 & Q2). rewrite E in E1. destruct (after_past _ _ _ _ _ Q E1) as (r & -> & ->). rewrite E, app_assoc, wanted_window by assumption.
    rewrite published_app, filter_app. apply (subseq_app [] _); [apply subseq_nil_l|]. change (published (BStream (leg_channel l) f :: h2)) with (published h2). apply subseq_refl.
  - destruct G as [(h1 & h2 & h3 & E1 & Q1 & Q2 & Q3) _]. rewrite E in E1. destruct (after_past _ _ _ _ _ Q E1) as (r & -> & ->). rewrite E, app_assoc.
    assert (W : wanted (leg_channel l) ((leg_past l ++ r) ++ BStream (leg_channel l) f :: h2 ++ BDone (leg_channel l) :: h3) = matching h2).
    { rewrite <- (wanted_window Compile MatchString (leg_channel l) f (leg_past l ++ r) h2 Q1 Q2). unfold S_Broker.wanted.
      assert (A : forall h h' cur, wanted_from Compile MatchString (leg_channel l) cur (h ++ h') =
         wanted_from Compile MatchString (leg_channel l) cur h ++ wanted_from Compile MatchString (leg_channel l) (fold_left (sub_after (leg_channel l)) h cur) h').
      { induction h as [|o h IH]; intros h' cur; [reflexivity|]. cbn [app]. cbn [wanted_from]. rewrite IH. cbn [fold_left wanted_from]. rewrite <- app_assoc. reflexivity. }
      replace ((leg_past l ++ r) ++ BStream (leg_channel l) f :: h2 ++ BDone (leg_channel l) :: h3) with (((leg_past l ++ r) ++ BStream (leg_channel l) f :: h2) ++ BDone (leg_channel l) :: h3) by (rewrite <- app_assoc; reflexivity).
      rewrite A. cbn [wanted_from sub_after published1]. rewrite String.eqb_refl, (quiet_wanted Compile MatchString (leg_channel l) h3 Q3). destruct (fold_left _ _ None); cbn; rewrite app_nil_r; reflexivity. }
    rewrite W, published_app, filter_app. apply (subseq_app [] _); [apply subseq_nil_l|]. change (published (BStream (leg_channel l) f :: h2 ++ BDone (leg_channel l) :: h3)) with (published (h2 ++ BDone (leg_channel l) :: h3)).
    rewrite published_app, filter_app. apply subseq_snoc_drop, subseq_refl.
Qed.
Lemma got_since l : leg_runs l -> exists seg, x_history (leg_end l) = leg_past l ++ seg /\ subseq (x_got (leg_end l)) (map sent_trace (matching seg)).
Proof.
  intros R. destruct (wanted_since l R) as (seg & E & W). exists seg. split; [exact E|].
  eapply subseq_trans; [apply (C67_remote_traces_in_order Compile MatchString time_text parse_time caps (leg_channel l) f (leg_request l) interval time_ok _ (leg_reachable l R))|].
  eapply subseq_trans; [apply visible_subseq; exact W|]. apply subseq_map, filter_sub.
Qed.

(** Over all connections of a Stream, the client gets matching traces that were published,
    in the order in which they were published, and each publication at most once: a
    reconnect neither repeats nor reorders anything. *)
Theorem C86_in_order_at_most_once :
  forall ls l, session (ls ++ [l]) ->
    subseq (session_got (ls ++ [l])) (map sent_trace (matching (x_history (leg_end l)))).
Proof.
  assert (G : forall all, session all -> forall ls l, all = ls ++ [l] -> subseq (session_got all) (map sent_trace (matching (x_history (leg_end l))))).
  { intros all H. induction H as [l0 R|ls0 l0 meanwhile l' H IH Hc Hp R]; intros ls l E.
    - destruct ls as [|? [|? ls]]; cbn in E; try discriminate. injection E as ->. unfold session_got. cbn. rewrite app_nil_r.
      destruct (got_since l R) as (seg & E & G). rewrite E, published_app, filter_app, map_app. apply (subseq_app [] _); [apply subseq_nil_l|exact G].
    - apply app_inj_tail in E as [_ ->]. unfold session_got. rewrite flat_map_app. cbn [flat_map]. rewrite app_nil_r.
      destruct (got_since l R) as (seg & E & G). rewrite E, Hp, !published_app, !filter_app, !map_app. apply subseq_app; [|exact G].
      apply subseq_snoc_drop. apply (IH ls0 l0). reflexivity. }
  intros ls l H. apply (G _ H ls l eq_refl).
Qed.
Lemma subseq_in {A} (l l' : list A) : subseq l l' -> forall x, In x l -> In x l'.
Proof. intros H. induction H; cbn; intros y Hy; [exact Hy| |]; intuition. Qed.
Lemma subseq_NoDup {A} (l l' : list A) : subseq l l' -> NoDup l' -> NoDup l.
Proof.
  intros H. induction H as [|x l l' H IH|x l l' H IH]; intros N; [exact N| |]; inversion N; subst.
  - constructor; [|apply IH; assumption]. intros K. apply (subseq_in _ _ H) in K. contradiction.
  - apply IH. assumption.
Qed.
(** So, if no two publications are the same, no two traces on the channel are. *)
Theorem C86_no_duplicates :
  forall ls l, session (ls ++ [l]) -> NoDup (map sent_trace (matching (x_history (leg_end l)))) -> NoDup (session_got (ls ++ [l])).
Proof. intros ls l H N. eapply subseq_NoDup; [apply C86_in_order_at_most_once; exact H|exact N]. Qed.

(** If every connection was idle when the client left it, without drops and failures, then
    what the client gets is what was published while one of its handlers was subscribed. *)
Theorem C86_only_gaps_are_lost :
  forall ls, session ls ->
    Forall (fun l => x_failed (leg_end l) = false /\ x_client_done (leg_end l) = false /\
       settled (leg_end l) (tracec Compile MatchString caps (leg_channel l) (leg_end l)) /\
       exists st, StreamStats_ (leg_channel l) (run (x_history (leg_end l))) = RStats st /\ Drops st = 0) ls ->
    session_got ls = flat_map (fun l => visible (leg_request l) (wanted (leg_channel l) (x_history (leg_end l)))) ls.
Proof.
  intros ls H F. assert (R : Forall leg_runs ls).
  { clear F. induction H; [repeat constructor; assumption|]. apply Forall_app. split; [assumption|repeat constructor; assumption]. }
  clear H. unfold session_got. induction ls as [|l ls IH]; [reflexivity|]. inversion F as [|? ? (F1 & F2 & F3 & st & F4 & F5) F']; subst. inversion R as [|? ? R1 R']; subst.
  cbn [flat_map]. rewrite IH by assumption. f_equal.
  apply (C67_everything_arrives Compile MatchString time_text parse_time caps (leg_channel l) f (leg_request l) interval time_ok _ st (leg_reachable l R1)); assumption.
Qed.
End Ok.
End C86.

(** *** A case: two connections, and what was published before, between and during them *)
Definition demo_begin (past : list (bop string)) : conn_state string := MkConn past GStart HStart false false false false [] [] CReading false [].
Notation demo_session := (session demo_compile demo_match demo_time demo_parse_time (fun _ => 1) no_filter 10).
Notation demo_leg_runs := (leg_runs demo_compile demo_match demo_time demo_parse_time (fun _ => 1) no_filter 10).
Definition demo_during (ch id : string) : list (bop string) := [BStream ch no_filter; BReceive ch; demo_seven_pub id; BReceive ch].
Definition demo_past1 : list (bop string) := [demo_seven_pub "0"].
Definition demo_past2 : list (bop string) := (demo_past1 ++ demo_during "c1" "1") ++ [BGiveUp "c1"; demo_seven_pub "gap"; BDone "c1"].
Definition demo_end (past : list (bop string)) (ch id : string) (j : json) : conn_state string :=
  MkConn (past ++ demo_during ch id) GWaiting HSelect true false false false [WTrace j] [] CReading false [sent_trace (demo_seven_trace id)].
Lemma demo_leg past ch own id j : (past, ch, own, id) = (demo_past1, "c1", "own1", "1") \/ (past, ch, own, id) = (demo_past2, "c2", "own2", "2") ->
  enc_static demo_time (demo_seven_trace id) j -> demo_leg_runs (MkLeg ch own past (demo_end past ch id j)).
Proof.
  intros K Hj. exists (demo_begin past). split.
  - split; [|reflexivity]. destruct K as [K|K]; injection K as -> -> -> ->; unfold demo_past2, demo_past1, demo_during; cbn [app];
      repeat (apply Forall_cons; [split; [try exact Logic.I; try (intros l; apply Permutation_refl)|cbn; try exact Logic.I; try discriminate]|]); apply Forall_nil.
  - cbn [leg_end leg_channel leg_request].
    assert (E : forall a b c d : bop string, past ++ [a; b; c; d] = (((past ++ [a]) ++ [b]) ++ [c]) ++ [d]) by (intros; rewrite <- !app_assoc; reflexivity).
    unfold demo_end, demo_during. rewrite E. clear E.
    match goal with |- conn_steps _ _ _ _ _ _ _ _ _ _ ?t => enough (G : exists s, conn_steps demo_compile demo_match demo_time demo_parse_time (fun _ => 1) ch no_filter own 10 (demo_begin past) s /\ s = t) by (destruct G as (s & G & <-); exact G) end.
    eexists. split.
    econstructor; [econstructor; [econstructor; [econstructor; [econstructor; [econstructor; [econstructor; [econstructor; [econstructor; [apply XNone|]|]|]|]|]|]|]|]|].
    + apply XSubscribe. reflexivity.
    + apply XStart; [reflexivity|lia].
    + apply XBlock; [reflexivity|]. destruct K as [K|K]; injection K as -> -> -> ->; vm_compute; reflexivity.
    + apply (XElsewhere _ _ _ _ _ _ _ _ _ _ (demo_seven_pub id)). split; [intros l; apply Permutation_refl|exact Logic.I].
    + eapply (XHanded _ _ _ _ _ _ _ _ _ _ [] (demo_seven_trace id)); [reflexivity| |]; destruct K as [K|K]; injection K as -> -> -> ->; vm_compute; reflexivity.
    + eapply XTrace; [reflexivity| |exact Hj]. destruct K as [K|K]; injection K as -> -> -> ->; discriminate.
    + apply XBlock; [reflexivity|]. destruct K as [K|K]; injection K as -> -> -> ->; vm_compute; reflexivity.
    + eapply XReadTrace; [reflexivity|reflexivity|]. exact (static_ok demo_time demo_parse_time demo_times _ _ Hj).
    + eapply XSend. reflexivity.
    + reflexivity.
Qed.
Lemma demo_two_legs : exists l1 l2, demo_session [l1; l2] /\ x_history (leg_end l2) = demo_past2 ++ demo_during "c2" "2" /\
  session_got [l1; l2] = [sent_trace (demo_seven_trace "1"); sent_trace (demo_seven_trace "2")] /\
  Forall (fun l => x_failed (leg_end l) = false /\ x_client_done (leg_end l) = false /\
       settled (leg_end l) (tracec demo_compile demo_match (fun _ => 1) (leg_channel l) (leg_end l)) /\
       exists st, StreamStats_ (leg_channel l) (b_run demo_compile demo_match (fun _ => 1) (x_history (leg_end l))) = RStats st /\ Drops st = 0) [l1; l2].
Proof.
  destruct (enc_static_ex demo_time (demo_seven_trace "1")) as [j1 H1]; [split; [discriminate|constructor]|].
  destruct (enc_static_ex demo_time (demo_seven_trace "2")) as [j2 H2]; [split; [discriminate|constructor]|].
  exists (MkLeg "c1" "own1" demo_past1 (demo_end demo_past1 "c1" "1" j1)), (MkLeg "c2" "own2" demo_past2 (demo_end demo_past2 "c2" "2" j2)).
  split; [|split; [reflexivity|split; [reflexivity|]]].
  - apply (SAgain _ _ _ _ _ _ _ [] (MkLeg "c1" "own1" demo_past1 (demo_end demo_past1 "c1" "1" j1)) [BGiveUp "c1"; demo_seven_pub "gap"; BDone "c1"]); [|reflexivity|reflexivity|apply demo_leg; [right; reflexivity|exact H2]].
    apply SFirst, demo_leg; [left; reflexivity|exact H1].
  - repeat constructor; cbn [leg_end leg_channel demo_end x_failed x_client_done x_client x_wire]; try (right; split; [reflexivity|]); try (eexists; split; [vm_compute; reflexivity|reflexivity]); vm_compute; reflexivity.
Qed.
(** Finding: the events carry no ID, so a new connection cannot ask for what was missed:
    traces that match are lost for the client although nothing was dropped, nothing failed,
    and Stream does not return, or say so. *)
Theorem C86_gap_refuted :
  exists l1 l2 tr, demo_session [l1; l2] /\
    Forall (fun l => x_failed (leg_end l) = false /\ x_client_done (leg_end l) = false /\
       settled (leg_end l) (tracec demo_compile demo_match (fun _ => 1) (leg_channel l) (leg_end l)) /\
       exists st, StreamStats_ (leg_channel l) (b_run demo_compile demo_match (fun _ => 1) (x_history (leg_end l))) = RStats st /\ Drops st = 0) [l1; l2] /\
    exists earlier first second, published (x_history (leg_end l2)) = [earlier; first; tr; second] /\
      matches demo_compile demo_match no_filter tr = true /\
      session_got [l1; l2] = map sent_trace [first; second] /\ ~ In (sent_trace tr) (session_got [l1; l2]).
Proof.
  destruct demo_two_legs as (l1 & l2 & S & E & G & F). exists l1, l2, (demo_seven_trace "gap"). split; [exact S|]. split; [exact F|].
  exists (demo_seven_trace "0"), (demo_seven_trace "1"), (demo_seven_trace "2"). rewrite E, G. split; [reflexivity|]. split; [vm_compute; reflexivity|]. split; [reflexivity|].
  intros [K|[K|[]]]; discriminate K.
Qed.
Example C86_instance :
  times_read_back demo_time demo_parse_time /\
  exists l1 l2, demo_session ([l1] ++ [l2]) /\ map TraceID (session_got [l1; l2]) = ["1"; "2"] /\
    map TraceID (published (x_history (leg_end l2))) = ["0"; "1"; "gap"; "2"] /\
    NoDup (map sent_trace (filter (matches demo_compile demo_match no_filter) (published (x_history (leg_end l2))))) /\
    Forall (fun l => x_failed (leg_end l) = false /\ x_client_done (leg_end l) = false /\
       settled (leg_end l) (tracec demo_compile demo_match (fun _ => 1) (leg_channel l) (leg_end l)) /\
       exists st, StreamStats_ (leg_channel l) (b_run demo_compile demo_match (fun _ => 1) (x_history (leg_end l))) = RStats st /\ Drops st = 0) [l1; l2].
Proof.
  split; [exact demo_times|]. destruct demo_two_legs as (l1 & l2 & S & E & G & F). exists l1, l2. split; [exact S|]. split; [rewrite G; reflexivity|].
  split; [rewrite E; reflexivity|]. split; [|exact F]. rewrite E.
  match goal with |- NoDup ?l => let v := eval vm_compute in l in replace l with v by (vm_compute; reflexivity) end.
  repeat constructor; cbn; intros K; repeat destruct K as [K|K]; try discriminate K; exact K.
Qed.
Print Assumptions C86_old_handler.
Print Assumptions C86_in_order_at_most_once.
Print Assumptions C86_no_duplicates.
Print Assumptions C86_only_gaps_are_lost.
Print Assumptions C86_gap_refuted.

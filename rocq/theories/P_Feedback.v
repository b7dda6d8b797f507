(** C99: streams do not feed on each other, unless several of them are broken. *)
From Verif Require Import Go L_List M_Strings M_Types M_Filter S_Filter L_Filter M_Text M_Broker S_Broker L_Broker S_TraceView P_Filter P_Broker M_StreamHttp L_StreamHttp M_Feedback S_Feedback D_Demo.
From Coq Require Import ZifyBool Permutation.
Open Scope string_scope.
Open Scope list_scope.
Open Scope Z_scope.

Lemma part_send m c handled str c' : chan_part m c handled -> try_send c str = Some c' -> chan_part m c' handled.
Proof.
  unfold chan_part, try_send. intros H. destruct (Z.ltb_spec 0 (ch_waiting c)) as [L|L].
  - intros [= <-]. cbn. destruct m; try (exfalso; lia); (destruct H as [[H1 H2]|[H1 _]]; [|lia]) || (exfalso; lia).
    right. split; [lia|]. exists str. rewrite H2. reflexivity.
  - destruct (_ <? _); [|discriminate]. intros [= <-]. exact H.
Qed.

Section Feedback.
Context {RE : Type}.
Variable Compile : string -> RE + string.
Variable MatchString : RE -> string -> bool.
Variable caps : string -> Z.
Variable is_conn : string -> bool.
Variable own : string -> string.
Notation bop := (bop RE).
Notation run := (b_run Compile MatchString caps).
Notation server := (server RE).
Notation v_chan := (v_chan Compile MatchString caps).
Notation server_step := (server_step Compile MatchString caps is_conn own).
Notation reachable := (server_reachable Compile MatchString caps is_conn own).

Lemma view_snoc c h (o : bop) : Forall valid_bop h -> valid_bop o ->
  view_of c (run (h ++ [o])) = fold_left (step1 Compile MatchString) (own1 c o) (view_of c (run h)).
Proof.
  intros Hv Ho. rewrite run_split by (auto; repeat constructor; auto). unfold concerning. cbn [flat_map]. rewrite app_nil_r. reflexivity.
Qed.
Lemma chan_snoc c h (o : bop) : Forall valid_bop h -> valid_bop o ->
  b_chans (run (h ++ [o])) c = snd (fold_left (step1 Compile MatchString) (own1 c o) (view_of c (run h))).
Proof. intros Hv Ho. rewrite <- view_snoc by assumption. reflexivity. Qed.
Lemma chan_good c h : Forall valid_bop h -> chan_ok (b_chans (run h) c).
Proof.
  intros Hv. assert (H : view_ok (view_of c (run h))); [|exact H]. rewrite run_view by exact Hv. apply view_ok_steps, view_ok_init.
Qed.
(** What an operation that is not a receive on the channel does to it. *)
Lemma chan_other c h (o : bop) : Forall valid_bop h -> valid_bop o ->
  (match o with BReceive c' | BGiveUp c' => c' <> c | _ => True end) ->
  b_chans (run (h ++ [o])) c = b_chans (run h) c \/ exists str, try_send (b_chans (run h) c) str = Some (b_chans (run (h ++ [o])) c).
Proof.
  intros Hv Ho Hc. rewrite chan_snoc by assumption. destruct o as [c' g|c'|order [str|]|c'|c'|c']; cbn [own1]; try (left; reflexivity).
  - destruct (String.eqb c' c); [|left; reflexivity]. cbn. destruct (map_get c _); left; reflexivity.
  - destruct (String.eqb c' c); left; reflexivity.
  - cbn [fold_left step1]. unfold deliver. cbn [view_of fst snd]. destruct (map_get c (b_subs (run h))) as [sub|]; [|left; reflexivity].
    destruct (Allow Compile MatchString (sub_filter sub) str) as [f' []]; [|left; reflexivity].
    destruct (try_send (b_chans (run h) c) str) eqn:E; [right; exists str; exact E|left; reflexivity].
  - apply String.eqb_neq in Hc. rewrite Hc. left. reflexivity.
  - apply String.eqb_neq in Hc. rewrite Hc. left. reflexivity.
Qed.

Definition nonown (c : string) (tr : StaticTrace) : bool := negb (String.eqb (TraceID tr) (own c)).
Definition echoes (c : string) (s : server) : Z := count_of (is_echo_of c) (v_said s).
Definition conn_inv (s : server) (c : string) : Prop :=
  exists handled, chan_part (v_handler s c) (v_chan s c) handled /\ echoes c s <= zlen (filter (nonown c) handled).
Record server_ok (s : server) : Prop := {
  k_valid : Forall valid_bop (v_history s);
  k_said : published (v_history s) = map snd (v_said s);
  k_conn : forall c, is_conn c = true -> conn_inv s c;
  k_echo : forall c str, In (Echo c, str) (v_said s) -> TraceID str = own c /\ TraceFinished str = false }.

Lemma published_snoc (h : list bop) o : published (h ++ [o]) = published h ++ published1 o.
Proof. unfold published. rewrite flat_map_app. cbn. rewrite app_nil_r. reflexivity. Qed.
Lemma echoes_say c s why order str : echoes c (say why order str s) = echoes c s + if is_echo_of c (why, str) then 1 else 0.
Proof.
  unfold echoes, count_of, say, zlen. cbn [v_said]. rewrite filter_app, app_length. cbn [filter]. destruct (is_echo_of c (why, str)); cbn [length]; lia.
Qed.

(** An operation that does not move the handler of [c]. *)
Lemma conn_inv_on s c (o : bop) said : Forall valid_bop (v_history s) -> valid_bop o ->
  (match o with BReceive c' | BGiveUp c' => c' <> c | _ => True end) ->
  conn_inv s c -> count_of (is_echo_of c) said <= echoes c s -> conn_inv (MkServer (v_history s ++ [o]) (v_handler s) said) c.
Proof.
  intros Hv Ho Hc (handled & H1 & H2) He. exists handled. split; [|unfold echoes; cbn [v_said]; lia].
  unfold M_Feedback.v_chan in *. cbn [v_history v_handler]. destruct (chan_other c (v_history s) o Hv Ho Hc) as [->|(str & E)]; [exact H1|].
  eapply part_send; [exact H1|exact E].
Qed.
Lemma conn_inv_at s c c' m : c' <> c -> conn_inv s c -> conn_inv (at_ c' m s) c.
Proof.
  intros Hne (handled & H1 & H2). exists handled. split; [|exact H2]. cbn [at_ v_handler]. destruct (String.eqb_spec c c') as [->|]; [contradiction|]. exact H1.
Qed.
Lemma handler_at s c m : v_handler (at_ (RE:=RE) c m s) c = m.
Proof. cbn. rewrite String.eqb_refl. reflexivity. Qed.
Lemma v_chan_at s c m x : v_chan (at_ c m s) x = v_chan s x. Proof. reflexivity. Qed.

Lemma ok_step s s' : server_step s s' -> server_ok s -> server_ok s'.
Proof.
  intros Hs [K1 K2 K3 K4]. destruct Hs.
  - (* besides *)
    assert (Hvo : valid_bop o) by (destruct o; try exact I; destruct H).
    constructor; cbn [on v_history v_said].
    + apply Forall_app. split; [exact K1|repeat constructor; exact Hvo].
    + rewrite published_snoc, K2. destruct o; try (destruct H; fail); cbn [published1]; apply app_nil_r.
    + intros c Hc. apply conn_inv_on; auto; [|unfold echoes; lia]. destruct o; try exact I; intros ->; cbn in H; congruence.
    + exact K4.
  - (* program *)
    constructor; cbn [say v_history v_said].
    + apply Forall_app. split; [exact K1|repeat constructor; exact H].
    + rewrite published_snoc, K2, map_app. reflexivity.
    + intros c Hc. apply conn_inv_on; auto. pose proof (echoes_say c s Program order str) as E. unfold echoes in E at 1. cbn [say v_said is_echo_of fst] in E. lia.
    + intros c str' Hin. apply in_app_or in Hin as [Hin|[E|[]]]; [apply (K4 _ _ Hin)|discriminate].
  - (* logged *)
    constructor; cbn [say v_history v_said].
    + apply Forall_app. split; [exact K1|repeat constructor; exact H0].
    + rewrite published_snoc, K2, map_app. reflexivity.
    + intros c' Hc. apply conn_inv_on; auto. pose proof (echoes_say c' s (Logged c) order str) as E. unfold echoes in E at 1. cbn [say v_said is_echo_of fst] in E. lia.
    + intros c' str' Hin. apply in_app_or in Hin as [Hin|[E|[]]]; [apply (K4 _ _ Hin)|discriminate].
  - (* start *)
    constructor; auto. intros c' Hc. destruct (string_dec c c') as [<-|Hne]; [|apply conn_inv_at; auto].
    destruct (K3 c Hc) as (handled & H1 & H2). exists handled. split; [|exact H2]. rewrite handler_at, v_chan_at. rewrite H0 in H1. exact H1.
  - (* receive *)
    constructor; cbn [at_ on v_history v_said]; auto.
    + apply Forall_app. split; [exact K1|repeat constructor].
    + rewrite published_snoc, K2. apply app_nil_r.
    + intros c' Hc. destruct (string_dec c c') as [<-|Hne].
      * destruct (K3 c Hc) as (handled & G1 & G2). exists handled. split; [|exact G2]. rewrite handler_at, v_chan_at. rewrite H0 in G1. unfold M_Feedback.v_chan in *. cbn [on v_history].
        rewrite chan_snoc by (auto; exact I). cbn [own1]. rewrite String.eqb_refl. cbn [fold_left step1 snd]. rewrite snd_view. unfold receive. rewrite H1.
        destruct G1 as [G1 G3]. split; [exact G1|]. cbn. rewrite G3. reflexivity.
      * apply (conn_inv_at (on (BReceive c) s)); auto. apply conn_inv_on; auto; [exact I|unfold echoes; lia].
  - (* block *)
    constructor; cbn [at_ on v_history v_said]; auto.
    + apply Forall_app. split; [exact K1|repeat constructor].
    + rewrite published_snoc, K2. apply app_nil_r.
    + intros c' Hc. destruct (string_dec c c') as [<-|Hne].
      * destruct (K3 c Hc) as (handled & G1 & G2). exists handled. split; [|exact G2]. rewrite handler_at, v_chan_at. rewrite H0 in G1. unfold M_Feedback.v_chan in *. cbn [on v_history].
        rewrite chan_snoc by (auto; exact I). cbn [own1]. rewrite String.eqb_refl. cbn [fold_left step1 snd]. rewrite snd_view. unfold receive. rewrite H1.
        destruct G1 as [G1 G3]. left. cbn. split; [lia|exact G3].
      * apply (conn_inv_at (on (BReceive c) s)); auto. apply conn_inv_on; auto; [exact I|unfold echoes; lia].
  - (* handed *)
    constructor; auto. intros c' Hc. destruct (string_dec c c') as [<-|Hne]; [|apply conn_inv_at; auto].
    destruct (K3 c Hc) as (handled & G1 & G2). rewrite H0 in G1. destruct G1 as [[G1 _]|[G1 (v & G3)]]; [exfalso; lia|].
    exists handled. split; [|exact G2]. rewrite handler_at, v_chan_at. split; [exact G1|]. rewrite H2 in G3. apply app_inj_tail in G3 as [-> ->]. exact H2.
  - (* unblock *)
    constructor; cbn [at_ on v_history v_said]; auto.
    + apply Forall_app. split; [exact K1|repeat constructor].
    + rewrite published_snoc, K2. apply app_nil_r.
    + intros c' Hc. destruct (string_dec c c') as [<-|Hne].
      * destruct (K3 c Hc) as (handled & G1 & G2). exists handled. split; [|exact G2]. rewrite handler_at, v_chan_at. rewrite H0 in G1. unfold M_Feedback.v_chan in *. cbn [on v_history].
        rewrite chan_snoc by (auto; exact I). cbn [own1]. rewrite String.eqb_refl. cbn [fold_left step1 snd]. rewrite snd_view. unfold give_up.
        destruct (Z.ltb_spec 0 (ch_waiting (b_chans (run (v_history s)) c))); [|lia]. destruct G1 as [[G1 G3]|[G1 _]]; [|lia]. split; [cbn; lia|exact G3].
      * apply (conn_inv_at (on (BGiveUp c) s)); auto. apply conn_inv_on; auto; [exact I|unfold echoes; lia].
  - (* own *)
    constructor; auto. intros c' Hc. destruct (string_dec c c') as [<-|Hne]; [|apply conn_inv_at; auto].
    destruct (K3 c Hc) as (handled & G1 & G2). rewrite H0 in G1. destruct G1 as [G1 G3]. exists (handled ++ [recv]). split; [rewrite handler_at, v_chan_at; split; assumption|].
    rewrite filter_app. unfold zlen in *. rewrite app_length. change (echoes c (at_ c HLoop s)) with (echoes c s). lia.
  - (* written *)
    constructor; auto. intros c' Hc. destruct (string_dec c c') as [<-|Hne]; [|apply conn_inv_at; auto].
    destruct (K3 c Hc) as (handled & G1 & G2). rewrite H0 in G1. destruct G1 as [G1 G3]. exists (handled ++ [recv]). split; [rewrite handler_at, v_chan_at; split; assumption|].
    rewrite filter_app. unfold zlen in *. rewrite app_length. change (echoes c (at_ c HLoop s)) with (echoes c s). lia.
  - (* failed *)
    constructor; cbn [at_ say v_history v_said]; auto.
    + apply Forall_app. split; [exact K1|repeat constructor; exact H2].
    + rewrite published_snoc, K2, map_app. reflexivity.
    + intros c' Hc. pose proof (echoes_say c' s (Echo c) order str) as E. unfold is_echo_of in E. cbn [fst] in E.
      destruct (String.eqb_spec c c') as [<-|Hne].
      * destruct (K3 c Hc) as (handled & G1 & G2). rewrite H0 in G1. exists (handled ++ [recv]). split.
        -- rewrite handler_at, v_chan_at. cbn [say v_history].
           assert (G : chan_part (HTrace recv) (v_chan (say (Echo c) order str s) c) handled).
           { unfold M_Feedback.v_chan in *. cbn [say v_history]. destruct (chan_other c (v_history s) (BPublish order (Ok str)) K1 H2 Logic.I) as [->|(x & Ex)]; [exact G1|].
             eapply part_send; [exact G1|exact Ex]. }
           destruct G as [G G']. split; assumption.
        -- change (echoes c (at_ c HLoop (say (Echo c) order str s))) with (echoes c (say (Echo c) order str s)).
           rewrite filter_app. unfold zlen in *. rewrite app_length. cbn [filter].
           assert (En : nonown c recv = true) by (unfold nonown; apply String.eqb_neq in H1; rewrite H1; reflexivity). rewrite En. cbn [length]. lia.
      * apply (conn_inv_at (say (Echo c) order str s)); auto. apply conn_inv_on; auto. unfold echoes in E at 1. cbn [say v_said] in E. lia.
    + intros c' str' Hin. apply in_app_or in Hin as [Hin|[Ei|[]]]; [apply (K4 _ _ Hin)|]. injection Ei as <- <-. split; assumption.
  - (* return *)
    constructor; auto. intros c' Hc. destruct (string_dec c c') as [<-|Hne]; [|apply conn_inv_at; auto].
    destruct (K3 c Hc) as (handled & G1 & G2). exists handled. split; [|exact G2]. rewrite handler_at, v_chan_at. rewrite H0 in G1. exact G1.
Qed.

Lemma ok_reachable s : reachable s -> server_ok s.
Proof.
  intros H. induction H as [|s s' H IH Hs]; [|eapply ok_step; eassumption].
  constructor; [constructor|reflexivity| |intros c str []]. intros c Hc. exists []. split; [split; reflexivity|reflexivity].
Qed.

(** Counting in subsequences. *)
Lemma subseq_filter_len {A} (P : A -> bool) l l' : subseq l l' -> zlen (filter P l) <= zlen (filter P l').
Proof. unfold zlen. intros H. induction H as [|x l l' H IH|x l l' H IH]; cbn; [lia| |]; destruct (P x); cbn [length]; lia. Qed.
Lemma filter_subseq {A} (P : A -> bool) l : subseq (filter P l) l.
Proof. induction l as [|x l IH]; cbn; [constructor|]. destruct (P x); constructor; exact IH. Qed.
Lemma wanted_published c h : forall cur, subseq (wanted_from Compile MatchString c cur h) (published h).
Proof.
  induction h as [|o h IH]; intros cur; cbn [S_Broker.wanted_from]; [constructor|]. change (published (o :: h)) with (published1 o ++ published h).
  apply subseq_app; [|apply IH]. destruct cur; [apply filter_subseq|apply subseq_nil_l].
Qed.
Lemma handled_bound s c P : server_ok s -> is_conn c = true ->
  exists handled, echoes c s <= zlen (filter (nonown c) handled) /\
    (forall tr, In tr handled -> In tr (delivered (v_chan s c))) /\
    zlen (filter P handled) <= zlen (filter P (published (v_history s))).
Proof.
  intros [K1 K2 K3 K4] Hc. destruct (K3 c Hc) as (handled & G1 & G2). exists handled. split; [exact G2|].
  assert (Hpre : exists rest, delivered (v_chan s c) = handled ++ rest).
  { unfold delivered. destruct (v_handler s c); cbn in G1; try (destruct G1 as [_ G1]; rewrite G1; rewrite <- ?app_assoc; eexists; reflexivity).
    destruct G1 as [[_ G1]|[_ (v & G1)]]; rewrite G1, <- ?app_assoc; eexists; reflexivity. }
  destruct Hpre as (rest & E). split; [intros tr Ht; rewrite E; apply in_or_app; left; exact Ht|].
  pose proof (C35_matching_traces_in_order Compile MatchString caps c (v_history s) K1) as Hsub.
  pose proof (subseq_filter_len P _ _ Hsub) as L1. pose proof (subseq_filter_len P _ _ (wanted_published c (v_history s) None)) as L2.
  change (b_chans (run (v_history s)) c) with (v_chan s c) in L1. rewrite E, filter_app in L1. unfold zlen in *. rewrite app_length in L1. unfold S_Broker.wanted in L1. lia.
Qed.
Lemma count_map (P : StaticTrace -> bool) (l : list (cause * StaticTrace)) : zlen (filter P (map snd l)) = count_of (fun p => P (snd p)) l.
Proof. unfold count_of, zlen. induction l as [|p l IH]; [reflexivity|]. cbn. destruct (P (snd p)); cbn [length]; lia. Qed.
Lemma count_le (P Q : cause * StaticTrace -> bool) l : (forall p, In p l -> P p = true -> Q p = true) -> count_of P l <= count_of Q l.
Proof.
  unfold count_of, zlen. induction l as [|p l IH]; intros H; [cbn; lia|]. cbn. assert (IH' := IH (fun q Hq => H q (or_intror Hq))).
  specialize (H p (or_introl eq_refl)). destruct (P p); [rewrite H by reflexivity|destruct (Q p)]; cbn [length]; lia.
Qed.

(** A connection says something because of what it was told at most once for every publish
    about a trace that is not its own, however many of its writes fail. *)
Theorem C99_at_most_one_answer_each :
  forall s c, reachable s -> is_conn c = true ->
    count_of (is_echo_of c) (v_said s) <= count_of (about_others (own c)) (v_said s).
Proof.
  intros s c Hr Hc. pose proof (ok_reachable s Hr) as Hok. destruct (handled_bound s c (nonown c) Hok Hc) as (handled & H1 & _ & H2).
  destruct Hok as [K1 K2 K3 K4]. rewrite K2, count_map in H2. unfold echoes in H1. change (about_others (own c)) with (fun p : cause * StaticTrace => nonown c (snd p)). lia.
Qed.

(** So if the writes of one connection only fail, its answers are at most as many as what the
    program and the other connections publish of their own accord: there is no feedback. *)
Theorem C99_one_broken_connection :
  forall s c, reachable s -> is_conn c = true ->
    (forall c' str, In (Echo c', str) (v_said s) -> c' = c) ->
    count_of is_echo (v_said s) <= count_of (fun p => negb (is_echo p) && about_others (own c) p) (v_said s).
Proof.
  intros s c Hr Hc Honly. pose proof (C99_at_most_one_answer_each s c Hr Hc) as H. pose proof (ok_reachable s Hr) as [_ _ _ K4].
  assert (L1 : count_of is_echo (v_said s) <= count_of (is_echo_of c) (v_said s)).
  { apply count_le. intros [[| |c'] str] Hin Hp; try discriminate. rewrite (Honly c' str Hin). unfold is_echo_of. cbn. apply String.eqb_refl. }
  assert (L2 : count_of (about_others (own c)) (v_said s) <= count_of (fun p => negb (is_echo p) && about_others (own c) p) (v_said s)).
  { apply count_le. intros [[| |c'] str] Hin Hp; unfold is_echo; cbn [fst negb andb]; try exact Hp. pose proof (Honly c' str Hin) as ->. destruct (K4 c str Hin) as [E _].
    unfold about_others in Hp. cbn [snd] in Hp. rewrite E, String.eqb_refl in Hp. discriminate. }
  lia.
Qed.

(** If every stream asks for finished traces only, as trc stream does without --events, then
    any number of connections may be broken: each answers at most once for every finished
    trace that the program or a handler published of its own accord. *)
Theorem C99_streams_of_finished_traces :
  forall s, reachable s ->
    (forall ch f, In (BStream ch f) (v_history s) -> unused f /\ IsFinished f = true) ->
    forall c, is_conn c = true ->
      count_of (is_echo_of c) (v_said s) <= count_of (fun p => negb (is_echo p) && about_finished p) (v_said s).
Proof.
  intros s Hr Hf c Hc. pose proof (ok_reachable s Hr) as Hok. destruct (handled_bound s c TraceFinished Hok Hc) as (handled & H1 & Hin & H2).
  destruct Hok as [K1 K2 K3 K4].
  assert (Hfin : forall tr, In tr (delivered (v_chan s c)) -> TraceFinished tr = true).
  { intros tr Ht. pose proof (C35_matching_traces_in_order Compile MatchString caps c (v_history s) K1) as Hsub.
    assert (Hsubin : forall l l' : list StaticTrace, subseq l l' -> forall x, In x l -> In x l').
    { clear. intros l l' H. induction H as [|x l l' H IH|x l l' H IH]; intros y Hy; [exact Hy|destruct Hy as [->|Hy]; [left; reflexivity|right; auto]|right; auto]. }
    apply (Hsubin _ _ Hsub) in Ht. clear Hsub Hsubin.
    assert (G : forall h0 cur, (forall f, In (BStream c f) h0 -> unused f /\ IsFinished f = true) ->
              (forall f, cur = Some f -> unused f /\ IsFinished f = true) ->
              In tr (wanted_from Compile MatchString c cur h0) -> TraceFinished tr = true).
    { induction h0 as [|o h0 IH]; intros cur Hs Hcur; [intros []|]. cbn [S_Broker.wanted_from]. intros Hi. apply in_app_or in Hi as [Hi|Hi].
      - destruct cur as [f|]; [|destruct Hi]. apply filter_In in Hi as [_ Hm]. destruct (Hcur f eq_refl) as [Hu Ha].
        unfold S_Broker.matches in Hm. apply (Allow_unused Compile MatchString f tr Hu) in Hm. destruct Hm as [(_ & _ & _ & _ & Hfn & _) _]. apply Hfn. exact Ha.
      - apply (IH (sub_after c cur o)); [intros f H; apply Hs; right; exact H| |exact Hi].
        intros f E. destruct o as [c' g|c'|order str|c'|c'|c']; cbn [sub_after] in E; try (apply Hcur; exact E).
        + destruct (String.eqb_spec c' c) as [->|]; [|apply Hcur; exact E]. destruct cur as [g'|]; [apply Hcur; exact E|].
          injection E as <-. apply Hs. left. reflexivity.
        + destruct (String.eqb c' c); [discriminate|apply Hcur; exact E]. }
    apply (G (v_history s) None (fun f => Hf c f)); [intros f E; discriminate|exact Ht]. }
  assert (L1 : zlen (filter (nonown c) handled) <= zlen (filter TraceFinished handled)).
  { unfold zlen. clear -Hin Hfin. induction handled as [|x l IH]; [cbn; lia|]. cbn [filter]. rewrite (Hfin x) by (apply Hin; left; reflexivity).
    assert (IH' := IH (fun tr Ht => Hin tr (or_intror Ht))). destruct (nonown c x); cbn [length]; lia. }
  rewrite K2, count_map in H2.
  assert (L2 : count_of (fun p => TraceFinished (snd p)) (v_said s) <= count_of (fun p => negb (is_echo p) && about_finished p) (v_said s)).
  { apply count_le. intros [[| |c'] str] Hi Hp; unfold is_echo, about_finished; cbn [fst snd negb andb]; try exact Hp. destruct (K4 c' str Hi) as [_ E]. cbn [snd] in Hp. congruence. }
  unfold echoes in H1. lia.
Qed.

(** *** Two broken connections *)
Definition all_traces : Filter RE := MkFilter [] [] "" false false None false false "" None.
Lemma all_traces_allow tr : Allow Compile MatchString all_traces tr = (all_traces, true).
Proof. reflexivity. Qed.
Definition complaint (c : string) : StaticTrace := MkStatic "" (own c) "" 0 0 "" false true [].
Definition subscribed (h : list bop) (c : string) (buffer : list StaticTrace) : Prop :=
  exists st received, view_of c (run h) = (Some (MkSub all_traces st), MkChan (caps c) buffer 0 received).
Lemma subscribed_publish h c order str : Forall valid_bop h -> is_order order -> 1 <= caps c ->
  subscribed h c [] -> subscribed (h ++ [BPublish order (Ok str)]) c [str].
Proof.
  intros Hv Ho Hc (st & rec & E). unfold subscribed. rewrite view_snoc by assumption. rewrite E. cbn [own1 fold_left step1]. unfold deliver. cbn [fst snd sub_filter].
  rewrite all_traces_allow. unfold try_send. cbn [ch_waiting ch_buffer ch_cap]. change (0 <? 0) with false. cbn iota. unfold zlen. cbn [length]. destruct (Z.ltb_spec (Z.of_nat 0) (caps c)); [|lia].
  eexists _, _. reflexivity.
Qed.
Lemma subscribed_receive h c x rest : Forall valid_bop h -> subscribed h c (x :: rest) -> subscribed (h ++ [BReceive c]) c rest.
Proof.
  intros Hv (st & rec & E). unfold subscribed. rewrite view_snoc by (assumption || exact Logic.I). rewrite E. cbn [own1]. rewrite String.eqb_refl. cbn [fold_left step1 fst snd receive ch_buffer].
  eexists _, _. reflexivity.
Qed.
Lemma subscribed_other h c c' buffer : Forall valid_bop h -> c' <> c -> subscribed h c buffer -> subscribed (h ++ [BReceive c']) c buffer.
Proof.
  intros Hv Hne (st & rec & E). unfold subscribed. rewrite view_snoc by (assumption || exact Logic.I). rewrite E. cbn [own1]. apply String.eqb_neq in Hne. rewrite Hne. cbn [fold_left].
  eexists _, _. reflexivity.
Qed.
Lemma subscribed_stream h c c' f buffer : Forall valid_bop h -> c' <> c -> subscribed h c buffer -> subscribed (h ++ [BStream c' f]) c buffer.
Proof.
  intros Hv Hne (st & rec & E). unfold subscribed. rewrite view_snoc by (assumption || exact Logic.I). rewrite E. cbn [own1]. apply String.eqb_neq in Hne. rewrite Hne. cbn [fold_left].
  eexists _, _. reflexivity.
Qed.
Lemma subscribed_buffer s c buffer : subscribed (v_history s) c buffer -> ch_buffer (v_chan s c) = buffer.
Proof. intros (st & rec & E). unfold M_Feedback.v_chan. rewrite <- (snd_view c), E. reflexivity. Qed.

Record turn (x y : string) (n : nat) (s : server) : Prop := {
  t_reach : reachable s;
  t_x : v_handler s x = HLoop;
  t_y : v_handler s y = HLoop;
  t_chan_x : exists m, TraceID m <> own x /\ subscribed (v_history s) x [m];
  t_chan_y : subscribed (v_history s) y [];
  t_said : count_of is_program (v_said s) = 1 /\ count_of is_echo (v_said s) = Z.of_nat n /\ zlen (v_said s) = 1 + Z.of_nat n }.

Lemma id_order : is_order (fun l : list string => l).
Proof. intros l. reflexivity. Qed.

Lemma next_turn x y n s : is_conn x = true -> is_conn y = true -> x <> y -> own x <> own y -> 1 <= caps x -> 1 <= caps y ->
  turn x y n s -> exists s', turn y x (S n) s'.
Proof.
  intros Cx Cy Hne Ho Kx Ky [T1 T2 T3 (m & T4 & T4') T5 (T6 & T7 & T8)].
  pose (s1 := at_ x (HTrace m) (on (BReceive x) s)).
  pose (s2 := at_ x HLoop (say (Echo x) (fun l => l) (complaint x) s1)).
  pose (s3 := at_ x (HTrace (complaint x)) (on (BReceive x) s2)).
  pose (s4 := at_ x HLoop s3).
  assert (V : Forall valid_bop (v_history s)) by apply (k_valid _ (ok_reachable s T1)).
  assert (R1 : reachable s1).
  { eapply VStep; [exact T1|]. apply (VReceive Compile MatchString caps is_conn own s x m []); auto. apply subscribed_buffer. exact T4'. }
  assert (V1 : Forall valid_bop (v_history s1)) by apply (k_valid _ (ok_reachable s1 R1)).
  assert (R2 : reachable s2).
  { eapply VStep; [exact R1|]. apply (VFailed Compile MatchString caps is_conn own s1 x m); auto; [cbn; rewrite String.eqb_refl; reflexivity|exact id_order]. }
  assert (V2 : Forall valid_bop (v_history s2)) by apply (k_valid _ (ok_reachable s2 R2)).
  assert (B1x : subscribed (v_history s1) x []) by (apply (subscribed_receive (v_history s) x m []); assumption).
  assert (B1y : subscribed (v_history s1) y []) by (apply (subscribed_other (v_history s) y x []); assumption).
  assert (B2x : subscribed (v_history s2) x [complaint x]) by (apply (subscribed_publish (v_history s1)); auto; exact id_order).
  assert (B2y : subscribed (v_history s2) y [complaint x]) by (apply (subscribed_publish (v_history s1)); auto; exact id_order).
  assert (R3 : reachable s3).
  { eapply VStep; [exact R2|]. apply (VReceive Compile MatchString caps is_conn own s2 x (complaint x) []); auto; [cbn; rewrite String.eqb_refl; reflexivity|]. apply subscribed_buffer. exact B2x. }
  exists s4. constructor.
  - eapply VStep; [exact R3|]. apply (VOwn Compile MatchString caps is_conn own s3 x (complaint x)); auto. cbn. rewrite String.eqb_refl. reflexivity.
  - cbn. apply String.eqb_neq in Hne. rewrite String.eqb_sym in Hne. rewrite Hne. exact T3.
  - cbn. rewrite String.eqb_refl. reflexivity.
  - exists (complaint x). split; [exact Ho|]. apply (subscribed_other (v_history s2) y x [complaint x]); auto.
  - apply (subscribed_receive (v_history s2) x (complaint x) []); assumption.
  - change (v_said s4) with (v_said s ++ [(Echo x, complaint x)]). unfold count_of, zlen in *. rewrite !filter_app, !app_length. cbn [filter is_program is_echo fst length app].
    lia.
Qed.

(** Finding: with two broken connections that stream events, one event of the program makes
    the two handlers answer each other, without bound. *)
Theorem C99_two_broken_connections_refuted :
  forall a b p, is_conn a = true -> is_conn b = true -> a <> b -> own a <> own b -> 1 <= caps a -> 1 <= caps b -> TraceID p <> own a ->
  forall n, exists s, reachable s /\
    count_of is_program (v_said s) = 1 /\ count_of is_echo (v_said s) = Z.of_nat n /\ zlen (v_said s) = 1 + Z.of_nat n.
Proof.
  intros a b p Ca Cb Hne Ho Ka Kb Hp n.
  assert (G : exists x y s, turn x y n s /\ ((x = a /\ y = b) \/ (x = b /\ y = a))).
  { induction n as [|n IH].
    - pose (s1 := at_ a HLoop (server_init (RE:=RE))). pose (s2 := at_ b HLoop s1). pose (s3 := on (BStream a all_traces) s2).
      pose (s4 := say Program (fun l => l) p s3). pose (s5 := on (BStream b all_traces) s4).
      assert (R1 : reachable s1) by (eapply VStep; [constructor|]; apply VStart; auto).
      assert (Hb : v_handler s1 b = HStart) by (cbn; apply String.eqb_neq in Hne; rewrite String.eqb_sym in Hne; rewrite Hne; reflexivity).
      assert (R2 : reachable s2) by (eapply VStep; [exact R1|]; apply VStart; auto).
      assert (R3 : reachable s3) by (eapply VStep; [exact R2|]; apply VBesides; exact Logic.I).
      assert (R4 : reachable s4) by (eapply VStep; [exact R3|]; apply VProgram; exact id_order).
      assert (R5 : reachable s5) by (eapply VStep; [exact R4|]; apply VBesides; exact Logic.I).
      assert (V3 : Forall valid_bop (v_history s3)) by apply (k_valid _ (ok_reachable s3 R3)).
      assert (V4 : Forall valid_bop (v_history s4)) by apply (k_valid _ (ok_reachable s4 R4)).
      assert (B3 : subscribed (v_history s3) a []).
      { unfold subscribed. change (v_history s3) with ([] ++ [BStream a all_traces]). rewrite (view_snoc a [] (BStream a all_traces)) by (constructor || exact Logic.I).
        cbn [own1]. rewrite String.eqb_refl. eexists _, _. reflexivity. }
      exists a, b, s5. split; [|left; split; reflexivity]. constructor.
      + exact R5.
      + cbn. apply String.eqb_neq in Hne. rewrite Hne, String.eqb_refl. reflexivity.
      + cbn. rewrite String.eqb_refl. reflexivity.
      + exists p. split; [exact Hp|]. apply (subscribed_stream (v_history s4)); auto. apply (subscribed_publish (v_history s3)); auto. exact id_order.
      + unfold subscribed. cbn [s5 on v_history]. rewrite view_snoc by (assumption || exact Logic.I). cbn [own1]. rewrite String.eqb_refl.
        assert (Ev : view_of b (run (v_history s4)) = (None, make_chan (caps b))).
        { cbn [s4 s3 s2 s1 say on at_ server_init v_history app]. rewrite run_view by (repeat constructor; exact id_order). unfold concerning. cbn [flat_map own1 app].
          apply String.eqb_neq in Hne. rewrite Hne. cbn [app fold_left step1]. reflexivity. }
        rewrite Ev. eexists _, _. reflexivity.
      + cbn. auto.
    - destruct IH as (x & y & s & T & [[-> ->]|[-> ->]]).
      + destruct (next_turn a b n s Ca Cb Hne Ho Ka Kb T) as (s' & T'). exists b, a, s'. auto.
      + destruct (next_turn b a n s Cb Ca (not_eq_sym Hne) (not_eq_sym Ho) Kb Ka T) as (s' & T'). exists a, b, s'. auto. }
  destruct G as (x & y & s & [T1 _ _ _ _ T6] & _). exists s. split; [exact T1|exact T6].
Qed.

End Feedback.
Print Assumptions C99_at_most_one_answer_each.
Print Assumptions C99_one_broken_connection.
Print Assumptions C99_streams_of_finished_traces.
Print Assumptions C99_two_broken_connections_refuted.

(** Two connections; "a" is broken and "b" is not: one event of the program, one answer. *)
Definition demo_conn (c : string) : bool := String.eqb c "a" || String.eqb c "b".
Definition demo_own (c : string) : string := "request " ++ c.
Definition demo_event : StaticTrace := MkStatic "s" "1" "c" 1 2 "" false false [].
Example C99_instance :
  exists s, server_reachable demo_compile demo_match (fun _ => 5) demo_conn demo_own s /\
    map fst (v_said s) = [Program; Echo "a"] /\
    (forall c' str, In (Echo c', str) (v_said s) -> c' = "a").
Proof.
  pose (s1 := at_ "a" HLoop (server_init (RE:=string))). pose (s2 := on (BStream "a" all_traces) s1). pose (s3 := say Program (fun l => l) demo_event s2).
  pose (s4 := at_ "a" (HTrace demo_event) (on (BReceive "a") s3)). pose (s5 := at_ "a" HLoop (say (Echo "a") (fun l => l) (complaint demo_own "a") s4)).
  exists s5. split; [|split; [reflexivity|intros c' str [E|[E|[]]]; [discriminate|injection E as <- _; reflexivity]]].
  eapply VStep; [eapply VStep; [eapply VStep; [eapply VStep; [eapply VStep; [apply VInit|]|]|]|]|].
  - apply (VStart _ _ _ _ _ _ "a"); reflexivity.
  - apply (VBesides _ _ _ _ _ _ (BStream "a" all_traces)). exact Logic.I.
  - apply (VProgram _ _ _ _ _ _ (fun l => l) demo_event). exact id_order.
  - eapply (VReceive _ _ _ _ _ _ "a" demo_event []); vm_compute; reflexivity.
  - apply (VFailed _ _ _ _ _ _ "a" demo_event); try reflexivity; try exact id_order. vm_compute. discriminate.
Qed.
Example C99_hypotheses :
  demo_conn "a" = true /\ demo_conn "b" = true /\ "a" <> "b" /\ demo_own "a" <> demo_own "b" /\ TraceID demo_event <> demo_own "a".
Proof. repeat split; vm_compute; discriminate. Qed.

(** The same with a stream of finished traces. *)
Example C99_finished_instance :
  let only_finished := MkFilter [] [] "" false true None false false "" (@None string) in
  let fin := MkStatic "s" "1" "c" 1 2 "" true false [] in
  exists s, server_reachable demo_compile demo_match (fun _ => 5) demo_conn demo_own s /\
    map fst (v_said s) = [Program; Echo "a"] /\
    (forall ch f, In (BStream ch f) (v_history s) -> unused f /\ IsFinished f = true).
Proof.
  intros only_finished fin.
  pose (s1 := at_ "a" HLoop (server_init (RE:=string))). pose (s2 := on (BStream "a" only_finished) s1). pose (s3 := say Program (fun l => l) fin s2).
  pose (s4 := at_ "a" (HTrace fin) (on (BReceive "a") s3)). pose (s5 := at_ "a" HLoop (say (Echo "a") (fun l => l) (complaint demo_own "a") s4)).
  exists s5. split; [|split; [reflexivity|intros ch f [E|[E|[E|[E|[]]]]]; try discriminate; injection E as _ <-; split; reflexivity]].
  eapply VStep; [eapply VStep; [eapply VStep; [eapply VStep; [eapply VStep; [apply VInit|]|]|]|]|].
  - apply (VStart _ _ _ _ _ _ "a"); reflexivity.
  - apply (VBesides _ _ _ _ _ _ (BStream "a" only_finished)). exact Logic.I.
  - apply (VProgram _ _ _ _ _ _ (fun l => l) fin). exact id_order.
  - eapply (VReceive _ _ _ _ _ _ "a" fin []); vm_compute; reflexivity.
  - apply (VFailed _ _ _ _ _ _ "a" fin); try reflexivity; try exact id_order. vm_compute. discriminate.
Qed.

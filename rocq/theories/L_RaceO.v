(** Who knows what about accesses to events, their texts and their stacks. *)
From Verif Require Import Go L_List M_Strings M_Types S_RingBuf S_Trace M_Trace M_Heap L_Heap S_Race M_Race L_Race L_RaceT.
From Coq Require Import Lia.
Open Scope list_scope.
Open Scope nat_scope.

Section Objects.
Context {arg world pc : Type}.
Variable Sprintf : world -> string -> list arg -> string.
Variable CallersFrames : list pc -> list rframe.
Notation heap := (heap arg pc).
Notation wf := (wf (arg := arg) (pc := pc)).
Notation events_at := (fun (h : heap) t => to_events (tr_at h t)).

(** What belongs to an event object: itself and its array; and what belongs to an event. *)
Definition object (h : heap) (e : nat) : list loc := LEvent e :: map LFrames (array_of h e).
Definition parts (h : heap) (e : nat) : list loc := object h e ++ map LText (text_of h e).
Definition is_object (c : loc) : bool := match c with LEvent _ | LText _ | LFrames _ => true | _ => false end.

Record JO (h : heap) (l : log) : Prop := {
  o_ev : forall t e c p, In e (events_at h t) -> In c (parts h e) -> touched l p c -> passed l (SMtx t) p;
  o_ep : forall e c p, In e (h_epool h) -> In c (object h e) -> touched l p c -> passed l (SPoolE e) p;
  o_zp : forall z p, In z (h_zpool h) -> touched l p (LText z) -> passed l (SPoolZ z) p;
  o_event : forall e p, touched l p (LEvent e) -> e < length (h_events h);
  o_text : forall z p, touched l p (LText z) -> z < length (h_stringers h);
  o_frames : forall a p, touched l p (LFrames a) -> a < length (h_arrays h);
  o_trace : forall t p, touched l p (LId t) \/ touched l p (LState t) -> t < length (h_traces h)
}.

(** The objects stay where they are, or leave a pool. *)
Lemma JO_quiet h h' l i s : JO h l ->
  (forall t, incl (events_at h' t) (events_at h t)) -> h_events h' = h_events h -> h_stringers h' = h_stringers h -> h_arrays h' = h_arrays h ->
  incl (h_epool h') (h_epool h) -> incl (h_zpool h') (h_zpool h) -> length (h_traces h) <= length (h_traces h') ->
  (forall a c w, In a s -> access a = Some (c, w) -> is_object c = false) ->
  (forall a t w, In a s -> access a = Some (LId t, w) \/ access a = Some (LState t, w) -> t < length (h_traces h')) ->
  JO h' (l ++ by_ i s).
Proof.
  intros J HE Ev Zs Ar Ep Zp Ln NO HT.
  assert (Old : forall p c, is_object c = true -> touched (l ++ by_ i s) p c -> touched l p c).
  { intros p c Hc H. destruct (touched_by _ _ _ _ _ H) as [H'|(_ & a & w & Ha & Hw)]; [exact H'|]. apply nth_error_In in Ha. rewrite (NO a c w Ha Hw) in Hc. discriminate. }
  assert (Eo : forall e, object h' e = object h e) by (intros e; unfold object, array_of; rewrite Ev; reflexivity).
  assert (Pa : forall e, parts h' e = parts h e) by (intros e; unfold parts; rewrite Eo; unfold text_of; rewrite Ev; reflexivity).
  assert (Obj : forall e c, In c (parts h e) -> is_object c = true).
  { intros e c Hc. unfold parts, object in Hc. destruct Hc as [<-|Hc]; [reflexivity|]. apply in_app_or in Hc. destruct Hc as [Hc|Hc]; apply in_map_iff in Hc; destruct Hc as (x & <- & _); reflexivity. }
  constructor.
  - intros t e c p He Hc H. rewrite Pa in Hc. apply passed_mono. apply (o_ev _ _ J t e c p (HE _ _ He) Hc). apply Old; [exact (Obj _ _ Hc)|exact H].
  - intros e c p He Hc H. rewrite Eo in Hc. apply passed_mono. apply (o_ep _ _ J e c p (Ep _ He) Hc). apply Old; [apply (Obj e); unfold parts; apply in_or_app; left; exact Hc|exact H].
  - intros z p Hz H. apply passed_mono. apply (o_zp _ _ J z p (Zp _ Hz)). apply Old; [reflexivity|exact H].
  - intros e p H. rewrite Ev. apply (o_event _ _ J e p). apply Old; [reflexivity|exact H].
  - intros z p H. rewrite Zs. apply (o_text _ _ J z p). apply Old; [reflexivity|exact H].
  - intros a p H. rewrite Ar. apply (o_frames _ _ J a p). apply Old; [reflexivity|exact H].
  - intros t p H. assert (Q : (touched l p (LId t) \/ touched l p (LState t)) \/ t < length (h_traces h')).
    { destruct H as [H|H]; destruct (touched_by _ _ _ _ _ H) as [H'|(_ & a & w & Ha & Hw)]; auto; right; apply nth_error_In in Ha; apply (HT a t w Ha); auto. }
    destruct Q as [Q|Q]; [pose proof (o_trace _ _ J t p Q); lia|exact Q].
Qed.

(** *** What the steps do to the objects *)
Lemma pool_get_where {A} (zero : A) pick pool objs x pool' objs' : pool_get zero pick pool objs = (x, pool', objs') ->
  (In x pool /\ objs' = objs) \/ (x = length objs /\ objs' = objs ++ [zero] /\ pool' = pool).
Proof.
  unfold pool_get. destruct pick as [j|]; [|intros [= <- <- <-]; auto]. destruct (nth_error pool j) as [y|] eqn:E; intros [= <- <- <-]; auto.
  left. split; [exact (nth_error_In _ _ E)|reflexivity].
Qed.
Lemma got_in x s pool : In x pool -> got x s pool = [Acq (s x)].
Proof. intros H. unfold got. destruct (existsb (Nat.eqb x) pool) eqn:E; [reflexivity|]. assert (Q : existsb (Nat.eqb x) pool = true) by (apply existsb_exists; exists x; split; [exact H|apply Nat.eqb_refl]). congruence. Qed.
Lemma got_out x s pool : ~ In x pool -> got x s pool = [].
Proof. intros H. unfold got. destruct (existsb (Nat.eqb x) pool) eqn:E; [|reflexivity]. apply existsb_exists in E. destruct E as (y & Hy & E). apply Nat.eqb_eq in E. subst y. destruct (H Hy). Qed.

Lemma append_frame_at arrays s fr spare arrays' s' : append_frame arrays s fr spare = (arrays', s') ->
  length arrays <= length arrays' /\ (forall a, at_array s' a -> at_array s a \/ length arrays <= a).
Proof.
  destruct s as [[a n]|]; cbn [append_frame].
  - destruct (n <? length (nth a arrays [])); intros [= <- <-].
    + rewrite length_update. split; [lia|]. intros b (m & [= <- <-]). left. exists n. reflexivity.
    + rewrite app_length. split; [lia|]. intros b (m & [= <- <-]). right. lia.
  - intros [= <- <-]. rewrite app_length. split; [lia|]. intros b (m & [= <- <-]). right. lia.
Qed.
Lemma stack_loop_at spares : forall frames arrays s arrays' s', h_stack_loop frames spares arrays s = (arrays', s') ->
  length arrays <= length arrays' /\ (forall a, at_array s' a -> at_array s a \/ length arrays <= a).
Proof.
  induction frames as [|fr [|fr2 rest] IH]; intros arrays s arrays' s' E.
  - injection E as <- <-. auto.
  - injection E as <- <-. auto.
  - change (h_stack_loop (fr :: fr2 :: rest) spares arrays s) with
      (if negb (ignoreStackFrameFunction (rf_Function fr))
       then let '(arrays, s') := append_frame arrays s (MkFrame (rf_Function fr) (rf_File fr ++ ":" ++ itoa (rf_Line fr))%string) (spares (slice_len s)) in
            h_stack_loop (fr2 :: rest) spares arrays s'
       else h_stack_loop (fr2 :: rest) spares arrays s) in E.
    destruct (negb (ignoreStackFrameFunction (rf_Function fr))); [|exact (IH _ _ _ _ E)].
    destruct (append_frame arrays s _ _) as [arrays1 s1] eqn:E1. destruct (append_frame_at _ _ _ _ _ _ E1) as [L1 A1]. destruct (IH _ _ _ _ E) as [L2 A2].
    split; [lia|]. intros a Q. destruct (A2 a Q) as [Q'|Q']; [exact (A1 a Q')|right; lia].
Qed.
Lemma array_at (h : heap) e a : In a (array_of h e) <-> at_array (eo_stack (ev_at h e)) a.
Proof.
  unfold array_of. fold (ev_at h e). destruct (eo_stack (ev_at h e)) as [[b n]|]; split.
  - intros [<-|[]]. exists n. reflexivity.
  - intros (m & [= <- <-]). left. reflexivity.
  - intros [].
  - intros (m & Q). discriminate.
Qed.
(** Reading events. *)
Record reads (h h' : heap) (evs : list nat) : Prop := {
  rd_traces : h_traces h' = h_traces h;
  rd_pools : h_tpool h' = h_tpool h /\ h_epool h' = h_epool h /\ h_zpool h' = h_zpool h;
  rd_len : length (h_events h') = length (h_events h) /\ length (h_stringers h') = length (h_stringers h) /\ length (h_arrays h) <= length (h_arrays h');
  rd_text : forall e, text_of h' e = text_of h e;
  rd_array : forall e a, In a (array_of h' e) -> In a (array_of h e) \/ length (h_arrays h) <= a;
  rd_other : forall e, ~ In e evs -> array_of h' e = array_of h e
}.
Lemma snapshot_event_reads w stacks spares ev h h' he : h_snapshot_event Sprintf CallersFrames w stacks spares ev h = Ok (h', he) -> ev < length (h_events h) -> reads h h' [ev].
Proof.
  unfold h_snapshot_event. fold (ev_at h ev). intros E L.
  assert (G : exists arrays' o' stack, (if stacks then h_get_stack CallersFrames (ev_at h ev) spares (h_arrays h) else (h_arrays h, ev_at h ev, None)) = (arrays', o', stack) /\
     eo_what o' = eo_what (ev_at h ev) /\ length (h_arrays h) <= length arrays' /\ (forall a, at_array (eo_stack o') a -> at_array (eo_stack (ev_at h ev)) a \/ length (h_arrays h) <= a)).
  { destruct stacks; [|do 3 eexists; split; [reflexivity|auto]]. unfold h_get_stack. destruct (eo_pc (ev_at h ev)) as [|x l]; [do 3 eexists; split; [reflexivity|auto]|].
    destruct (slice_len (eo_stack (ev_at h ev))); [|do 3 eexists; split; [reflexivity|auto]].
    destruct (h_stack_loop (CallersFrames (x :: l)) spares (h_arrays h) (eo_stack (ev_at h ev))) as [arrays' s'] eqn:Es. destruct (stack_loop_at _ _ _ _ _ _ Es) as [L1 A1].
    do 3 eexists. split; [reflexivity|]. cbn. auto. }
  destruct G as (arrays' & o' & stack & G & Ow & La & Aa). rewrite G in E. destruct (eo_what o') as [z|] eqn:Eo; [|discriminate].
  destruct (stringer_String Sprintf w (nth z (h_stringers h) zeroStringer)) as [zo what]. injection E as <- <-.
  assert (At : forall e, ev_at (MkHeap (h_traces h) (update ev o' (h_events h)) (update z zo (h_stringers h)) arrays' (h_tpool h) (h_epool h) (h_zpool h)) e = if Nat.eqb ev e then o' else ev_at h e).
  { intros e. unfold ev_at. cbn [h_events]. destruct (Nat.eqb_spec ev e) as [->|n]; [apply nth_update_at; exact L|apply nth_update_ne; exact n]. }
  constructor.
  - reflexivity.
  - auto.
  - cbn [h_events h_stringers h_arrays]. rewrite !length_update. auto.
  - intros e. unfold text_of. fold (ev_at h e). match goal with |- context [nth e (h_events ?x) zeroEO] => fold (ev_at x e) end. rewrite At. destruct (Nat.eqb_spec ev e) as [->|n]; [rewrite Eo, <- Ow; reflexivity|reflexivity].
  - intros e a Q. apply array_at in Q. rewrite At in Q. rewrite array_at. destruct (Nat.eqb_spec ev e) as [->|n]; [apply Aa; exact Q|auto].
  - intros e Ne. unfold array_of. fold (ev_at h e). match goal with |- context [nth e (h_events ?x) zeroEO] => fold (ev_at x e) end. rewrite At. destruct (Nat.eqb_spec ev e) as [->|n]; [destruct Ne; left; reflexivity|reflexivity].
Qed.
Lemma reads_trans h1 h2 h3 a b : reads h1 h2 a -> reads h2 h3 b -> reads h1 h3 (a ++ b).
Proof.
  intros [A1 A2 A3 A4 A5 A6] [B1 B2 B3 B4 B5 B6]. constructor.
  - congruence.
  - destruct A2 as (? & ? & ?), B2 as (? & ? & ?). repeat split; congruence.
  - destruct A3 as (? & ? & ?), B3 as (? & ? & ?). repeat split; [congruence|congruence|lia].
  - intros e. rewrite B4. apply A4.
  - intros e x H. destruct (B5 e x H) as [H'|H']; [exact (A5 e x H')|]. destruct A3 as (_ & _ & A3). right. lia.
  - intros e N. rewrite B6, A6; [reflexivity| |]; intros Q; apply N; apply in_or_app; auto.
Qed.
Lemma reads_refl h : reads h h [].
Proof. constructor; auto. Qed.
Lemma snapshot_reads w stacks spares : forall evs h h' hes, h_snapshot Sprintf CallersFrames w stacks spares evs h = Ok (h', hes) -> (forall e, In e evs -> e < length (h_events h)) -> reads h h' evs.
Proof.
  induction evs as [|ev evs IH]; intros h h' hes; cbn [h_snapshot]; [intros [= <- <-] _; apply reads_refl|].
  destruct (h_snapshot_event Sprintf CallersFrames w stacks spares ev h) as [[h1 he]|] eqn:E1; cbn [bind]; [|discriminate].
  destruct (h_snapshot Sprintf CallersFrames w stacks spares evs h1) as [[h2 hes2]|] eqn:E2; cbn [bind]; [|discriminate]. intros [= <- <-] B.
  pose proof (snapshot_event_reads _ _ _ _ _ _ _ E1 (B _ (or_introl eq_refl))) as R1. apply (reads_trans h h1 h2 [ev] evs R1). apply (IH _ _ _ E2).
  intros e He. rewrite (proj1 (rd_len _ _ _ R1)). apply B. right. exact He.
Qed.
Definition latest (h : heap) (t : nat) (n : Z) : list nat :=
  let len := zlen (events_at h t) in skipn (Z.to_nat (len - (if ((n <=? 0) || (len <? n))%Z then len else n))) (events_at h t).
Lemma skipn_incl {A} n : forall l : list A, incl (skipn n l) l.
Proof. induction n as [|n IH]; intros [|x l]; cbn [skipn]; try apply incl_refl. apply incl_tl. apply IH. Qed.
Lemma events_reads t (e : env arg world pc) n stacks ch h h' evs : wf h -> h_call Sprintf CallersFrames t (e, CallEvents n stacks) ch h = Ok (h', evs) -> reads h h' (latest h t n).
Proof.
  intros W. unfold h_call. cbn [snd fst]. unfold h_events_detail. fold (tr_at h t).
  match goal with |- context [h_snapshot _ _ ?w ?s ?sp ?l ?x] => destruct (h_snapshot Sprintf CallersFrames w s sp l x) as [[h2 hes2]|] eqn:E end; cbn [bind]; [|discriminate].
  intros [= <- <-]. apply (snapshot_reads _ _ _ _ _ _ _ E). intros ev Hev. apply skipn_incl in Hev. exact (proj1 (proj2 (wf_t_pool h W t ev Hev))).
Qed.
Lemma reads_events h h' evs t : reads h h' evs -> events_at h' t = events_at h t.
Proof. intros R. cbv beta. unfold tr_at. rewrite (rd_traces _ _ _ R). reflexivity. Qed.

Lemma pass_last l i body x p : know (l ++ by_ i body) i p -> passed (l ++ by_ i (body ++ [Rel x])) x p.
Proof. apply pass_split. Qed.

Lemma text_in (h : heap) e z : In z (text_of h e) <-> eo_what (ev_at h e) = Some z.
Proof.
  unfold text_of. fold (ev_at h e). destruct (eo_what (ev_at h e)) as [y|]; split; try (intros []; fail); try discriminate.
  - intros [<-|[]]. reflexivity.
  - intros [= ->]. left. reflexivity.
Qed.
Lemma array_own (h : heap) e e' a : wf h -> In a (array_of h e) -> In a (array_of h e') -> e = e'.
Proof. intros W H1 H2. apply array_at in H1, H2. destruct H1 as (n & H1), H2 as (n' & H2). exact (wf_a_own h W _ _ _ _ _ H1 H2). Qed.
Lemma text_own (h : heap) e e' z : wf h -> In z (text_of h e) -> In z (text_of h e') -> e = e'.
Proof. intros W H1 H2. apply text_in in H1, H2. exact (wf_z_own h W _ _ _ H1 H2). Qed.
Lemma in_parts (h : heap) e c : In c (parts h e) <-> c = LEvent e \/ (exists a, c = LFrames a /\ In a (array_of h e)) \/ (exists z, c = LText z /\ In z (text_of h e)).
Proof.
  unfold parts, object. cbn [app In]. rewrite in_app_iff, !in_map_iff. split.
  - intros [<-|[(a & <- & H)|(z & <- & H)]]; eauto.
  - intros [->|[(a & -> & H)|(z & -> & H)]]; eauto.
Qed.
Lemma in_object (h : heap) e c : In c (object h e) <-> c = LEvent e \/ (exists a, c = LFrames a /\ In a (array_of h e)).
Proof.
  unfold object. cbn [In]. rewrite in_map_iff. split.
  - intros [<-|(a & <- & H)]; eauto.
  - intros [->|(a & -> & H)]; eauto.
Qed.

(** The events of a trace are read. *)
Lemma events_script_touch t n stacks (h h' : heap) a c w : In a (events_script t n stacks h h') -> access a = Some (c, w) ->
  (c = LState t /\ w = false) \/ exists ev, In ev (latest h t n) /\ (In c (parts h ev) \/ In c (parts h' ev)).
Proof.
  unfold events_script. intros [<-|H] A; [injection A as <- <-; auto|]. right. apply in_flat_map in H. destruct H as (ev & Hev & H). exists ev. split; [exact Hev|].
  apply in_app_or in H. destruct H as [[<-|[]]|H]; [injection A as <- <-; left; apply in_parts; auto|]. apply in_app_or in H. destruct H as [H|H].
  - destruct stacks; [|destruct H]. destruct H as [<-|H]; [injection A as <- <-; left; apply in_parts; auto|]. apply in_map_iff in H. destruct H as (b & <- & H). injection A as <- <-.
    apply in_app_or in H. destruct H as [H|H]; [left|right]; apply in_parts; eauto.
  - apply in_map_iff in H. destruct H as (z & <- & H). injection A as <- <-. left. apply in_parts. eauto.
Qed.
Lemma no_acq_events t n stacks (h h' : heap) a : In a (events_script t n stacks h h') -> access a <> None.
Proof.
  unfold events_script. intros [<-|H]; [discriminate|]. apply in_flat_map in H. destruct H as (ev & Hev & H).
  apply in_app_or in H. destruct H as [[<-|[]]|H]; [discriminate|]. apply in_app_or in H. destruct H as [H|H].
  - destruct stacks; [|destruct H]. destruct H as [<-|H]; [discriminate|]. apply in_map_iff in H. destruct H as (b & <- & H). discriminate.
  - apply in_map_iff in H. destruct H as (z & <- & H). discriminate.
Qed.
Lemma JO_events h h' l i pre t n stacks : JO h l -> wf h -> wf h' -> t < length (h_traces h) -> reads h h' (latest h t n) ->
  (forall a, In a pre -> access a = None) ->
  JO h' (l ++ by_ i (pre ++ locked t (events_script t n stacks h h'))).
Proof.
  intros J W W' Lt R Hpre. set (s := pre ++ locked t (events_script t n stacks h h')). set (body := pre ++ Acq (SMtx t) :: events_script t n stacks h h').
  assert (Es : s = body ++ [Rel (SMtx t)]) by (unfold s, body, locked; rewrite <- app_assoc; reflexivity).
  assert (In_s : forall a c w, In a s -> access a = Some (c, w) -> In a (events_script t n stacks h h')).
  { intros a c w Ha Hw. unfold s, locked in Ha. apply in_app_or in Ha. destruct Ha as [Ha|[<-|Ha]]; [rewrite (Hpre a Ha) in Hw; discriminate|discriminate|].
    apply in_app_or in Ha. destruct Ha as [Ha|[<-|[]]]; [exact Ha|discriminate]. }
  assert (Tch : forall p c, touched (l ++ by_ i s) p c -> touched l p c \/
     (length l <= p < length l + length body /\ (c = LState t \/ exists ev, In ev (latest h t n) /\ (In c (parts h ev) \/ In c (parts h' ev))))).
  { intros p c H. destruct (touched_by _ _ _ _ _ H) as [H'|(L & a & w & Ha & Hw)]; [auto|]. right. pose proof (nth_error_In _ _ Ha) as Hin.
    destruct (events_script_touch _ _ _ _ _ _ _ _ (In_s _ _ _ Hin Hw) Hw) as [[-> _]|Q]; (split; [|auto]).
    all: destruct (Nat.lt_ge_cases (p - length l) (length body)) as [B|B]; [lia|]; rewrite Es, nth_error_app2 in Ha by exact B;
      destruct (p - length l - length body) as [|y]; [injection Ha as <-; discriminate|destruct y; discriminate]. }
  assert (Pn : forall p, length l <= p < length l + length body -> passed (l ++ by_ i s) (SMtx t) p).
  { intros p L. rewrite Es. apply pass_last. apply know_seg. exact L. }
  assert (Lat : incl (latest h t n) (events_at h t)) by apply skipn_incl.
  assert (NoL : forall ev e, In ev (latest h t n) -> In e (h_epool h) -> ev <> e).
  { intros ev e H1 H2 ->. exact (proj1 (wf_t_pool h W t e (Lat _ H1)) H2). }
  (* parts of an event of another trace are not read *)
  assert (Apart : forall ev e c, In ev (latest h t n) -> In c (parts h ev) \/ In c (parts h' ev) -> In c (parts h' e) -> ev = e \/ exists a, c = LFrames a /\ In a (array_of h ev) /\ In a (array_of h' e) /\ ~ In a (array_of h e)).
  { intros ev e c Hev H1 H2. rewrite !in_parts in H1. rewrite in_parts in H2. destruct H2 as [->|[(a & -> & H2)|(z & -> & H2)]].
    - left. destruct H1 as [[Q|[(a & Q & _)|(z & Q & _)]]|[Q|[(a & Q & _)|(z & Q & _)]]]; try discriminate; injection Q as ->; reflexivity.
    - destruct H1 as [[Q|[(b & Q & H1)|(z & Q & _)]]|[Q|[(b & Q & H1)|(z & Q & _)]]]; try discriminate; injection Q as <-.
      + destruct (in_dec Nat.eq_dec a (array_of h e)) as [Hin|Hin]; [left; exact (array_own h _ _ _ W H1 Hin)|right; exists a; auto].
      + left. exact (array_own h' _ _ _ W' H1 H2).
    - rewrite (rd_text _ _ _ R) in H2. left. destruct H1 as [[Q|[(b & Q & H1)|(y & Q & H1)]]|[Q|[(b & Q & H1)|(y & Q & H1)]]]; try discriminate; injection Q as <-; [|rewrite (rd_text _ _ _ R) in H1];
        exact (text_own h _ _ _ W H1 H2). }
  (* what belongs to an event afterwards belonged to it before, or is new *)
  assert (Before : forall e c p, In c (parts h' e) -> touched l p c -> In c (parts h e)).
  { intros e c p Hc H. rewrite in_parts in *. destruct Hc as [->|[(a & -> & Hc)|(z & -> & Hc)]]; auto.
    - destruct (rd_array _ _ _ R e a Hc) as [Q|Q]; [eauto|]. pose proof (o_frames _ _ J a p H). lia.
    - rewrite (rd_text _ _ _ R) in Hc. eauto. }
  destruct (rd_pools _ _ _ R) as (P1 & P2 & P3). destruct (rd_len _ _ _ R) as (L1 & L2 & L3).
  constructor.
  - intros t' e c p He Hc H. cbv beta in He. rewrite (reads_events _ _ _ t' R) in He. destruct (Tch _ _ H) as [H'|(L & Q)].
    + apply passed_mono. apply (o_ev _ _ J t' e c p He); [exact (Before _ _ _ Hc H')|exact H'].
    + destruct Q as [->|(ev & Hev & Q)]; [rewrite in_parts in Hc; destruct Hc as [Q|[(a & Q & _)|(z & Q & _)]]; discriminate|].
      assert (Et : ev = e -> passed (l ++ by_ i s) (SMtx t') p).
      { intros ->. rewrite <- (wf_t_own h W t t' e (Lat _ Hev) He). apply Pn. exact L. }
      destruct (Apart ev e c Hev Q Hc) as [Q'|(a & -> & A1 & A2 & A3)]; [exact (Et Q')|].
      destruct (rd_array _ _ _ R e a A2) as [A4|A4]; [destruct (A3 A4)|]. apply array_at in A1. destruct A1 as (m & A1). pose proof (proj1 (wf_a_bound h W _ _ _ A1)). lia.
  - intros e c p He Hc H. rewrite P2 in He. destruct (Tch _ _ H) as [H'|(L & Q)].
    + apply passed_mono. apply (o_ep _ _ J e c p He); [|exact H']. assert (Hc' : In c (parts h' e)) by (unfold parts; apply in_or_app; left; exact Hc).
      apply Before with (p := p) in Hc'; [|exact H']. rewrite in_object in *. rewrite in_parts in Hc'. destruct Hc as [->|(a & -> & _)]; [auto|]. destruct Hc' as [Q|[Q|(z & Q & _)]]; [discriminate|auto|discriminate].
    + exfalso. destruct Q as [->|(ev & Hev & Q)]; [rewrite in_object in Hc; destruct Hc as [Q|(a & Q & _)]; discriminate|].
      destruct (Apart ev e c Hev Q) as [Q'|(a & -> & A1 & A2 & A3)]; [unfold parts; apply in_or_app; left; exact Hc|exact (NoL _ _ Hev He Q')|].
      destruct (rd_array _ _ _ R e a A2) as [A4|A4]; [destruct (A3 A4)|]. apply array_at in A1. destruct A1 as (m & A1). pose proof (proj1 (wf_a_bound h W _ _ _ A1)). lia.
  - intros z p Hz H. rewrite P3 in Hz. destruct (Tch _ _ H) as [H'|(L & Q)]; [apply passed_mono; exact (o_zp _ _ J z p Hz H')|]. exfalso.
    destruct Q as [Q|(ev & Hev & Q)]; [discriminate|]. assert (Q' : In z (text_of h ev)).
    { rewrite !in_parts in Q. destruct Q as [[Q|[(b & Q & _)|(y & Q & Q')]]|[Q|[(b & Q & _)|(y & Q & Q')]]]; try discriminate; injection Q as <-; [|rewrite (rd_text _ _ _ R) in Q']; exact Q'. }
    apply text_in in Q'. exact (proj1 (wf_z_pool h W _ _ Q') Hz).
  - intros e p H. rewrite L1. destruct (Tch _ _ H) as [H'|(L & Q)]; [exact (o_event _ _ J e p H')|]. destruct Q as [Q|(ev & Hev & Q)]; [discriminate|].
    assert (ev = e) by (rewrite !in_parts in Q; destruct Q as [[Q|[(b & Q & _)|(y & Q & _)]]|[Q|[(b & Q & _)|(y & Q & _)]]]; try discriminate; injection Q as ->; reflexivity). subst ev.
    exact (proj1 (proj2 (wf_t_pool h W t e (Lat _ Hev)))).
  - intros z p H. rewrite L2. destruct (Tch _ _ H) as [H'|(L & Q)]; [exact (o_text _ _ J z p H')|]. destruct Q as [Q|(ev & Hev & Q)]; [discriminate|].
    assert (Q' : In z (text_of h ev)).
    { rewrite !in_parts in Q. destruct Q as [[Q|[(b & Q & _)|(y & Q & Q')]]|[Q|[(b & Q & _)|(y & Q & Q')]]]; try discriminate; injection Q as <-; [|rewrite (rd_text _ _ _ R) in Q']; exact Q'. }
    apply text_in in Q'. exact (proj2 (wf_z_pool h W _ _ Q')).
  - intros a p H. destruct (Tch _ _ H) as [H'|(L & Q)]; [pose proof (o_frames _ _ J a p H'); lia|]. destruct Q as [Q|(ev & Hev & Q)]; [discriminate|].
    rewrite !in_parts in Q. destruct Q as [[Q|[(b & Q & Q')|(y & Q & _)]]|[Q|[(b & Q & Q')|(y & Q & _)]]]; try discriminate; injection Q as <-; apply array_at in Q'; destruct Q' as (m & Q').
    + pose proof (proj1 (wf_a_bound h W _ _ _ Q')). lia.
    + exact (proj1 (wf_a_bound h' W' _ _ _ Q')).
  - intros t' p H. rewrite (rd_traces _ _ _ R). destruct H as [H|H]; destruct (Tch _ _ H) as [H'|(L & Q)].
    + apply (o_trace _ _ J t' p). auto.
    + destruct Q as [Q|(ev & _ & Q)]; [discriminate|]. rewrite !in_parts in Q. destruct Q as [[Q|[(b & Q & Q')|(y & Q & _)]]|[Q|[(b & Q & Q')|(y & Q & _)]]]; discriminate.
    + apply (o_trace _ _ J t' p). auto.
    + destruct Q as [Q|(ev & _ & Q)]; [injection Q as ->; exact Lt|]. rewrite !in_parts in Q. destruct Q as [[Q|[(b & Q & Q')|(y & Q & _)]]|[Q|[(b & Q & Q')|(y & Q & _)]]]; discriminate.
Qed.
Lemma cov_events h h' l i t n stacks : JO h l -> wf h -> reads h h' (latest h t n) -> (forall p, touched l p (LState t) -> know l i p \/ passed l (SMtx t) p) ->
  Forall (covered l i) (accs [SMtx t] (events_script t n stacks h h')).
Proof.
  intros J W R HS. assert (G : forall s, (forall a c w, In a s -> access a = Some (c, w) -> forall p, touched l p c -> know l i p \/ passed l (SMtx t) p) -> Forall (covered l i) (accs [SMtx t] s)).
  { induction s as [|a s IH]; intros H; [constructor|]. cbn [accs]. apply Forall_app. split.
    - destruct (access a) as [[c w]|] eqn:E; constructor; [|constructor]. intros p w' A _. destruct (H a c w (or_introl eq_refl) E p) as [K|K]; [exists w'; exact A|auto|]. right. exists (SMtx t). split; [left; reflexivity|exact K].
    - apply (accs_more l i s [SMtx t]); [destruct a; auto; intros y Hy; right; exact Hy|]. apply IH. intros b c w Hb. apply H. right. exact Hb. }
  apply G. intros a c w Ha Hw p Hp. destruct (events_script_touch _ _ _ _ _ _ _ _ Ha Hw) as [[-> _]|(ev & Hev & Q)]; [exact (HS p Hp)|]. right.
  assert (Q' : In c (parts h ev)).
  { destruct Q as [Q|Q]; [exact Q|]. rewrite in_parts in *. destruct Q as [->|[(b & -> & Q)|(z & -> & Q)]]; auto.
    - destruct (rd_array _ _ _ R ev b Q) as [Q'|Q']; [eauto|]. pose proof (o_frames _ _ J b p Hp). lia.
    - rewrite (rd_text _ _ _ R) in Q. eauto. }
  exact (o_ev _ _ J t ev c p (skipn_incl _ _ _ Hev) Q' Hp).
Qed.

(** A new event. *)
Record logs (h h' : heap) (t ev z : nat) : Prop := {
  lg_t : to_events (tr_at h' t) = to_events (tr_at h t) ++ [ev];
  lg_o : forall t', t' <> t -> to_events (tr_at h' t') = to_events (tr_at h t');
  lg_text : text_of h' ev = [z] /\ forall e, e <> ev -> text_of h' e = text_of h e;
  lg_array : forall e, array_of h' e = array_of h e;
  lg_ep : incl (h_epool h') (h_epool h) /\ ~ In ev (h_epool h') /\ (In ev (h_epool h) \/ length (h_events h) <= ev);
  lg_zp : incl (h_zpool h') (h_zpool h) /\ ~ In z (h_zpool h') /\ (In z (h_zpool h) \/ length (h_stringers h) <= z);
  lg_len : length (h_events h) <= length (h_events h') /\ length (h_stringers h) <= length (h_stringers h') /\ length (h_arrays h') = length (h_arrays h) /\ length (h_traces h') = length (h_traces h);
  lg_new : ev < length (h_events h') /\ z < length (h_stringers h')
}.
Lemma log_logs t (e : env arg world pc) ep zp k f a (h : heap) : wf h -> t < length (h_traces h) -> ct_finished (to_head (tr_at h t)) = false ->
  (ct_eventsmax (to_head (tr_at h t)) <=? zlen (to_events (tr_at h t)))%Z = false ->
  exists ev z, fst (fst (pool_get zeroEO ep (h_epool h) (h_events h))) = ev /\ fst (fst (pool_get zeroStringer zp (h_zpool h) (h_stringers h))) = z /\
    logs h (h_log Sprintf t e ep zp k f a h) t ev z.
Proof.
  intros W L NF NM. unfold h_log. fold (tr_at h t). rewrite NF.
  assert (Em : ct_eventsmax (if is_error_kind k then mark_errored (to_head (tr_at h t)) else to_head (tr_at h t)) = ct_eventsmax (to_head (tr_at h t))) by (destruct (is_error_kind k); reflexivity).
  rewrite Em, NM. unfold h_new_event. destruct (wf_ep h W) as [We1 We2]. destruct (wf_zp h W) as [Wz1 Wz2].
  destruct (pool_get zeroEO ep (h_epool h) (h_events h)) as [[ev epool] events] eqn:Ep.
  destruct (pool_get_spec _ _ _ _ _ _ _ We1 (fun y Hy => proj1 (We2 y Hy)) Ep) as (Ne & Ie & Xe & Oe & Le & L2e & De).
  destruct (pool_get zeroStringer zp (h_zpool h) (h_stringers h)) as [[z zpool] stringers] eqn:Zp.
  destruct (pool_get_spec _ _ _ _ _ _ _ Wz1 Wz2 Zp) as (Nz & Iz & Xz & Oz & Lz & L2z & Dz).
  exists ev, z. split; [reflexivity|]. split; [reflexivity|]. set (head := if is_error_kind k then _ else _). set (zo := if is_lazy_kind k then _ else _). set (o := MkEO _ _ _ _ _).
  match goal with |- logs _ (set_trace _ _ ?x) _ _ _ => set (h1 := x) end. set (h' := set_trace _ _ _).
  assert (L1 : t < length (h_traces h1)) by exact L.
  assert (Eev : nth ev (h_events h') zeroEO = o) by (unfold h', set_trace, h1; cbn [h_events]; apply nth_update_at; exact Le).
  assert (Eo : forall e', e' <> ev -> nth e' (h_events h') zeroEO = nth e' (h_events h) zeroEO).
  { intros e' n. unfold h', set_trace, h1. cbn [h_events]. rewrite nth_update_ne by congruence. apply De. }
  constructor.
  - unfold h'. rewrite tr_at_set by exact L1. rewrite Nat.eqb_refl. reflexivity.
  - intros t' n. unfold h'. rewrite tr_at_set by exact L1. apply Nat.eqb_neq in n. rewrite Nat.eqb_sym, n. reflexivity.
  - split; [unfold text_of; rewrite Eev; reflexivity|]. intros e' n. unfold text_of. rewrite (Eo _ n). reflexivity.
  - intros e'. unfold array_of. destruct (Nat.eq_dec e' ev) as [->|n]; [|rewrite (Eo _ n); reflexivity]. rewrite Eev. unfold o. cbn [eo_stack]. rewrite De. destruct (eo_stack (nth ev (h_events h) zeroEO)) as [[b m]|]; reflexivity.
  - split; [exact Ie|]. split; [exact Xe|]. destruct Oe as [Oe|Oe]; [auto|right; lia].
  - split; [exact Iz|]. split; [exact Xz|]. destruct Oz as [Oz|Oz]; [auto|right; lia].
  - unfold h', set_trace, h1. cbn [h_events h_stringers h_arrays h_traces]. rewrite !length_update. auto.
  - unfold h', set_trace, h1. cbn [h_events h_stringers]. rewrite !length_update. auto.
Qed.
Definition log_body (t ev z : nat) (h : heap) : list action :=
  [Rd (LState t)] ++ got ev SPoolE (h_epool h) ++ [Wr (LEvent ev)] ++ got z SPoolZ (h_zpool h) ++ [Wr (LText z); Wr (LState t)].
Lemma got_cases x s pool : (In x pool /\ got x s pool = [Acq (s x)]) \/ (~ In x pool /\ got x s pool = []).
Proof. destruct (in_dec Nat.eq_dec x pool) as [H|H]; [left|right]; (split; [exact H|]); [apply got_in|apply got_out]; exact H. Qed.
Lemma log_body_touch t ev z h a c w : In a (log_body t ev z h) -> access a = Some (c, w) -> c = LState t \/ c = LEvent ev \/ c = LText z.
Proof.
  unfold log_body. destruct (got_cases ev SPoolE (h_epool h)) as [[_ ->]|[_ ->]], (got_cases z SPoolZ (h_zpool h)) as [[_ ->]|[_ ->]]; cbn [app In]; intros H A;
    repeat (destruct H as [<-|H]; [cbn in A; try discriminate; injection A as <- <-; auto|]); try contradiction.
Qed.
Lemma fresh_array (h : heap) e : length (h_events h) <= e -> array_of h e = [].
Proof. intros L. unfold array_of. rewrite nth_overflow by exact L. reflexivity. Qed.
Lemma JO_log h h' l i pre t ev z : JO h l -> wf h -> wf h' -> t < length (h_traces h) -> logs h h' t ev z ->
  (forall a, In a pre -> access a = None) ->
  JO h' (l ++ by_ i (pre ++ locked t (log_body t ev z h))).
Proof.
  intros J W W' Lt G Hpre. set (s := pre ++ locked t (log_body t ev z h)). set (body := pre ++ Acq (SMtx t) :: log_body t ev z h).
  assert (Es : s = body ++ [Rel (SMtx t)]) by (unfold s, body, locked; rewrite <- app_assoc; reflexivity).
  assert (Tch : forall p c, touched (l ++ by_ i s) p c -> touched l p c \/
     (length l <= p < length l + length body /\ (c = LState t \/ c = LEvent ev \/ c = LText z))).
  { intros p c H. destruct (touched_by _ _ _ _ _ H) as [H'|(L & a & w & Ha & Hw)]; [auto|]. right.
    destruct (Nat.lt_ge_cases (p - length l) (length body)) as [B|B].
    - split; [lia|]. pose proof (nth_error_In _ _ Ha) as Hin. unfold s, locked in Hin. apply in_app_or in Hin. destruct Hin as [Hin|[<-|Hin]]; [rewrite (Hpre a Hin) in Hw; discriminate|discriminate|].
      apply in_app_or in Hin. destruct Hin as [Hin|[<-|[]]]; [exact (log_body_touch _ _ _ _ _ _ _ Hin Hw)|discriminate].
    - exfalso. rewrite Es, nth_error_app2 in Ha by exact B. destruct (p - length l - length body) as [|y]; [injection Ha as <-; discriminate|destruct y; discriminate]. }
  assert (Pn : forall p, know (l ++ by_ i body) i p -> passed (l ++ by_ i s) (SMtx t) p) by (intros p K; rewrite Es; apply pass_last; exact K).
  assert (Ka : forall x p, In (Acq x) body -> passed l x p -> passed (l ++ by_ i s) (SMtx t) p) by (intros x p Hx Hp; apply Pn; apply (know_seg_acq _ _ _ x); assumption).
  assert (Pe : In ev (h_epool h) -> In (Acq (SPoolE ev)) body).
  { intros H. unfold body, log_body. rewrite (got_in _ _ _ H). apply in_or_app. right. right. right. left. reflexivity. }
  assert (Pz : In z (h_zpool h) -> In (Acq (SPoolZ z)) body).
  { intros H. unfold body, log_body. rewrite (got_in z _ _ H). apply in_or_app. right. right. apply in_or_app. right. apply in_or_app. right. right. left. reflexivity. }
  destruct (lg_ep _ _ _ _ _ G) as (E1 & E2 & E3). destruct (lg_zp _ _ _ _ _ G) as (Z1 & Z2 & Z3). destruct (lg_len _ _ _ _ _ G) as (L1 & L2 & L3 & L4). destruct (lg_text _ _ _ _ _ G) as [X1 X2].
  assert (Ob : forall e, object h' e = object h e) by (intros e; unfold object; rewrite (lg_array _ _ _ _ _ G); reflexivity).
  assert (Inev : In ev (to_events (tr_at h' t))) by (rewrite (lg_t _ _ _ _ _ G); apply in_or_app; right; left; reflexivity).
  assert (Notin : forall t', ~ In ev (to_events (tr_at h t'))).
  { intros t' Q. destruct (wf_t_pool h W t' ev Q) as (Q1 & Q2 & _). destruct E3 as [E3|E3]; [exact (Q1 E3)|lia]. }
  constructor.
  - intros t' e c p He Hc H. cbv beta in He.
    assert (Or : (In e (to_events (tr_at h t')) /\ e <> ev) \/ (e = ev /\ t' = t)).
    { destruct (Nat.eq_dec t' t) as [->|n].
      - rewrite (lg_t _ _ _ _ _ G) in He. apply in_app_or in He. destruct He as [He|[<-|[]]]; [left|auto]. split; [exact He|]. intros ->. exact (Notin _ He).
      - rewrite (lg_o _ _ _ _ _ G _ n) in He. left. split; [exact He|]. intros ->. exact (Notin _ He). }
    destruct Or as [[He' Ne]|[-> ->]].
    + assert (Hc' : In c (parts h e)) by (unfold parts in *; rewrite Ob, (X2 _ Ne) in Hc; exact Hc). destruct (Tch _ _ H) as [H'|(L & Q)]; [apply passed_mono; exact (o_ev _ _ J t' e c p He' Hc' H')|].
      exfalso. rewrite in_parts in Hc'. destruct Q as [->|[->| ->]].
      * destruct Hc' as [Q|[(b & Q & _)|(y & Q & _)]]; discriminate.
      * destruct Hc' as [Q|[(b & Q & _)|(y & Q & _)]]; try discriminate. injection Q as Q. exact (Ne (eq_sym Q)).
      * destruct Hc' as [Q|[(b & Q & _)|(y & Q & Q')]]; try discriminate. injection Q as <-. apply text_in in Q'. destruct (wf_z_pool h W _ _ Q') as [Q1 Q2]. destruct Z3 as [Z3|Z3]; [exact (Q1 Z3)|lia].
    + destruct (Tch _ _ H) as [H'|(L & Q)]; [|apply Pn; apply know_seg; exact L]. unfold parts in Hc. rewrite Ob, X1 in Hc. apply in_app_or in Hc. destruct Hc as [Hc|[<-|[]]].
      * destruct E3 as [E3|E3]; [apply (Ka (SPoolE ev)); [exact (Pe E3)|exact (o_ep _ _ J ev c p E3 Hc H')]|]. exfalso. rewrite in_object in Hc.
        destruct Hc as [->|(b & -> & Hb)]; [pose proof (o_event _ _ J _ _ H'); lia|]. rewrite (fresh_array _ _ E3) in Hb. destruct Hb.
      * destruct Z3 as [Z3|Z3]; [apply (Ka (SPoolZ z)); [exact (Pz Z3)|exact (o_zp _ _ J z p Z3 H')]|]. pose proof (o_text _ _ J _ _ H'). lia.
  - intros e c p He Hc H. rewrite Ob in Hc. destruct (Tch _ _ H) as [H'|(L & Q)]; [apply passed_mono; exact (o_ep _ _ J e c p (E1 _ He) Hc H')|]. exfalso. rewrite in_object in Hc.
    destruct Q as [->|[->| ->]]; destruct Hc as [Q|(b & Q & _)]; try discriminate. injection Q as <-. exact (E2 He).
  - intros y p Hy H. destruct (Tch _ _ H) as [H'|(L & Q)]; [apply passed_mono; exact (o_zp _ _ J y p (Z1 _ Hy) H')|]. exfalso. destruct Q as [Q|[Q|Q]]; try discriminate. injection Q as ->. exact (Z2 Hy).
  - intros e p H. destruct (Tch _ _ H) as [H'|(L & Q)]; [pose proof (o_event _ _ J e p H'); lia|]. destruct Q as [Q|[Q|Q]]; try discriminate. injection Q as ->. exact (proj1 (lg_new _ _ _ _ _ G)).
  - intros y p H. destruct (Tch _ _ H) as [H'|(L & Q)]; [pose proof (o_text _ _ J y p H'); lia|]. destruct Q as [Q|[Q|Q]]; try discriminate. injection Q as ->. exact (proj2 (lg_new _ _ _ _ _ G)).
  - intros a p H. destruct (Tch _ _ H) as [H'|(L & Q)]; [pose proof (o_frames _ _ J a p H'); lia|]. destruct Q as [Q|[Q|Q]]; discriminate.
  - intros t' p H. rewrite L4. destruct H as [H|H]; destruct (Tch _ _ H) as [H'|(L & Q)]; try (apply (o_trace _ _ J t' p); auto; fail); destruct Q as [Q|[Q|Q]]; try discriminate. injection Q as ->. exact Lt.
Qed.
Lemma cov_log h l i t ev z : JO h l -> wf h -> (In ev (h_epool h) \/ length (h_events h) <= ev) -> (In z (h_zpool h) \/ length (h_stringers h) <= z) ->
  (forall p, touched l p (LState t) -> know l i p \/ passed l (SMtx t) p) ->
  Forall (covered l i) (accs [SMtx t] (log_body t ev z h)).
Proof.
  intros J W E3 Z3 HS.
  assert (CS : forall w ys, In (SMtx t) ys -> covered l i (LState t, w, ys)).
  { intros w ys Hy p w' A _. destruct (HS p (ex_intro _ w' A)) as [K|K]; [auto|]. right. exists (SMtx t). auto. }
  assert (CE : forall w ys, (In ev (h_epool h) -> In (SPoolE ev) ys) -> covered l i (LEvent ev, w, ys)).
  { intros w ys Hy p w' A _. destruct E3 as [E3|E3].
    - right. exists (SPoolE ev). split; [auto|]. apply (o_ep _ _ J ev (LEvent ev) p E3); [left; reflexivity|exists w'; exact A].
    - exfalso. pose proof (o_event _ _ J ev p (ex_intro _ w' A)). lia. }
  assert (CZ : forall w ys, (In z (h_zpool h) -> In (SPoolZ z) ys) -> covered l i (LText z, w, ys)).
  { intros w ys Hy p w' A _. destruct Z3 as [Z3|Z3].
    - right. exists (SPoolZ z). split; [auto|]. apply (o_zp _ _ J z p Z3). exists w'. exact A.
    - exfalso. pose proof (o_text _ _ J z p (ex_intro _ w' A)). lia. }
  unfold log_body. destruct (got_cases ev SPoolE (h_epool h)) as [[I1 ->]|[I1 ->]], (got_cases z SPoolZ (h_zpool h)) as [[I2 ->]|[I2 ->]]; simpl accs;
    repeat (apply Forall_cons; [match goal with
      | |- covered _ _ (LState _, _, _) => apply CS; cbn [In]; tauto
      | |- covered _ _ (LEvent _, _, _) => apply CE; intros Q; first [exact (False_ind _ (I1 Q))|cbn [In]; tauto]
      | |- covered _ _ (LText _, _, _) => apply CZ; intros Q; first [exact (False_ind _ (I2 Q))|cbn [In]; tauto]
      end|]); apply Forall_nil.
Qed.

(** A trace is freed. *)
Record frees (h h' : heap) (t : nat) : Prop := {
  fr_t : to_events (tr_at h' t) = [];
  fr_o : forall t', t' <> t -> to_events (tr_at h' t') = to_events (tr_at h t');
  fr_array : forall e, array_of h' e = array_of h e;
  fr_text : forall e, ~ In e (to_events (tr_at h t)) -> text_of h' e = text_of h e;
  fr_ep : forall e, In e (h_epool h') -> In e (h_epool h) \/ In e (to_events (tr_at h t));
  fr_zp : forall z, In z (h_zpool h') -> In z (h_zpool h) \/ exists e, In e (to_events (tr_at h t)) /\ In z (text_of h e);
  fr_len : length (h_events h') = length (h_events h) /\ length (h_stringers h') = length (h_stringers h) /\ length (h_arrays h') = length (h_arrays h) /\ length (h_traces h') = length (h_traces h)
}.
Lemma free_events_shape : forall evs (h h' : heap), NoDup evs -> (forall e, In e evs -> e < length (h_events h)) -> h_free_events evs h = Ok h' ->
  h_traces h' = h_traces h /\ (forall e, array_of h' e = array_of h e) /\ (forall e, ~ In e evs -> text_of h' e = text_of h e) /\
  (forall e, In e (h_epool h') -> In e (h_epool h) \/ In e evs) /\ (forall z, In z (h_zpool h') -> In z (h_zpool h) \/ exists e, In e evs /\ In z (text_of h e)) /\
  length (h_events h') = length (h_events h) /\ h_stringers h' = h_stringers h /\ h_arrays h' = h_arrays h.
Proof.
  induction evs as [|ev evs IH]; intros h h' N B; cbn [h_free_events].
  - intros [= <-]. repeat split; auto.
  - unfold h_free_event at 1. fold (ev_at h ev). destruct (eo_what (ev_at h ev)) as [z|] eqn:Ez; cbn [bind]; [|discriminate]. set (h1 := MkHeap _ _ _ _ _ _ _). intros E.
    apply NoDup_cons_iff in N. destruct N as [N1 N2]. pose proof (B _ (or_introl eq_refl)) as Lev.
    assert (Ll : length (h_events h1) = length (h_events h)) by (unfold h1; cbn [h_events]; apply length_update).
    destruct (IH h1 h' N2) as (A1 & A2 & A3 & A4 & A5 & A6 & A7 & A8); [intros e He; rewrite Ll; apply B; right; exact He|exact E|].
    assert (At : forall e, nth e (h_events h1) zeroEO = if Nat.eqb ev e then MkEO (eo_when (ev_at h ev)) None [] (truncate (eo_stack (ev_at h ev))) (eo_iserr (ev_at h ev)) else nth e (h_events h) zeroEO).
    { intros e. unfold h1. cbn [h_events]. destruct (Nat.eqb_spec ev e) as [->|n]; [apply nth_update_at; exact Lev|apply nth_update_ne; exact n]. }
    assert (Tx : forall e, e <> ev -> text_of h1 e = text_of h e) by (intros e n; unfold text_of; rewrite At; destruct (Nat.eqb_spec ev e); [congruence|reflexivity]).
    split; [exact A1|]. split; [|split; [|split; [|split; [|split; [|split]]]]].
    + intros e. rewrite A2. unfold array_of. rewrite At. destruct (Nat.eqb_spec ev e) as [->|n]; [|reflexivity]. cbn [eo_stack]. unfold ev_at. destruct (eo_stack (nth e (h_events h) zeroEO)) as [[b m]|]; reflexivity.
    + intros e Ne. rewrite A3 by (intros Q; apply Ne; right; exact Q). apply Tx. intros ->. apply Ne. left. reflexivity.
    + intros e He. destruct (A4 e He) as [[<-|Q]|Q]; [right; left; reflexivity|left; exact Q|right; right; exact Q].
    + intros y Hy. destruct (A5 y Hy) as [[<-|Q]|(e & He & Q)].
      * right. exists ev. split; [left; reflexivity|]. apply text_in. exact Ez.
      * left. exact Q.
      * right. exists e. split; [right; exact He|]. rewrite Tx in Q; [exact Q|]. intros ->. exact (N1 He).
    + congruence.
    + exact A7.
    + exact A8.
Qed.
Lemma free_frees t (h h' : heap) : wf h -> t < length (h_traces h) -> ct_finished (to_head (tr_at h t)) = true -> h_free t h = Ok h' -> frees h h' t.
Proof.
  intros W L F. unfold h_free. fold (tr_at h t). rewrite F. cbn [negb]. destruct (h_free_events (to_events (tr_at h t)) h) as [h1|] eqn:E; cbn [bind]; [|discriminate]. intros [= <-].
  destruct (free_events_shape _ _ _ (wf_t_nodup h W t) (fun e He => proj1 (proj2 (wf_t_pool h W t e He))) E) as (A1 & A2 & A3 & A4 & A5 & A6 & A7 & A8).
  assert (At : forall t', tr_at (MkHeap (update t (MkTO (to_head (tr_at h t)) (firstn 0 (to_events (tr_at h t)))) (h_traces h1)) (h_events h1) (h_stringers h1) (h_arrays h1) (t :: h_tpool h1) (h_epool h1) (h_zpool h1)) t' =
     if Nat.eqb t t' then MkTO (to_head (tr_at h t)) [] else tr_at h t').
  { intros t'. unfold tr_at at 1. cbn [h_traces]. rewrite A1. destruct (Nat.eqb_spec t t') as [->|n]; [apply nth_update_at; exact L|apply nth_update_ne; exact n]. }
  constructor.
  - rewrite At, Nat.eqb_refl. reflexivity.
  - intros t' n. rewrite At. destruct (Nat.eqb_spec t t'); [congruence|reflexivity].
  - exact A2.
  - exact A3.
  - exact A4.
  - exact A5.
  - cbn [h_events h_stringers h_arrays h_traces]. rewrite length_update, A1, A7, A8. auto.
Qed.
Definition free_loop (h : heap) (evs : list nat) : list action := flat_map (fun ev => map (fun z => Rel (SPoolZ z)) (text_of h ev) ++ [Wr (LEvent ev); Rel (SPoolE ev)]) evs.
Lemma free_loop_next h rest : (forall e, ~ In (Wr (LEvent e)) rest) -> forall evs p e, nth_error (free_loop h evs ++ rest) p = Some (Wr (LEvent e)) -> nth_error (free_loop h evs ++ rest) (S p) = Some (Rel (SPoolE e)) /\ In e evs.
Proof.
  intros Hr. induction evs as [|ev evs IH]; intros p e.
  - cbn [free_loop flat_map app]. intros H. destruct (Hr e (nth_error_In _ _ H)).
  - unfold free_loop. cbn [flat_map]. fold (free_loop h evs). unfold text_of. destruct (eo_what (nth ev (h_events h) zeroEO)) as [z|]; cbn [map app].
    + destruct p as [|[|[|p]]]; cbn [nth_error]; try discriminate.
      * intros [= <-]. split; [reflexivity|left; reflexivity].
      * intros H. destruct (IH _ _ H) as [Q1 Q2]. split; [exact Q1|right; exact Q2].
    + destruct p as [|[|p]]; cbn [nth_error]; try discriminate.
      * intros [= <-]. split; [reflexivity|left; reflexivity].
      * intros H. destruct (IH _ _ H) as [Q1 Q2]. split; [exact Q1|right; exact Q2].
Qed.
Lemma free_loop_touch h evs a c w : In a (free_loop h evs) -> access a = Some (c, w) -> exists e, In e evs /\ a = Wr (LEvent e) /\ c = LEvent e.
Proof.
  intros H A. apply in_flat_map in H. destruct H as (ev & Hev & H). apply in_app_or in H. destruct H as [H|[<-|[<-|[]]]]; [|injection A as <- <-; eauto|discriminate].
  apply in_map_iff in H. destruct H as (z & <- & _). discriminate.
Qed.
Lemma pass_after l i s q x p : nth_error s q = Some (Rel x) -> length l <= p < length l + q -> passed (l ++ by_ i s) x p.
Proof.
  intros Hq L. apply nth_error_split in Hq. destruct Hq as (s1 & s2 & -> & Hl). apply pass_split. apply know_seg. rewrite Hl. lia.
Qed.
Lemma pass_later l i y s x p : passed l y p -> In (Rel x) s -> passed (l ++ by_ i (Acq y :: s)) x p.
Proof.
  intros Hp Hx. apply in_split in Hx. destruct Hx as (s1 & s2 & ->). apply (pass_split l i (Acq y :: s1) s2). apply (know_seg_acq _ _ _ y); [left; reflexivity|exact Hp].
Qed.
Lemma JO_free h h' l i t : JO h l -> wf h -> wf h' -> t < length (h_traces h) -> ct_finished (to_head (tr_at h t)) = true -> frees h h' t ->
  JO h' (l ++ by_ i (free_script t h)).
Proof.
  intros J W W' Lt F G. unfold free_script. fold (tr_at h t). rewrite F. fold (free_loop h (to_events (tr_at h t))). unfold locked. set (evs := to_events (tr_at h t)) in *.
  set (rest := [Wr (LState t); Recycle t; Rel (SPoolT t)] ++ [Rel (SMtx t)]).
  replace (Acq (SMtx t) :: (Rd (LState t) :: free_loop h evs ++ [Wr (LState t); Recycle t; Rel (SPoolT t)]) ++ [Rel (SMtx t)]) with (Acq (SMtx t) :: Rd (LState t) :: free_loop h evs ++ rest)
    by (unfold rest; cbn [app]; rewrite <- app_assoc; reflexivity).
  set (s := Acq (SMtx t) :: Rd (LState t) :: free_loop h evs ++ rest).
  assert (Nx : forall p e, nth_error s p = Some (Wr (LEvent e)) -> nth_error s (S p) = Some (Rel (SPoolE e)) /\ In e evs).
  { intros p e. unfold s. destruct p as [|[|p]]; cbn [nth_error]; try discriminate. apply free_loop_next. unfold rest. intros e' H. cbn in H. repeat (destruct H as [H|H]; [discriminate|]). exact H. }
  assert (Tch : forall p c, touched (l ++ by_ i s) p c -> touched l p c \/ c = LState t \/
     (length l <= p /\ exists e, c = LEvent e /\ In e evs /\ nth_error s (p - length l) = Some (Wr (LEvent e)))).
  { intros p c H. destruct (touched_by _ _ _ _ _ H) as [H'|(L & a & w & Ha & Hw)]; [auto|]. right. pose proof (nth_error_In _ _ Ha) as Hin. unfold s in Hin.
    destruct Hin as [<-|[<-|Hin]]; [discriminate|injection Hw as <- <-; auto|]. apply in_app_or in Hin. destruct Hin as [Hin|Hin].
    - destruct (free_loop_touch _ _ _ _ _ Hin Hw) as (e & He & -> & ->). right. split; [lia|]. exists e. auto.
    - unfold rest in Hin. cbn [app In] in Hin. destruct Hin as [<-|[<-|[<-|[<-|[]]]]]; try discriminate. injection Hw as <- <-. auto. }
  destruct (fr_len _ _ _ G) as (L1 & L2 & L3 & L4).
  assert (Ob : forall e, object h' e = object h e) by (intros e; unfold object; rewrite (fr_array _ _ _ G); reflexivity).
  assert (Pt : forall e c, In e evs -> In c (object h e) -> In c (parts h e)) by (intros e c _ Hc; unfold parts; apply in_or_app; left; exact Hc).
  assert (RelE : forall e, In e evs -> In (Rel (SPoolE e)) (Rd (LState t) :: free_loop h evs ++ rest)).
  { intros e He. right. apply in_or_app. left. apply in_flat_map. exists e. split; [exact He|]. apply in_or_app. right. right. left. reflexivity. }
  assert (RelZ : forall e z, In e evs -> In z (text_of h e) -> In (Rel (SPoolZ z)) (Rd (LState t) :: free_loop h evs ++ rest)).
  { intros e z He Hz. right. apply in_or_app. left. apply in_flat_map. exists e. split; [exact He|]. apply in_or_app. left. apply in_map_iff. exists z. auto. }
  constructor.
  - intros t' e c p He Hc H. cbv beta in He. assert (n : t' <> t) by (intros ->; rewrite (fr_t _ _ _ G) in He; destruct He). rewrite (fr_o _ _ _ G _ n) in He.
    assert (Ne : ~ In e evs) by (intros Q; apply n; exact (wf_t_own h W _ _ _ He Q)).
    assert (Hc' : In c (parts h e)) by (unfold parts in *; rewrite Ob, (fr_text _ _ _ G _ Ne) in Hc; exact Hc).
    destruct (Tch _ _ H) as [H'|[->|(L & e' & -> & He' & _)]]; [apply passed_mono; exact (o_ev _ _ J t' e c p He Hc' H')| |]; exfalso; rewrite in_parts in Hc'; destruct Hc' as [Q|[(b & Q & _)|(y & Q & _)]]; try discriminate.
    injection Q as ->. exact (Ne He').
  - intros e c p He Hc H. rewrite Ob in Hc. destruct (Tch _ _ H) as [H'|[->|(L & e' & -> & He' & Hn)]].
    + destruct (fr_ep _ _ _ G e He) as [Q|Q]; [apply passed_mono; exact (o_ep _ _ J e c p Q Hc H')|]. unfold s. apply pass_later; [|exact (RelE e Q)]. exact (o_ev _ _ J t e c p Q (Pt _ _ Q Hc) H').
    + exfalso. rewrite in_object in Hc. destruct Hc as [Q|(b & Q & _)]; discriminate.
    + rewrite in_object in Hc. destruct Hc as [Q|(b & Q & _)]; [|discriminate]. injection Q as ->. apply (pass_after l i s (S (p - length l))); [exact (proj1 (Nx _ _ Hn))|lia].
  - intros z p Hz H. destruct (Tch _ _ H) as [H'|[Q|(L & e' & Q & _)]]; try discriminate. destruct (fr_zp _ _ _ G z Hz) as [Q|(e & He & Q)]; [apply passed_mono; exact (o_zp _ _ J z p Q H')|].
    unfold s. apply pass_later; [|exact (RelZ e z He Q)]. apply (o_ev _ _ J t e (LText z) p He); [apply in_parts; right; right; eauto|exact H'].
  - intros e p H. rewrite L1. destruct (Tch _ _ H) as [H'|[Q|(L & e' & Q & He' & _)]]; try discriminate; [exact (o_event _ _ J e p H')|]. injection Q as ->. exact (proj1 (proj2 (wf_t_pool h W t _ He'))).
  - intros z p H. rewrite L2. destruct (Tch _ _ H) as [H'|[Q|(L & e' & Q & _)]]; try discriminate. exact (o_text _ _ J z p H').
  - intros a p H. rewrite L3. destruct (Tch _ _ H) as [H'|[Q|(L & e' & Q & _)]]; try discriminate. exact (o_frames _ _ J a p H').
  - intros t' p H. rewrite L4. destruct H as [H|H]; destruct (Tch _ _ H) as [H'|[Q|(L & e' & Q & _)]]; try discriminate; try (apply (o_trace _ _ J t' p); auto; fail). injection Q as ->. exact Lt.
Qed.
Lemma cov_free h l i t : JO h l -> (forall p, touched l p (LState t) -> know l i p \/ passed l (SMtx t) p) ->
  Forall (covered l i) (accs [] (free_script t h)).
Proof.
  intros J HS.
  assert (CS : forall w ys, In (SMtx t) ys -> covered l i (LState t, w, ys)).
  { intros w ys Hy p w' A _. destruct (HS p (ex_intro _ w' A)) as [K|K]; [auto|]. right. exists (SMtx t). auto. }
  unfold free_script. fold (tr_at h t). unfold locked. destruct (ct_finished (to_head (tr_at h t))).
  - fold (free_loop h (to_events (tr_at h t))). cbn [app accs access]. apply Forall_cons; [apply CS; left; reflexivity|]. rewrite <- app_assoc. apply accs_app_safe.
    + assert (G : forall evs, incl evs (to_events (tr_at h t)) -> Forall (covered l i) (accs [SMtx t] (free_loop h evs))).
      { induction evs as [|ev evs IH]; intros I; [constructor|]. unfold free_loop. cbn [flat_map]. fold (free_loop h evs). apply accs_app_safe; [|apply IH; intros e He; apply I; right; exact He].
        apply accs_app_safe; [unfold text_of; destruct (eo_what _); constructor|]. cbn [accs access app]. constructor; [|constructor]. intros p w' A _. right. exists (SMtx t). split; [left; reflexivity|].
        apply (o_ev _ _ J t ev (LEvent ev) p); [apply I; left; reflexivity|apply in_parts; auto|exists w'; exact A]. }
      apply G. apply incl_refl.
    + cbn [app accs access]. constructor; [apply CS; left; reflexivity|constructor].
  - cbn [app accs access]. constructor; [apply CS; left; reflexivity|constructor].
Qed.
End Objects.

(** Lemmas on the log of a trace used by several goroutines. *)
From Verif Require Import Go L_List M_Strings M_Types S_Trace M_Trace S_TraceView L_Trace M_Text M_Humanize M_Decor L_Decor M_LogConc S_LogConc.
From Coq Require Import Lia.
Open Scope string_scope.
Open Scope list_scope.

Lemma nth_error_update {A} (l : list A) i j x : (i < length l)%nat ->
  nth_error (update i x l) j = if Nat.eqb j i then Some x else nth_error l j.
Proof. revert i j. induction l as [|y l IH]; intros [|i] [|j] H; cbn in *; try lia; try reflexivity. apply IH. lia. Qed.
Lemma nth_error_lt {A} (l : list A) i x : nth_error l i = Some x -> (i < length l)%nat.
Proof. intros H. apply nth_error_Some. congruence. Qed.
Lemma skipn_nth {A} (l : list A) n x : nth_error l n = Some x -> skipn n l = x :: skipn (S n) l.
Proof. revert n. induction l as [|y l IH]; intros [|n] H; cbn in *; try discriminate; [congruence|]. rewrite (IH n H). destruct l; reflexivity. Qed.

Section LogConc.
Context {arg world pc : Type}.
Variable Sprintf : world -> string -> list arg -> string.
Variable CallersFrames : list pc -> list rframe.
Variable str : string -> arg.
Notation env := (env arg world pc).
Notation coreTrace := (coreTrace arg pc).
Notation run := (run Sprintf CallersFrames).
Notation do_call := (do_call Sprintf CallersFrames).
Notation lstep := (lstep Sprintf CallersFrames str).
Notation lrun := (lrun Sprintf CallersFrames str).
Notation lstart := (lstart Sprintf str).
Notation log_text := (log_text Sprintf).
Notation lmachine := (lmachine (arg := arg) (world := world) (pc := pc)).
Variable c0 : coreTrace.
Variable programs : list (list (lcall arg)).

Lemma lines_by_snoc j out i n t : lines_by j (out ++ [MkEntry (Some (i, n)) t]) = lines_by j out ++ (if Nat.eqb i j then [n] else []).
Proof. unfold lines_by. rewrite flat_map_app. cbn [flat_map en_call]. rewrite app_nil_r. reflexivity. Qed.
Lemma lines_by_none j out t : lines_by j (out ++ [MkEntry None t]) = lines_by j out.
Proof. unfold lines_by. rewrite flat_map_app. cbn [flat_map en_call]. apply app_nil_r. Qed.
Lemma calls_by_snoc j (calls : list (nat * nat * (env * call arg))) i n x : calls_by j (calls ++ [(i, n, x)]) = calls_by j calls ++ (if Nat.eqb i j then [n] else []).
Proof. unfold calls_by. rewrite flat_map_app. cbn [flat_map]. rewrite app_nil_r. reflexivity. Qed.
Lemma logged_calls_S (p : list (lcall arg)) n c : nth_error p n = Some c -> logged_calls p (S n) = logged_calls p n ++ (if is_logged c then [n] else []).
Proof.
  intros H. unfold logged_calls. rewrite seq_S, filter_app. f_equal. cbn [filter plus]. rewrite H. reflexivity.
Qed.

(** In the middle of call c: what is left, whether the line is written, whether the trace is told. *)
Inductive mid (core : coreTrace) (g : lgor (arg := arg)) : lcall arg -> list (lmicro arg) -> bool -> bool -> Prop :=
| mid_log k f a : mid core g (LLog k f a) [LCore (CallLog k f a)] true false
| mid_duration : ct_finished core = true -> mid core g LFinish [LDuration; LErrored; LDone] false true
| mid_errored : ct_finished core = true -> lg_duration g = ct_duration core -> mid core g LFinish [LErrored; LDone] false true
| mid_done : ct_finished core = true -> lg_duration g = ct_duration core -> lg_errored g = ct_errored core ->
    mid core g LFinish [LDone] false true.
Inductive g_at (core : coreTrace) (out : list entry) (calls : list (nat * nat * (env * call arg))) (i : nat) (p : list (lcall arg)) (g : lgor (arg := arg)) : Prop :=
| at_between n : (n <= length p)%nat -> lg_todo g = program_steps n (skipn n p) ->
    lines_by i out = logged_calls p n -> calls_by i calls = seq 0 n -> g_at core out calls i p g
| at_mid n c part w t : nth_error p n = Some c -> mid core g c part w t ->
    lg_todo g = map (pair n) part ++ program_steps (S n) (skipn (S n) p) ->
    lines_by i out = logged_calls p n ++ (if w then [n] else []) -> calls_by i calls = seq 0 n ++ (if t then [n] else []) ->
    g_at core out calls i p g.

(** What the line of call n of goroutine i should say. *)
Definition says (core : coreTrace) (i n : nat) (text : string) : Prop :=
  exists c w, the_call programs i n c /\
    match c with
    | LLog k f a => text = log_text w (ID core) (if is_error_kind k then "ERROR: " ++ f else f)%string a
    | LFinish => ct_finished core = true /\
        text = log_text w (ID core) "done, %s, %s" [str (if ct_errored core then "errored" else "success"); str (HumanizeDuration (ct_duration core))]
    | _ => False
    end.
Definition core_call (c : lcall arg) : call arg :=
  match c with LLog k f a => CallLog k f a | LFinish => CallFinish | LSetMaxEvents n => CallSetMaxEvents n | LRead n s => CallEvents n s end.

Definition recorded (out : list entry) (calls : list (nat * nat * (env * call arg))) : Prop :=
  forall j n e k f a, In (j, n, (e, CallLog k f a)) calls -> In (Some (j, n)) (map en_call out).
Definition in_time (out : list entry) (calls : list (nat * nat * (env * call arg))) : Prop :=
  forall o1 d o2 c1 c2 j n e k f a, out = o1 ++ d :: o2 -> is_done programs d ->
    calls = c1 ++ (j, n, (e, CallLog k f a)) :: c2 -> unfinished c1 -> In (Some (j, n)) (map en_call o1).

Record inv (m : lmachine) : Prop := MkInv {
  i_core : lm_core m = run (map snd (lm_calls m)) c0;
  i_gors : forall i p, nth_error programs i = Some p -> exists g, nth_error (lm_gors m) i = Some g /\ g_at (lm_core m) (lm_out m) (lm_calls m) i p g;
  i_none : forall i, nth_error programs i = None -> nth_error (lm_gors m) i = None;
  i_says : forall i n t, In (MkEntry (Some (i, n)) t) (lm_out m) -> says (lm_core m) i n t;
  i_calls : forall i n e c, In (i, n, (e, c)) (lm_calls m) -> exists lc, the_call programs i n lc /\ c = core_call lc;
  i_recorded : recorded (lm_out m) (lm_calls m);
  i_in_time : in_time (lm_out m) (lm_calls m);
}.

Lemma do_call_id tr x : ID (do_call tr x) = ID tr.
Proof. destruct (do_call_const Sprintf CallersFrames tr x) as (_ & A & _). exact A. Qed.
Lemma mid_step core g c part w t x : mid core g c part w t -> mid (do_call core x) g c part w t.
Proof.
  intros [k f a|Hf|Hf Hd|Hf Hd He]; [constructor|..]; destruct (do_call_errored_fin Sprintf CallersFrames core x Hf) as (A & B & _);
    pose proof (do_call_finished Sprintf CallersFrames core x Hf); constructor; congruence.
Qed.
Lemma says_step core i n t x : says core i n t -> says (do_call core x) i n t.
Proof.
  intros (c & w & H & E). exists c, w. split; [exact H|]. rewrite do_call_id. destruct c; auto.
  destruct E as [Hf E]. destruct (do_call_errored_fin Sprintf CallersFrames core x Hf) as (A & B & _).
  split; [apply do_call_finished; exact Hf|]. rewrite A, B. exact E.
Qed.
Lemma run_snoc' h x : run (h ++ [x]) c0 = do_call (run h c0) x.
Proof. unfold M_Trace.run. rewrite fold_left_app. reflexivity. Qed.

(** another goroutine takes a step *)
Lemma g_at_other core out calls i p g x j : g_at core out calls i p g -> j <> i ->
  g_at core (out ++ [x]) calls i p g \/ (exists n t, x = MkEntry (Some (i, n)) t).
Proof.
  intros H Hj. destruct x as [[[j' n']|] t'].
  - destruct (Nat.eq_dec j' i) as [->|Hne]; [right; eauto|left].
    destruct H as [n H1 H2 H3 H4|n c part w t H1 H2 H3 H4 H5].
    + eapply at_between; eauto. rewrite lines_by_snoc. apply Nat.eqb_neq in Hne. rewrite Hne, app_nil_r. exact H3.
    + eapply at_mid; eauto. rewrite lines_by_snoc. apply Nat.eqb_neq in Hne. rewrite Hne, app_nil_r. exact H4.
  - left. destruct H as [n H1 H2 H3 H4|n c part w t H1 H2 H3 H4 H5]; [eapply at_between|eapply at_mid]; eauto; rewrite lines_by_none; assumption.
Qed.
Lemma g_at_line core out calls i p g j n t : g_at core out calls i p g -> j <> i -> g_at core (out ++ [MkEntry (Some (j, n)) t]) calls i p g.
Proof.
  intros H Hj. destruct (g_at_other core out calls i p g (MkEntry (Some (j, n)) t) j H Hj) as [?|(n' & t' & E)]; [assumption|congruence].
Qed.
Lemma g_at_none core out calls i p g t : g_at core out calls i p g -> g_at core (out ++ [MkEntry None t]) calls i p g.
Proof. intros H. destruct (g_at_other core out calls i p g (MkEntry None t) (S i) H ltac:(lia)) as [?|(n' & t' & E)]; [assumption|discriminate]. Qed.
Lemma g_at_call core out calls i p g j n x : g_at core out calls i p g -> j <> i ->
  g_at (do_call core x) out (calls ++ [(j, n, x)]) i p g.
Proof.
  intros H Hj. apply Nat.eqb_neq in Hj. destruct H as [n' H1 H2 H3 H4|n' c part w t H1 H2 H3 H4 H5].
  - eapply at_between; eauto. rewrite calls_by_snoc, Hj, app_nil_r. exact H4.
  - eapply at_mid; eauto; [apply mid_step; exact H2|]. rewrite calls_by_snoc, Hj, app_nil_r. exact H5.
Qed.

(** The next step of a goroutine, in the light of its position. *)
Lemma next_step core out calls i p g n o todo : g_at core out calls i p g -> lg_todo g = (n, o) :: todo ->
  exists c, nth_error p n = Some c /\
  match c, o with
  | LLog k f a, LWrite f' a' => f' = (if is_error_kind k then "ERROR: " ++ f else f)%string /\ a' = a /\
      todo = (n, LCore (CallLog k f a)) :: program_steps (S n) (skipn (S n) p) /\ lines_by i out = logged_calls p n /\ calls_by i calls = seq 0 n
  | LLog k f a, LCore c' => c' = CallLog k f a /\ todo = program_steps (S n) (skipn (S n) p) /\
      lines_by i out = logged_calls p n ++ [n] /\ calls_by i calls = seq 0 n
  | LFinish, LCore c' => c' = CallFinish /\ todo = map (pair n) [LDuration; LErrored; LDone] ++ program_steps (S n) (skipn (S n) p) /\
      lines_by i out = logged_calls p n /\ calls_by i calls = seq 0 n
  | LFinish, LDuration => ct_finished core = true /\ todo = map (pair n) [LErrored; LDone] ++ program_steps (S n) (skipn (S n) p) /\
      lines_by i out = logged_calls p n /\ calls_by i calls = seq 0 n ++ [n]
  | LFinish, LErrored => ct_finished core = true /\ lg_duration g = ct_duration core /\ todo = map (pair n) [LDone] ++ program_steps (S n) (skipn (S n) p) /\
      lines_by i out = logged_calls p n /\ calls_by i calls = seq 0 n ++ [n]
  | LFinish, LDone => ct_finished core = true /\ lg_duration g = ct_duration core /\ lg_errored g = ct_errored core /\ todo = program_steps (S n) (skipn (S n) p) /\
      lines_by i out = logged_calls p n /\ calls_by i calls = seq 0 n ++ [n]
  | LSetMaxEvents z, LCore c' => c' = CallSetMaxEvents z /\ todo = program_steps (S n) (skipn (S n) p) /\ lines_by i out = logged_calls p n /\ calls_by i calls = seq 0 n
  | LRead z s, LCore c' => c' = CallEvents z s /\ todo = program_steps (S n) (skipn (S n) p) /\ lines_by i out = logged_calls p n /\ calls_by i calls = seq 0 n
  | _, _ => False
  end.
Proof.
  intros H E. destruct H as [n' H1 H2 H3 H4|n' c part w t H1 H2 H3 H4 H5].
  - rewrite H2 in E. destruct (nth_error p n') as [c|] eqn:Hc.
    + rewrite (skipn_nth p n' c Hc) in E. cbn [program_steps] in E.
      destruct c as [k f a| |z|z s]; cbn [lsteps map app] in E; injection E as En Eo Et; subst; (match type of Hc with _ = Some ?c => exists c end); (split; [exact Hc|]); repeat split; auto.
    + apply nth_error_None in Hc. rewrite skipn_all2 in E by exact Hc. discriminate.
  - rewrite H3 in E. destruct H2 as [k f a|Hf|Hf Hd|Hf Hd He]; cbn [map app] in E; injection E as En Eo Et; subst; (match type of H1 with _ = Some ?c => exists c end); (split; [exact H1|]);
      rewrite ?app_nil_r in H4; rewrite ?app_nil_r in H5; repeat split; auto.
Qed.

Lemma in_snoc_call out (x : entry) y : In y (map en_call out) -> In y (map en_call (out ++ [x])).
Proof. intros H. rewrite map_app. apply in_or_app. left. exact H. Qed.
Lemma snoc_split {A} (l o1 o2 : list A) x d : l ++ [x] = o1 ++ d :: o2 -> (l = o1 /\ x = d /\ o2 = []) \/ (exists o2', o2 = o2' ++ [x] /\ l = o1 ++ d :: o2').
Proof.
  intros E. destruct (exists_last (l := d :: o2) ltac:(discriminate)) as (l' & y & El). rewrite El, app_assoc in E.
  apply app_inj_tail in E as [E1 E2]. subst y. destruct l' as [|d' l'].
  - injection El as -> ->. left. rewrite app_nil_r in E1. auto.
  - injection El as -> ->. right. exists l'. split; [reflexivity|exact E1].
Qed.
Lemma unfinished_or calls : unfinished (world := world) (pc := pc) calls \/ exists c1 i n e c2, calls = c1 ++ (i, n, (e, @CallFinish arg)) :: c2 /\ unfinished c1.
Proof.
  induction calls as [|[[i n] [e c]] calls IH]; [left; intros x []|].
  destruct c as [k f a| |z|z s]; [| |..].
  2: { right. exists [], i, n, e, calls. split; [reflexivity|intros x []]. }
  all: destruct IH as [IH|(c1 & i' & n' & e' & c2 & -> & IH)];
    [left; intros x [<-|Hx]; [discriminate|apply IH; exact Hx]|
     right; eexists (_ :: c1), i', n', e', c2; split; [reflexivity|intros x [<-|Hx]; [discriminate|apply IH; exact Hx]]].
Qed.
Lemma finished_in calls : ct_finished c0 = false -> ct_finished (run (map snd calls) c0) = true -> ~ unfinished (world := world) (pc := pc) calls.
Proof.
  intros H0 H U. pose proof (finished_spec_gen Sprintf CallersFrames (map snd calls) c0 H0) as E. unfold Finished in E. rewrite H in E. symmetry in E.
  apply existsb_exists in E as (x & Hx & Ex). apply in_map_iff in Hx as (y & <- & Hy). specialize (U y Hy). destruct y as [y [e [k f a| |z|z s]]]; try discriminate Ex. apply U. reflexivity.
Qed.

(** the parts of the invariant about the order of lines and calls *)
Lemma recorded_line out calls x : recorded out calls -> recorded (out ++ [x]) calls.
Proof. intros H j n e k f a Hin. apply in_snoc_call. eapply H; exact Hin. Qed.
Lemma in_time_line out calls x : recorded out calls -> in_time out calls -> in_time (out ++ [x]) calls.
Proof.
  intros Hr Ht o1 d o2 c1 c2 j n e k f a E Hd Ec Hu. apply snoc_split in E as [(-> & -> & ->)|(o2' & -> & E)].
  - apply (Hr j n e k f a). rewrite Ec. apply in_or_app. right. left. reflexivity.
  - eapply Ht; eauto.
Qed.
Lemma in_time_call out calls i n e c : in_time out calls -> (unfinished calls -> c = CallFinish \/ forall d, In d out -> ~ is_done programs d) ->
  in_time out (calls ++ [(i, n, (e, c))]).
Proof.
  intros Ht Hc o1 d o2 c1 c2 j n' e' k f a E Hd Ec Hu. apply snoc_split in Ec as [(-> & Ex & ->)|(c2' & -> & Ec)].
  - injection Ex as -> -> -> ->. destruct (Hc Hu) as [Hc'|Hc']; [discriminate|]. exfalso. apply (Hc' d); [|exact Hd]. rewrite E. apply in_or_app. right. left. reflexivity.
  - eapply Ht; eauto.
Qed.

Lemma the_call_fun i n c c' : the_call programs i n c -> the_call programs i n c' -> c = c'.
Proof. intros (p & A & B) (p' & A' & B'). congruence. Qed.

Lemma inv_step m x : ct_finished c0 = false -> inv m -> inv (lstep m x).
Proof.
  intros H0 [Hcore Hg Hn Hs Hc Hr Ht]. destruct x as [i e|text]; cbn [M_LogConc.lstep].
  2: { constructor; cbn [lm_core lm_gors lm_out lm_calls]; auto.
       - intros i p Hp. destruct (Hg i p Hp) as (g & A & B). exists g. split; [exact A|]. apply g_at_none. exact B.
       - intros i n t Hin. apply in_app_or in Hin as [Hin|[E|[]]]; [apply Hs; exact Hin|discriminate].
       - apply recorded_line. exact Hr.
       - apply in_time_line; assumption. }
  destruct (nth_error (lm_gors m) i) as [[[|[n o] todo] d b]|] eqn:Hi; try (constructor; assumption).
  pose proof (nth_error_lt _ _ _ Hi) as Hlt.
  destruct (nth_error programs i) as [p|] eqn:Hp; [|rewrite (Hn i Hp) in Hi; discriminate].
  destruct (Hg i p Hp) as (g & Hg1 & Hat). rewrite Hi in Hg1. injection Hg1 as <-.
  destruct (next_step _ _ _ _ _ _ n o todo Hat eq_refl) as (c & Hnc & Hstep).
  assert (The : the_call programs i n c) by (exists p; auto).
  assert (Hnone : forall g' j, nth_error programs j = None -> nth_error (update i g' (lm_gors m)) j = None).
  { intros g' j Hj. rewrite nth_error_update by exact Hlt. destruct (Nat.eqb j i) eqn:E; [apply Nat.eqb_eq in E; congruence|apply Hn; exact Hj]. }
  assert (Hothers : forall g' core' out' calls', g_at core' out' calls' i p g' ->
            (forall j q h, j <> i -> g_at (lm_core m) (lm_out m) (lm_calls m) j q h -> g_at core' out' calls' j q h) ->
            forall j q, nth_error programs j = Some q -> exists h, nth_error (update i g' (lm_gors m)) j = Some h /\ g_at core' out' calls' j q h).
  { intros g' core' out' calls' Hi' Ho j q Hq. rewrite nth_error_update by exact Hlt. destruct (Nat.eqb j i) eqn:E.
    - apply Nat.eqb_eq in E. subst j. exists g'. split; [reflexivity|]. congruence.
    - apply Nat.eqb_neq in E. destruct (Hg j q Hq) as (h & A & B). exists h. split; [exact A|]. apply Ho; assumption. }
  assert (Hcall : forall c', c' = core_call c -> (forall k f a, c = LLog k f a -> lines_by i (lm_out m) = logged_calls p n ++ [n]) ->
            g_at (do_call (lm_core m) (e, c')) (lm_out m) (lm_calls m ++ [(i, n, (e, c'))]) i p (MkLG todo d b) ->
            inv (MkLM (do_call (lm_core m) (e, c')) (update i (MkLG todo d b) (lm_gors m)) (lm_out m) (lm_calls m ++ [(i, n, (e, c'))]))).
  { intros c' Ec Hl Hi'. constructor; cbn [lm_core lm_gors lm_out lm_calls].
    - rewrite map_app, Hcore. cbn [map snd]. rewrite run_snoc'. reflexivity.
    - apply Hothers; [exact Hi'|]. intros j q h Hj Hh. apply g_at_call; [exact Hh|congruence].
    - apply Hnone.
    - intros j n' t Hin. apply says_step. apply Hs. exact Hin.
    - intros j n' e' c'' Hin. apply in_app_or in Hin as [Hin|[E|[]]]; [eapply Hc; exact Hin|]. injection E as <- <- <- <-. exists c. auto.
    - intros j n' e' k f a Hin. apply in_app_or in Hin as [Hin|[E|[]]]; [eapply Hr; exact Hin|]. injection E as <- <- <- Ek.
      assert (El : c = LLog k f a) by (destruct c; cbn in Ec; congruence). pose proof (Hl _ _ _ El) as Hlines.
      assert (Hin : In n (lines_by i (lm_out m))) by (rewrite Hlines; apply in_or_app; right; left; reflexivity).
      unfold lines_by in Hin. apply in_flat_map in Hin as (x & Hx & Hx'). apply in_map_iff. exists x. split; [|exact Hx].
      destruct (en_call x) as [[j' n']|]; [|destruct Hx']. destruct (Nat.eqb_spec j' i) as [->|]; [|destruct Hx']. destruct Hx' as [->|[]]. reflexivity.
    - apply in_time_call; [exact Ht|]. intros U. right. intros x Hx (j & n' & Ex & Hd).
      destruct x as [ec t]. cbn in Ex. subst ec. destruct (Hs j n' t Hx) as (c'' & w & Hc'' & Hm).
      rewrite (the_call_fun _ _ _ _ Hc'' Hd) in Hm. destruct Hm as [Hf _]. rewrite Hcore in Hf. exact (finished_in _ H0 Hf U). }
  assert (Hline : forall t, says (lm_core m) i n t ->
            g_at (lm_core m) (lm_out m ++ [MkEntry (Some (i, n)) t]) (lm_calls m) i p (MkLG todo d b) ->
            inv (MkLM (lm_core m) (update i (MkLG todo d b) (lm_gors m)) (lm_out m ++ [MkEntry (Some (i, n)) t]) (lm_calls m))).
  { intros t Hsay Hi'. constructor; cbn [lm_core lm_gors lm_out lm_calls]; auto.
    - apply Hothers; [exact Hi'|]. intros j q h Hj Hh. apply g_at_line; [exact Hh|congruence].
    - intros j n' t' Hin. apply in_app_or in Hin as [Hin|[E|[]]]; [apply Hs; exact Hin|]. injection E as <- <- <-. exact Hsay.
    - apply recorded_line. exact Hr.
    - apply in_time_line; assumption. }
  assert (Hread : forall d' b', g_at (lm_core m) (lm_out m) (lm_calls m) i p (MkLG todo d' b') ->
            inv (MkLM (lm_core m) (update i (MkLG todo d' b') (lm_gors m)) (lm_out m) (lm_calls m))).
  { intros d' b' Hi'. constructor; cbn [lm_core lm_gors lm_out lm_calls]; auto. }
  destruct c as [k f a| |z|z s], o as [f' a'|c'| | |]; try contradiction.
  - destruct Hstep as (-> & -> & Htodo & Hl & Hcl). apply Hline.
    + exists (LLog k f a), (e_world e). auto.
    + eapply (at_mid _ _ _ _ _ _ n); [exact Hnc|apply mid_log| | |]; [rewrite Htodo; reflexivity|rewrite lines_by_snoc, Nat.eqb_refl, Hl; reflexivity|rewrite app_nil_r; exact Hcl].
  - destruct Hstep as (-> & -> & Hl & Hcl). apply Hcall; [reflexivity|intros; exact Hl|].
    apply (at_between _ _ _ _ _ _ (S n)); [apply nth_error_lt in Hnc; lia|reflexivity| |].
    + rewrite (logged_calls_S _ _ _ Hnc). exact Hl.
    + rewrite calls_by_snoc, Nat.eqb_refl, Hcl, seq_S. reflexivity.
  - destruct Hstep as (-> & Htodo & Hl & Hcl). apply Hcall; [reflexivity|discriminate|].
    eapply (at_mid _ _ _ _ _ _ n); [exact Hnc|apply mid_duration| | |].
    + unfold M_Trace.do_call, Finish. cbn [snd]. destruct (ct_finished (lm_core m)) eqn:Ef; [exact Ef|reflexivity].
    + exact Htodo.
    + rewrite app_nil_r. exact Hl.
    + rewrite calls_by_snoc, Nat.eqb_refl, Hcl. reflexivity.
  - destruct Hstep as (Hf & Htodo & Hl & Hcl). apply Hread. eapply (at_mid _ _ _ _ _ _ n); [exact Hnc|apply mid_errored| | |]; auto.
    + cbn [lg_duration]. unfold Duration. rewrite Hf. reflexivity.
    + rewrite app_nil_r. exact Hl.
  - destruct Hstep as (Hf & Hd & Htodo & Hl & Hcl). apply Hread. eapply (at_mid _ _ _ _ _ _ n); [exact Hnc|apply mid_done| | |]; auto.
    rewrite app_nil_r. exact Hl.
  - destruct Hstep as (Hf & Hd & Hb & -> & Hl & Hcl). cbn [lg_duration lg_errored] in Hd, Hb. subst d b. apply Hline.
    + exists LFinish, (e_world e). auto.
    + apply (at_between _ _ _ _ _ _ (S n)); [apply nth_error_lt in Hnc; lia|reflexivity| |].
      * rewrite lines_by_snoc, Nat.eqb_refl, Hl, (logged_calls_S _ _ _ Hnc). reflexivity.
      * rewrite Hcl, seq_S. reflexivity.
  - destruct Hstep as (-> & -> & Hl & Hcl). apply Hcall; [reflexivity|discriminate|].
    apply (at_between _ _ _ _ _ _ (S n)); [apply nth_error_lt in Hnc; lia|reflexivity| |].
    + rewrite (logged_calls_S _ _ _ Hnc), app_nil_r. exact Hl.
    + rewrite calls_by_snoc, Nat.eqb_refl, Hcl, seq_S. reflexivity.
  - destruct Hstep as (-> & -> & Hl & Hcl). apply Hcall; [reflexivity|discriminate|].
    apply (at_between _ _ _ _ _ _ (S n)); [apply nth_error_lt in Hnc; lia|reflexivity| |].
    + rewrite (logged_calls_S _ _ _ Hnc), app_nil_r. exact Hl.
    + rewrite calls_by_snoc, Nat.eqb_refl, Hcl, seq_S. reflexivity.
Qed.

Lemma lines_by_others i ts : lines_by i (map (MkEntry None) ts) = [].
Proof. unfold lines_by. induction ts; [reflexivity|exact IHts]. Qed.
Lemma inv_start w before : inv (lstart w c0 before programs).
Proof.
  constructor; cbn [lm_core lm_gors lm_out lm_calls M_LogConc.lstart].
  - reflexivity.
  - intros i p Hp. eexists. split; [apply map_nth_error; exact Hp|]. apply (at_between _ _ _ _ _ _ 0); [lia|reflexivity|apply lines_by_others|reflexivity].
  - intros i Hi. apply nth_error_None in Hi. apply nth_error_None. rewrite map_length. exact Hi.
  - intros i n t Hin. apply in_map_iff in Hin as (x & E & _). discriminate.
  - intros i n e c [].
  - intros j n e k f a [].
  - intros o1 d o2 c1 c2 j n e k f a _ _ E. destruct c1; discriminate.
Qed.
Lemma inv_run w before xs : ct_finished c0 = false -> inv (lrun xs (lstart w c0 before programs)).
Proof.
  intros H0. unfold M_LogConc.lrun. generalize (inv_start w before). generalize (lstart w c0 before programs).
  induction xs as [|x xs IH]; intros m H; [exact H|]. apply IH. apply inv_step; assumption.
Qed.

(** what is written stays *)
Lemma out_grows xs m : exists o, lm_out (lrun xs m) = lm_out m ++ o.
Proof.
  revert m. induction xs as [|x xs IH]; intros m; [exists []; symmetry; apply app_nil_r|].
  destruct (IH (lstep m x)) as (o & E). unfold M_LogConc.lrun in *. cbn [fold_left]. rewrite E.
  assert (H : exists o', lm_out (lstep m x) = lm_out m ++ o').
  { destruct x as [i e|t]; cbn [M_LogConc.lstep]; [|eexists; reflexivity].
    destruct (nth_error (lm_gors m) i) as [[[|[n []] todo] d b]|]; cbn [lm_out]; try (exists []; symmetry; apply app_nil_r); eexists; reflexivity. }
  destruct H as (o' & ->). exists (o' ++ o). apply app_assoc_reverse.
Qed.
End LogConc.

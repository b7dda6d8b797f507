From Verif Require Import Go M_Strings M_Fmt M_SearchLog S_SearchLog.
Open Scope string_scope.
Open Scope list_scope.

Section Ind.
Variable P : searcher -> Prop.
Hypothesis HC : forall source c, P (Coll source c).
Hypothesis HK : forall uri c, P (Client uri c).
Hypothesis HO : forall calls o, P (Other calls o).
Hypothesis HM : forall subs, (forall s, In s subs -> P s) -> P (Multi subs).
Fixpoint searcher_ind' (s : searcher) : P s :=
  match s with
  | Coll source c => HC source c
  | Client uri c => HK uri c
  | Other calls o => HO calls o
  | Multi subs => HM subs ((fix go l : forall s, In s l -> P s :=
      match l with
      | [] => fun s H => match H with end
      | x :: l => fun s H => match H with or_introl E => eq_ind x P (searcher_ind' x) s E | or_intror H => go l s H end
      end) subs)
  end.
End Ind.

Lemma who_eqb_spec a b : reflect (a = b) (who_eqb a b).
Proof.
  destruct a as [|i|i], b as [|j|j]; cbn [who_eqb]; try (constructor; congruence).
  - destruct (Nat.eqb_spec i j); constructor; congruence.
  - destruct (Nat.eqb_spec i j); constructor; congruence.
Qed.

Lemma said_by_app w a b : said_by w (a ++ b) = said_by w a ++ said_by w b.
Proof. unfold said_by. now rewrite filter_app, map_app. Qed.
Lemma said_by_say w w' cs log : said_by w (say w' cs log) = said_by w log ++ (if who_eqb w' w then cs else []).
Proof.
  unfold say. rewrite said_by_app. f_equal. unfold said_by. induction cs as [|c cs IH]; cbn [map filter fst].
  - now destruct (who_eqb w' w).
  - destruct (who_eqb w' w); cbn [map snd]; [now rewrite IH|exact IH].
Qed.

Lemma upd_length {A} (l : list A) i x : length (upd l i x) = length l.
Proof.
  unfold upd. rewrite <- (firstn_skipn i l) at 3. rewrite !app_length. f_equal. destruct (skipn i l); reflexivity.
Qed.
Lemma upd_nth {A} (l : list A) i x j : (i < length l)%nat -> nth_error (upd l i x) j = if (j =? i)%nat then Some x else nth_error l j.
Proof.
  revert i j; induction l as [|a l IH]; intros i j H; [cbn in H; lia|].
  destruct i as [|i].
  - unfold upd. cbn [firstn skipn app]. destruct j; reflexivity.
  - unfold upd. cbn [firstn skipn app]. destruct j as [|j]; [reflexivity|]. cbn [nth_error]. cbn in H.
    change (firstn i l ++ match skipn i l with [] => [] | _ :: r => x :: r end) with (upd l i x).
    rewrite IH by lia. reflexivity.
Qed.

Section Machine.
Variable limit : Z.
Variable outs : list outcome.
Variable logs : list (list call).
Let n := length logs.

Definition out (i : nat) : outcome := nth i outs (None, None).
Definition active (s : ms) (i : nat) : Prop := exists cs, nth_error (ms_rest s) i = Some (Some cs).
Definition sum_of (l : list nat) : counts :=
  fold_right (fun i agg => add_counts agg (out i)) (0, 0, 0)%Z l.

Record inv (s : ms) : Prop := {
  v_len : length (ms_rest s) = n;
  v_nodup : NoDup (ms_recv s ++ ms_queue s);
  v_sent : forall i, In i (ms_recv s ++ ms_queue s) <-> nth_error (ms_rest s) i = Some None;
  v_sub : forall i, (i < n)%nat -> said_by (Sub i) (ms_log s) ++ map (prefix_call (id_of i)) (match nth i (ms_rest s) None with Some cs => cs | None => [] end)
                                  = map (prefix_call (id_of i)) (nth i logs []);
  v_remark : forall i, said_by (Remark i) (ms_log s) = if existsb (Nat.eqb i) (ms_recv s) then remark_calls (id_of i) (out i) else [];
  v_agg : ms_agg s = match ms_phase s with Returned => cut limit (sum_of (ms_recv s)) | _ => sum_of (ms_recv s) end;
  v_own : said_by Own (ms_log s) = match ms_phase s with
            | Scattering => [] | Gathering => [scattered_call n]
            | Returned => [scattered_call n; gathered_call; total_call (ms_agg s)] end;
  v_done : ms_phase s = Returned -> length (ms_recv s) = n /\
           exists l, ms_log s = l ++ [(Own, gathered_call); (Own, total_call (ms_agg s))];
  v_none : ms_phase s = Scattering -> ms_recv s = [];
  v_before : forall a i c b, ms_log s = a ++ (Remark i, c) :: b -> said_by (Sub i) b = [];
  v_who : forall w c, In (w, c) (ms_log s) -> match w with Own => True | Sub i | Remark i => (i < n)%nat end
}.

Lemma inv_start : inv (start logs).
Proof.
  constructor; cbn [start ms_rest ms_queue ms_recv ms_agg ms_phase ms_log].
  - apply map_length.
  - constructor.
  - intros i. cbn [app In]. split; [tauto|]. rewrite nth_error_map. destruct (nth_error logs i); discriminate.
  - intros i Hi. change (said_by (Sub i) []) with (@nil call). cbn [app]. f_equal.
    rewrite (nth_indep _ None (Some [])) by (rewrite map_length; exact Hi). now rewrite (map_nth Some).
  - intros i. reflexivity.
  - reflexivity.
  - reflexivity.
  - discriminate.
  - reflexivity.
  - intros [|]; discriminate.
  - intros w c [].
Qed.

Lemma snoc_split {A} (log : list A) x a y b : log ++ [x] = a ++ y :: b ->
  (b = [] /\ x = y /\ log = a) \/ exists b', b = b' ++ [x] /\ log = a ++ y :: b'.
Proof.
  destruct b as [|z b] using rev_ind; intros H.
  - apply app_inj_tail in H as [-> ->]. left. auto.
  - right. exists b. rewrite app_comm_cons, app_assoc in H. apply app_inj_tail in H as [-> ->]. auto.
Qed.
(** saying something that no one else's remark has to come before *)
Lemma before_say w cs log :
  (forall a i c b, log = a ++ (Remark i, c) :: b -> said_by (Sub i) b = []) ->
  (forall i, w = Sub i -> said_by (Remark i) log = []) ->
  forall a i c b, say w cs log = a ++ (Remark i, c) :: b -> said_by (Sub i) b = [].
Proof.
  intros H Hw. induction cs as [|c0 cs IH] using rev_ind; intros a i c b.
  - unfold say. cbn [map]. rewrite app_nil_r. apply H.
  - unfold say. rewrite map_app, app_assoc. cbn [map]. intros E. apply snoc_split in E as [(-> & _ & _)|(b' & -> & E)]; [reflexivity|].
    rewrite said_by_app, (IH _ _ _ _ E). cbn [app]. unfold said_by. cbn [filter fst].
    destruct (who_eqb_spec w (Sub i)) as [->|]; [|reflexivity]. exfalso.
    specialize (Hw i eq_refl).
    assert (Hin : In (Remark i, c) log).
    { unfold say in E. assert (In (Remark i, c) (log ++ map (fun c1 => (Sub i, c1)) cs)) by (rewrite E; apply in_elt).
      apply in_app_iff in H0 as [|H0]; [assumption|]. apply in_map_iff in H0 as (x & Hx & _). discriminate. }
    unfold said_by in Hw. apply map_eq_nil in Hw.
    assert (In (Remark i, c) (filter (fun e : who * call => who_eqb (fst e) (Remark i)) log)).
    { apply filter_In. split; [assumption|]. cbn. apply Nat.eqb_refl. }
    rewrite Hw in H0. destruct H0.
Qed.

Lemma In_existsb i l : existsb (Nat.eqb i) l = true <-> In i l.
Proof.
  rewrite existsb_exists. split.
  - intros (x & Hx & E). apply Nat.eqb_eq in E as ->. assumption.
  - intros H. exists i. split; [assumption|apply Nat.eqb_refl].
Qed.

Lemma nth_some (s : ms) i x : nth_error (ms_rest s) i = Some x -> nth i (ms_rest s) None = x.
Proof. apply nth_error_nth. Qed.

Lemma inv_step s choice : inv s -> inv (step limit outs s choice).
Proof.
  intros I. destruct choice as [i|]; cbn [step].
  - unfold go_step. destruct (nth_error (ms_rest s) i) as [[[|c cs]|]|] eqn:E; [| |exact I|exact I].
    + (* the tuple *)
      assert (Hi : (i < n)%nat) by (rewrite <- (v_len _ I); apply nth_error_Some; congruence).
      assert (Hni : ~ In i (ms_recv s ++ ms_queue s)) by (intros Hin; apply (v_sent _ I) in Hin; congruence).
      constructor; cbn [ms_rest ms_queue ms_recv ms_agg ms_phase ms_log].
      * rewrite upd_length. apply I.
      * rewrite app_assoc. apply NoDup_Add with (a := i) (l := ms_recv s ++ ms_queue s).
        -- rewrite <- (app_nil_r (ms_recv s ++ ms_queue s)) at 1. apply Add_app.
        -- split; [apply I|assumption].
      * intros j. rewrite upd_nth by (rewrite (v_len _ I); exact Hi). rewrite app_assoc, in_app_iff, (v_sent _ I). cbn [In].
        destruct (Nat.eqb_spec j i) as [->|Hne]; [tauto|]. split; [intros [H|[H|[]]]; [exact H|congruence]|auto].
      * intros j Hj. rewrite <- (v_sub _ I j Hj). do 2 f_equal.
        destruct (Nat.eq_dec j i) as [->|Hne].
        -- erewrite nth_error_nth; [|rewrite upd_nth by (rewrite (v_len _ I); exact Hi); rewrite Nat.eqb_refl; reflexivity].
           rewrite (nth_some s i _ E). reflexivity.
        -- destruct (nth_error (ms_rest s) j) as [x|] eqn:Ej.
           ++ erewrite nth_error_nth; [|rewrite upd_nth by (rewrite (v_len _ I); exact Hi); destruct (Nat.eqb_spec j i); [congruence|exact Ej]].
              rewrite (nth_some s j _ Ej). reflexivity.
           ++ apply nth_error_None in Ej. rewrite (v_len _ I) in Ej. lia.
      * apply I.
      * apply I.
      * apply I.
      * apply I.
      * apply I.
      * apply I.
      * apply I.
    + (* a call *)
      assert (Hi : (i < n)%nat) by (rewrite <- (v_len _ I); apply nth_error_Some; congruence).
      assert (Hni : ~ In i (ms_recv s ++ ms_queue s)) by (intros Hin; apply (v_sent _ I) in Hin; congruence).
      constructor; cbn [ms_rest ms_queue ms_recv ms_agg ms_phase ms_log].
      * rewrite upd_length. apply I.
      * apply I.
      * intros j. rewrite upd_nth by (rewrite (v_len _ I); exact Hi). rewrite (v_sent _ I).
        destruct (Nat.eqb_spec j i) as [->|Hne]; [rewrite E; split; discriminate|reflexivity].
      * intros j Hj. rewrite said_by_say. rewrite <- (v_sub _ I j Hj). cbn [who_eqb].
        destruct (Nat.eqb_spec i j) as [<-|Hne].
        -- erewrite nth_error_nth; [|rewrite upd_nth by (rewrite (v_len _ I); exact Hi); rewrite Nat.eqb_refl; reflexivity].
           rewrite (nth_some s i _ E). rewrite <- app_assoc. reflexivity.
        -- rewrite app_nil_r. do 2 f_equal. destruct (nth_error (ms_rest s) j) as [x|] eqn:Ej.
           ++ erewrite nth_error_nth; [|rewrite upd_nth by (rewrite (v_len _ I); exact Hi); destruct (Nat.eqb_spec j i); [congruence|exact Ej]].
              rewrite (nth_some s j _ Ej). reflexivity.
           ++ apply nth_error_None in Ej. rewrite (v_len _ I) in Ej. lia.
      * intros j. rewrite said_by_say. cbn [who_eqb]. rewrite app_nil_r. apply I.
      * apply I.
      * rewrite said_by_say. cbn [who_eqb]. rewrite app_nil_r. apply I.
      * intros Hr. exfalso. destruct (v_done _ I Hr) as [Hl _].
        (* all have been received *)
        assert (Hincl : incl (seq 0 n) (ms_recv s)).
        { apply NoDup_length_incl.
          - pose proof (v_nodup _ I) as Hnd. clear - Hnd. induction (ms_recv s) as [|x l IH]; [constructor|].
            cbn [app] in Hnd. apply NoDup_cons_iff in Hnd as [H1 H2]. constructor; [|auto]. intros Hx. apply H1, in_app_iff. left. exact Hx.
          - rewrite seq_length. lia.
          - intros j Hj. apply in_seq. assert (nth_error (ms_rest s) j = Some None) by (apply (v_sent _ I), in_app_iff; left; exact Hj).
            assert (j < length (ms_rest s))%nat by (apply nth_error_Some; congruence). rewrite (v_len _ I) in *. lia. }
        apply Hni, in_app_iff. left. apply Hincl, in_seq. lia.
      * apply I.
      * apply before_say; [apply I|]. intros j [= <-]. rewrite (v_remark _ I).
        destruct (existsb (Nat.eqb i) (ms_recv s)) eqn:Ex; [|reflexivity]. apply In_existsb in Ex. exfalso. apply Hni, in_app_iff. auto.
      * intros w c0 Hin. unfold say in Hin. apply in_app_iff in Hin as [Hin|Hin]; [apply (v_who _ I _ _ Hin)|].
        cbn [map In] in Hin. destruct Hin as [Hin|[]]. injection Hin as <- _. exact Hi.
  - unfold main_step. cbn zeta. rewrite (v_len _ I). destruct (ms_phase s) eqn:Ep; [| |exact I].
    + constructor; cbn [ms_rest ms_queue ms_recv ms_agg ms_phase ms_log]; try (apply I; fail).
      * intros j Hj. rewrite said_by_say. cbn [who_eqb]. rewrite app_nil_r. apply I, Hj.
      * intros j. rewrite said_by_say. cbn [who_eqb]. rewrite app_nil_r. apply I.
      * rewrite (v_agg _ I), Ep. reflexivity.
      * rewrite said_by_say, (v_own _ I), Ep. reflexivity.
      * discriminate.
      * discriminate.
      * apply before_say; [apply I|discriminate].
      * intros w c0 Hin. unfold say in Hin. apply in_app_iff in Hin as [Hin|Hin]; [apply (v_who _ I _ _ Hin)|].
        cbn [map In] in Hin. destruct Hin as [Hin|[]]. injection Hin as <- _. exact Logic.I.
    + destruct (Nat.ltb_spec (length (ms_recv s)) n) as [Hlt|Hge].
      * destruct (ms_queue s) as [|i q] eqn:Eq; [exact I|].
        pose proof (v_nodup _ I) as Hnd. pose proof (v_sent _ I) as Hs. rewrite Eq in Hnd, Hs.
        assert (Hnr : ~ In i (ms_recv s)) by (apply NoDup_remove_2 in Hnd; intros Hx; apply Hnd, in_app_iff; auto).
        assert (Hi : (i < n)%nat).
        { rewrite <- (v_len _ I). apply nth_error_Some. rewrite (proj1 (Hs i)); [discriminate|]. apply in_elt. }
        constructor; cbn [ms_rest ms_queue ms_recv ms_agg ms_phase ms_log].
        -- apply I.
        -- cbn [app]. apply NoDup_remove in Hnd as [H1 H2]. constructor; assumption.
        -- intros j. rewrite <- Hs. cbn [app In]. rewrite !in_app_iff. cbn [In]. tauto.
        -- intros j Hj. rewrite said_by_say. cbn [who_eqb]. rewrite app_nil_r. apply I, Hj.
        -- intros j. rewrite said_by_say, (v_remark _ I). cbn [who_eqb existsb]. rewrite (Nat.eqb_sym j i).
           destruct (Nat.eqb_spec i j) as [<-|]; cbn [orb].
           ++ destruct (existsb (Nat.eqb i) (ms_recv s)) eqn:Ex; [apply In_existsb in Ex; contradiction|]. reflexivity.
           ++ apply app_nil_r.
        -- rewrite (v_agg _ I), Ep. reflexivity.
        -- rewrite said_by_say, (v_own _ I), Ep. cbn [who_eqb]. apply app_nil_r.
        -- discriminate.
        -- discriminate.
        -- apply before_say; [apply I|discriminate].
        -- intros w c0 Hin. unfold say in Hin. apply in_app_iff in Hin as [Hin|Hin]; [apply (v_who _ I _ _ Hin)|].
           apply in_map_iff in Hin as (x & Hx & _). injection Hx as <- _. exact Hi.
      * constructor; cbn [ms_rest ms_queue ms_recv ms_agg ms_phase ms_log]; try (apply I; fail).
        -- intros j Hj. rewrite said_by_say. cbn [who_eqb]. rewrite app_nil_r. apply I, Hj.
        -- intros j. rewrite said_by_say. cbn [who_eqb]. rewrite app_nil_r. apply I.
        -- rewrite (v_agg _ I), Ep. reflexivity.
        -- rewrite said_by_say, (v_own _ I), Ep. reflexivity.
        -- intros _. split.
           ++ assert (length (ms_recv s) <= n)%nat; [|lia]. rewrite <- (v_len _ I), <- (seq_length (length (ms_rest s)) 0).
              apply NoDup_incl_length.
              ** pose proof (v_nodup _ I) as Hnd. clear - Hnd. induction (ms_recv s) as [|x l IH]; [constructor|].
                 cbn [app] in Hnd. apply NoDup_cons_iff in Hnd as [H1 H2]. constructor; [|auto]. intros Hx. apply H1, in_app_iff. left. exact Hx.
              ** intros j Hj. apply in_seq. assert (nth_error (ms_rest s) j = Some None) by (apply (v_sent _ I), in_app_iff; left; exact Hj).
                 assert (j < length (ms_rest s))%nat by (apply nth_error_Some; congruence). lia.
           ++ exists (ms_log s). reflexivity.
        -- discriminate.
        -- apply before_say; [apply I|discriminate].
        -- intros w c0 Hin. unfold say in Hin. apply in_app_iff in Hin as [Hin|Hin]; [apply (v_who _ I _ _ Hin)|].
           cbn [map In] in Hin. destruct Hin as [Hin|[Hin|[]]]; injection Hin as <- _; exact Logic.I.
Qed.

Lemma inv_run schedule : inv (run limit outs schedule logs).
Proof.
  unfold run. rewrite <- fold_left_rev_right. induction (rev schedule) as [|c l IH]; cbn [fold_right]; [exact inv_start|].
  apply inv_step, IH.
Qed.

Lemma recv_all s : inv s -> ms_phase s = Returned -> Permutation (ms_recv s) (seq 0 n) /\ forall i, (i < n)%nat -> nth i (ms_rest s) None = None.
Proof.
  intros I Hr. destruct (v_done _ I Hr) as [Hl _].
  assert (Hnd : NoDup (ms_recv s)).
  { pose proof (v_nodup _ I) as Hnd. clear - Hnd. induction (ms_recv s) as [|x l IH]; [constructor|].
    cbn [app] in Hnd. apply NoDup_cons_iff in Hnd as [H1 H2]. constructor; [|auto]. intros Hx. apply H1, in_app_iff. left. exact Hx. }
  assert (Hincl : incl (ms_recv s) (seq 0 n)).
  { intros j Hj. apply in_seq. assert (nth_error (ms_rest s) j = Some None) by (apply (v_sent _ I), in_app_iff; left; exact Hj).
    assert (j < length (ms_rest s))%nat by (apply nth_error_Some; congruence). rewrite (v_len _ I) in *. lia. }
  assert (HP : Permutation (ms_recv s) (seq 0 n)).
  { apply NoDup_Permutation_bis; [assumption|rewrite seq_length; lia|assumption]. }
  split; [exact HP|]. intros i Hi. apply nth_some. apply (v_sent _ I), in_app_iff. left.
  apply (Permutation_in _ (Permutation_sym HP)), in_seq. lia.
Qed.
End Machine.

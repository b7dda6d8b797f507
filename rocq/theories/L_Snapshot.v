(** Lemmas on snapshots taken while other goroutines use the trace. *)
From Verif Require Import Go L_List M_Strings M_Types S_Trace M_Trace S_TraceView L_Trace M_Text S_Snapshot M_Snapshot L_Decor.
From Coq Require Import Lia.
Open Scope string_scope.
Open Scope list_scope.
Open Scope Z_scope.

Section Snapshot.
Context {arg world pc : Type}.
Variable Sprintf : world -> string -> list arg -> string.
Variable CallersFrames : list pc -> list rframe.
Notation env := (env arg world pc).
Notation coreTrace := (coreTrace arg pc).
Notation history := (history arg env).
Notation run := (run Sprintf CallersFrames).
Notation mstep := (mstep Sprintf CallersFrames).
Notation mrun := (mrun Sprintf CallersFrames).
Notation machine := (machine arg world pc).
Notation streamed_from := (streamed_from Sprintf CallersFrames).
Notation searched_from := (searched_from Sprintf CallersFrames).
Variable c0 : coreTrace.

(** A goroutine in the middle of something has read what it should have; the flag says
    whether it is publishing. *)
Inductive midway (h : history) : bool -> list (micro arg) -> seen -> Prop :=
| mw_start g s : midway h false (steps_of g) s
| mw_lock s : midway h true publish_steps s
| mw_finished1 s : midway h true [MFinished1; MEvents; MDuration; MFinished; MErrored; MSend] s
| mw_events s h1 rest : h = h1 ++ rest -> se_active s = negb (Finished (run h1 c0)) ->
    midway h true [MEvents; MDuration; MFinished; MErrored; MSend] s
| mw_duration s h1 h2 rest e :
    let n := if Finished (run h1 c0) then -1 else 1 in
    h = h1 ++ h2 ++ [(e, CallEvents n false)] ++ rest ->
    se_events s = snd (EventsDetail Sprintf CallersFrames e n false (run (h1 ++ h2) c0)) ->
    midway h true [MDuration; MFinished; MErrored; MSend] s
| mw_finished s h1 h2 h3 rest e ed :
    let n := if Finished (run h1 c0) then -1 else 1 in
    let read := (e, CallEvents n false) in
    h = h1 ++ h2 ++ [read] ++ h3 ++ rest ->
    se_events s = snd (EventsDetail Sprintf CallersFrames e n false (run (h1 ++ h2) c0)) ->
    se_duration s = Duration ed (run (h1 ++ h2 ++ [read] ++ h3) c0) ->
    midway h true [MFinished; MErrored; MSend] s
| mw_errored s h1 h2 h3 h4 rest e ed :
    let n := if Finished (run h1 c0) then -1 else 1 in
    let read := (e, CallEvents n false) in
    h = h1 ++ h2 ++ [read] ++ h3 ++ h4 ++ rest ->
    se_events s = snd (EventsDetail Sprintf CallersFrames e n false (run (h1 ++ h2) c0)) ->
    se_duration s = Duration ed (run (h1 ++ h2 ++ [read] ++ h3) c0) ->
    se_finished s = Finished (run (h1 ++ h2 ++ [read] ++ h3 ++ h4) c0) ->
    midway h true [MErrored; MSend] s
| mw_send s h1 h2 h3 h4 h5 rest e ed :
    let n := if Finished (run h1 c0) then -1 else 1 in
    let read := (e, CallEvents n false) in
    h = h1 ++ h2 ++ [read] ++ h3 ++ h4 ++ h5 ++ rest ->
    se_events s = snd (EventsDetail Sprintf CallersFrames e n false (run (h1 ++ h2) c0)) ->
    se_duration s = Duration ed (run (h1 ++ h2 ++ [read] ++ h3) c0) ->
    se_finished s = Finished (run (h1 ++ h2 ++ [read] ++ h3 ++ h4) c0) ->
    se_errored s = Errored (run (h1 ++ h2 ++ [read] ++ h3 ++ h4 ++ h5) c0) ->
    midway h true [MSend] s
| mw_sfinished s h1 rest ed : h = h1 ++ rest -> se_duration s = Duration ed (run h1 c0) ->
    midway h false [MFinished; MErrored; MAllEvents; MReturn] s
| mw_serrored s h1 h2 rest ed : h = h1 ++ h2 ++ rest -> se_duration s = Duration ed (run h1 c0) ->
    se_finished s = Finished (run (h1 ++ h2) c0) ->
    midway h false [MErrored; MAllEvents; MReturn] s
| mw_sevents s h1 h2 h3 rest ed : h = h1 ++ h2 ++ h3 ++ rest -> se_duration s = Duration ed (run h1 c0) ->
    se_finished s = Finished (run (h1 ++ h2) c0) -> se_errored s = Errored (run (h1 ++ h2 ++ h3) c0) ->
    midway h false [MAllEvents; MReturn] s
| mw_return s h1 h2 h3 h4 rest ed e :
    h = h1 ++ h2 ++ h3 ++ h4 ++ [(e, CallEvents (-1) true)] ++ rest -> se_duration s = Duration ed (run h1 c0) ->
    se_finished s = Finished (run (h1 ++ h2) c0) -> se_errored s = Errored (run (h1 ++ h2 ++ h3) c0) ->
    se_events s = snd (Events Sprintf CallersFrames e (run (h1 ++ h2 ++ h3 ++ h4) c0)) ->
    midway h false [MReturn] s.

Definition g_at (h : history) (b : bool) (g : goroutine arg) : Prop :=
  exists part rest, g_todo g = part ++ flat_map steps_of rest /\ part <> [] /\ midway h b part (g_seen g).
Definition g_ok (h : history) (g : goroutine arg) : Prop := g_todo g = [] \/ exists b, g_at h b g.

Ltac assocs := rewrite <- ?app_assoc; cbn [app]; rewrite <- ?app_assoc; reflexivity.
Lemma midway_more h x b part s : midway h b part s -> midway (h ++ x) b part s.
Proof.
  intros H. destruct H; subst.
  - apply mw_start.
  - apply mw_lock.
  - apply mw_finished1.
  - eapply mw_events with (h1 := h1) (rest := rest ++ x); [assocs|assumption].
  - eapply mw_duration with (e := e) (h1 := h1) (h2 := h2) (rest := rest ++ x); [assocs|eassumption].
  - eapply mw_finished with (e := e) (ed := ed) (h1 := h1) (h2 := h2) (h3 := h3) (rest := rest ++ x); [assocs|eassumption|eassumption].
  - eapply mw_errored with (e := e) (ed := ed) (h1 := h1) (h2 := h2) (h3 := h3) (h4 := h4) (rest := rest ++ x); [assocs|eassumption|eassumption|eassumption].
  - eapply mw_send with (e := e) (ed := ed) (h1 := h1) (h2 := h2) (h3 := h3) (h4 := h4) (h5 := h5) (rest := rest ++ x); [assocs|eassumption|eassumption|eassumption|eassumption].
  - eapply mw_sfinished with (ed := ed) (h1 := h1) (rest := rest ++ x); [assocs|eassumption].
  - eapply mw_serrored with (ed := ed) (h1 := h1) (h2 := h2) (rest := rest ++ x); [assocs|eassumption|eassumption].
  - eapply mw_sevents with (ed := ed) (h1 := h1) (h2 := h2) (h3 := h3) (rest := rest ++ x); [assocs|eassumption|eassumption|eassumption].
  - eapply mw_return with (ed := ed) (e := e) (h1 := h1) (h2 := h2) (h3 := h3) (h4 := h4) (rest := rest ++ x); [assocs|eassumption|eassumption|eassumption|eassumption].
Qed.
Lemma streamed_more h x st : streamed_from c0 h st -> streamed_from c0 (h ++ x) st.
Proof. intros (h1 & h2 & h3 & h4 & h5 & rest & e & ed & E & H). exists h1, h2, h3, h4, h5, (rest ++ x), e, ed. split; [rewrite E; assocs|exact H]. Qed.
Lemma searched_more h x st : searched_from c0 h st -> searched_from c0 (h ++ x) st.
Proof. intros (h1 & h2 & h3 & h4 & rest & ed & e & E & H). exists h1, h2, h3, h4, (rest ++ x), ed, e. split; [rewrite E; assocs|exact H]. Qed.
Lemma g_at_more h x b g : g_at h b g -> g_at (h ++ x) b g.
Proof. intros (part & rest & E & Hn & H). exists part, rest. split; [exact E|]. split; [exact Hn|]. apply midway_more. exact H. Qed.
Lemma g_more h x g : g_ok h g -> g_ok (h ++ x) g.
Proof. intros [H|(b & H)]; [left; exact H|right]. exists b. apply g_at_more. exact H. Qed.

(** Going on with what is left. *)
Lemma g_next h part rest s : (part = [] \/ exists b, midway h b part s) -> g_ok h (MkG (part ++ flat_map steps_of rest) s).
Proof.
  intros H. destruct part as [|o part].
  - cbn [app]. clear H. destruct rest as [|g rest]; [left; reflexivity|right]. exists false, (steps_of g), rest. split; [reflexivity|].
    split; [destruct g; discriminate|constructor].
  - destruct H as [H|(b & H)]; [discriminate|]. right. exists b, (o :: part), rest. split; [reflexivity|]. split; [discriminate|exact H].
Qed.
Lemma consts h : Source (run h c0) = Source c0 /\ ID (run h c0) = ID c0 /\ Category (run h c0) = Category c0 /\ Started (run h c0) = Started c0.
Proof. destruct (run_const Sprintf CallersFrames h c0) as (D & E & F & G & _). unfold Source, ID, Category, Started. auto. Qed.

(** One step of a goroutine, from what it has read since the trace was [c0]. *)
Lemma local_step m i e hb h g b :
  m_calls m = hb ++ h -> m_core m = run h c0 -> nth_error (m_goroutines m) i = Some g -> g_at h b g ->
  let m' := mstep m (i, e) in
  exists x g' ss rr,
    m_calls m' = hb ++ h ++ x /\ m_core m' = run (h ++ x) c0 /\ m_goroutines m' = update i g' (m_goroutines m) /\
    m_streamed m' = m_streamed m ++ ss /\ m_searched m' = m_searched m ++ rr /\
    g_ok (h ++ x) g' /\ Forall (streamed_from c0 (h ++ x)) ss /\ Forall (searched_from c0 (h ++ x)) rr /\
    (b = true -> g_at (h ++ x) true g' \/ ss <> []).
Proof.
  intros Hh Hc Ei (part & rest & Et & Hn & Hm). unfold M_Snapshot.mstep. rewrite Ei. destruct g as [todo s]. cbn [g_todo g_seen] in *.
  destruct part as [|o part]; [contradiction|]. subst todo. cbn [app].
  assert (Same : update i (MkG (o :: part ++ flat_map steps_of rest) s) (m_goroutines m) = m_goroutines m).
  { revert Ei. generalize (m_goroutines m). clear. induction i as [|i IH]; intros [|g l] E; cbn in *; try discriminate; [injection E as ->; reflexivity|]. rewrite IH by assumption. reflexivity. }
  (* what is left to show for a step that makes no call, and for one that makes a call *)
  assert (Quiet : forall lock s' ss rr b', (part = [] \/ midway h b' part s') ->
            Forall (streamed_from c0 h) ss -> Forall (searched_from c0 h) rr -> (b = true -> b' = true /\ part <> [] \/ ss <> []) ->
            let m' := MkM (m_core m) lock (update i (MkG (part ++ flat_map steps_of rest) s') (m_goroutines m)) (m_streamed m ++ ss) (m_searched m ++ rr) (m_calls m) in
            exists x g' ss rr,
              m_calls m' = hb ++ h ++ x /\ m_core m' = run (h ++ x) c0 /\ m_goroutines m' = update i g' (m_goroutines m) /\
              m_streamed m' = m_streamed m ++ ss /\ m_searched m' = m_searched m ++ rr /\
              g_ok (h ++ x) g' /\ Forall (streamed_from c0 (h ++ x)) ss /\ Forall (searched_from c0 (h ++ x)) rr /\
              (b = true -> g_at (h ++ x) true g' \/ ss <> [])).
  { intros lock s' ss rr b' Hp Hss Hrr Hb m'. exists [], (MkG (part ++ flat_map steps_of rest) s'), ss, rr. rewrite !app_nil_r.
    split; [exact Hh|]. split; [exact Hc|]. split; [reflexivity|]. split; [reflexivity|]. split; [reflexivity|].
    split; [apply g_next; destruct Hp as [Hp|Hp]; [left; exact Hp|right; eexists; exact Hp]|]. split; [exact Hss|]. split; [exact Hrr|].
    intros Eb. destruct (Hb Eb) as [[-> Hn']|H]; [left|right; exact H]. destruct Hp as [Hp|Hp]; [contradiction|]. exists part, rest. auto. }
  assert (Call : forall c core s' b', core = run [(e, c)] (m_core m) -> (part = [] \/ midway (h ++ [(e, c)]) b' part s') ->
            (b = true -> b' = true /\ part <> []) ->
            let m' := MkM core (m_lock m) (update i (MkG (part ++ flat_map steps_of rest) s') (m_goroutines m)) (m_streamed m) (m_searched m) (m_calls m ++ [(e, c)]) in
            exists x g' ss rr,
              m_calls m' = hb ++ h ++ x /\ m_core m' = run (h ++ x) c0 /\ m_goroutines m' = update i g' (m_goroutines m) /\
              m_streamed m' = m_streamed m ++ ss /\ m_searched m' = m_searched m ++ rr /\
              g_ok (h ++ x) g' /\ Forall (streamed_from c0 (h ++ x)) ss /\ Forall (searched_from c0 (h ++ x)) rr /\
              (b = true -> g_at (h ++ x) true g' \/ ss <> [])).
  { intros c core s' b' -> Hp Hb m'. exists [(e, c)], (MkG (part ++ flat_map steps_of rest) s'), [], []. rewrite !app_nil_r.
    split; [cbn [m_calls m']; rewrite Hh, <- app_assoc; reflexivity|]. split; [rewrite run_app, <- Hc; reflexivity|].
    split; [reflexivity|]. split; [reflexivity|]. split; [reflexivity|].
    split; [apply g_next; destruct Hp as [Hp|Hp]; [left; exact Hp|right; eexists; exact Hp]|]. split; [constructor|]. split; [constructor|].
    intros Eb. destruct (Hb Eb) as [-> Hn']. left. destruct Hp as [Hp|Hp]; [contradiction|]. exists part, rest. auto. }
  assert (Q0 : forall lock s' b', (part = [] \/ midway h b' part s') -> (b = true -> b' = true /\ part <> []) ->
            let m' := MkM (m_core m) lock (update i (MkG (part ++ flat_map steps_of rest) s') (m_goroutines m)) (m_streamed m) (m_searched m) (m_calls m) in
            exists x g' ss rr,
              m_calls m' = hb ++ h ++ x /\ m_core m' = run (h ++ x) c0 /\ m_goroutines m' = update i g' (m_goroutines m) /\
              m_streamed m' = m_streamed m ++ ss /\ m_searched m' = m_searched m ++ rr /\
              g_ok (h ++ x) g' /\ Forall (streamed_from c0 (h ++ x)) ss /\ Forall (searched_from c0 (h ++ x)) rr /\
              (b = true -> g_at (h ++ x) true g' \/ ss <> [])).
  { intros lock s' b' Hp Hb. pose proof (Quiet lock s' [] [] b' Hp (Forall_nil _) (Forall_nil _)) as Q. rewrite !app_nil_r in Q. apply Q. intros Eb. left. exact (Hb Eb). }
  set (op := o :: part) in Hm. assert (Eop : op = o :: part) by reflexivity. clearbody op.
  destruct Hm as [g s|s|s|s h1 rs E A|s h1 h2 rs e1 n E A|s h1 h2 h3 rs e1 ed n read E A B|s h1 h2 h3 h4 rs e1 ed n read E A B C|s h1 h2 h3 h4 h5 rs e1 ed n read E A B C D
                 |s h1 rs ed E A|s h1 h2 rs ed E A B|s h1 h2 h3 rs ed E A B C|s h1 h2 h3 h4 rs ed e1 E A B C D].
  - destruct g as [c|c|]; cbn [steps_of] in Eop; injection Eop as <- <-.
    + apply Call with (b' := true); [reflexivity| |discriminate]. right. apply mw_lock.
    + apply Call with (b' := true); [reflexivity| |discriminate]. left. reflexivity.
    + apply Q0 with (b' := false); [|discriminate]. right. eapply mw_sfinished with (h1 := h) (rest := []) (ed := e_now e); [rewrite app_nil_r; reflexivity|]. cbn. rewrite Hc. reflexivity.
  - injection Eop as <- <-. destruct (m_lock m).
    + exists [], (MkG (publish_steps ++ flat_map steps_of rest) s), [], []. rewrite !app_nil_r.
      split; [exact Hh|]. split; [exact Hc|]. split; [symmetry; exact Same|]. split; [reflexivity|]. split; [reflexivity|].
      split; [apply g_next; right; exists true; apply mw_lock|]. split; [constructor|]. split; [constructor|].
      intros _. left. exists publish_steps, rest. split; [reflexivity|]. split; [discriminate|apply mw_lock].
    + apply Q0 with (b' := true); [|split; [reflexivity|discriminate]]. right. apply mw_finished1.
  - injection Eop as <- <-. apply Q0 with (b' := true); [|split; [reflexivity|discriminate]]. right.
    eapply mw_events with (h1 := h) (rest := []); [rewrite app_nil_r; reflexivity|]. cbn. rewrite Hc. reflexivity.
  - injection Eop as <- <-. rewrite A. destruct (EventsDetail Sprintf CallersFrames e (if negb (Finished (run h1 c0)) then 1 else -1) false (m_core m)) as [c' evs] eqn:Ee.
    assert (En : (if negb (Finished (run h1 c0)) then 1 else -1) = (if Finished (run h1 c0) then -1 else 1)) by (destruct (Finished (run h1 c0)); reflexivity).
    apply Call with (b' := true); [| |split; [reflexivity|discriminate]].
    + cbn. unfold do_call. cbn [fst snd]. rewrite Ee. reflexivity.
    + right. rewrite En in *. eapply mw_duration with (h1 := h1) (h2 := rs) (rest := []) (e := e); [rewrite E; cbn [app]; rewrite <- app_assoc; reflexivity|].
      cbn [se_events]. rewrite <- E, <- Hc, Ee. reflexivity.
  - injection Eop as <- <-. apply Q0 with (b' := true); [|split; [reflexivity|discriminate]]. right.
    eapply mw_finished with (h1 := h1) (h2 := h2) (h3 := rs) (rest := []) (e := e1) (ed := e_now e); [rewrite E; fold n; rewrite app_nil_r; reflexivity|exact A|].
    cbn [se_duration]. rewrite Hc, E. reflexivity.
  - injection Eop as <- <-. apply Q0 with (b' := true); [|split; [reflexivity|discriminate]]. right.
    eapply mw_errored with (h1 := h1) (h2 := h2) (h3 := h3) (h4 := rs) (rest := []) (e := e1) (ed := ed); [rewrite E; fold n; rewrite app_nil_r; reflexivity|exact A|exact B|].
    cbn [se_finished]. rewrite Hc, E. reflexivity.
  - injection Eop as <- <-. apply Q0 with (b' := true); [|split; [reflexivity|discriminate]]. right.
    eapply mw_send with (h1 := h1) (h2 := h2) (h3 := h3) (h4 := h4) (h5 := rs) (rest := []) (e := e1) (ed := ed); [rewrite E; fold n; rewrite app_nil_r; reflexivity|exact A|exact B|exact C|].
    cbn [se_errored]. rewrite Hc, E. reflexivity.
  - injection Eop as <- <-. pose proof (Quiet None s [assemble (m_core m) (DurationString (se_duration s)) s] [] true) as Q. rewrite (app_nil_r (m_searched m)) in Q.
    apply Q; [left; reflexivity| |constructor|right; discriminate]. constructor; [|constructor].
    exists h1, h2, h3, h4, h5, rs, e1, ed. cbn [assemble TraceEvents TraceDuration TraceFinished TraceErrored TraceSource TraceID TraceCategory TraceStarted]. rewrite Hc.
    destruct (consts h) as (K1 & K2 & K3 & K4). repeat (split; [assumption|]). assumption.
  - injection Eop as <- <-. apply Q0 with (b' := false); [|discriminate]. right.
    eapply mw_serrored with (h1 := h1) (h2 := rs) (rest := []) (ed := ed); [rewrite E, app_nil_r; reflexivity|exact A|]. cbn. rewrite Hc, E. reflexivity.
  - injection Eop as <- <-. apply Q0 with (b' := false); [|discriminate]. right.
    eapply mw_sevents with (h1 := h1) (h2 := h2) (h3 := rs) (rest := []) (ed := ed); [rewrite E, app_nil_r; reflexivity|exact A|exact B|]. cbn. rewrite Hc, E. reflexivity.
  - injection Eop as <- <-. destruct (EventsDetail Sprintf CallersFrames e (-1) true (m_core m)) as [c' evs] eqn:Ee. apply Call with (b' := false); [| |discriminate].
    + cbn. unfold do_call. cbn [fst snd]. rewrite Ee. reflexivity.
    + right. eapply mw_return with (h1 := h1) (h2 := h2) (h3 := h3) (h4 := rs) (rest := []) (ed := ed) (e := e); [rewrite E; assocs|exact A|exact B|exact C|].
      cbn [se_events]. unfold Events. rewrite <- E, <- Hc, Ee. reflexivity.
  - injection Eop as <- <-. pose proof (Quiet (m_lock m) s [] [assemble (m_core m) EmptyString s] true) as Q. rewrite (app_nil_r (m_streamed m)) in Q.
    apply Q; [left; reflexivity|constructor| |discriminate]. constructor; [|constructor].
    exists h1, h2, h3, h4, rs, ed, e1. cbn [assemble TraceEvents TraceDuration TraceFinished TraceErrored TraceSource TraceID TraceCategory TraceStarted]. rewrite Hc.
    destruct (consts h) as (K1 & K2 & K3 & K4). repeat (split; [assumption|]). assumption.
Qed.
End Snapshot.

Section Global.
Context {arg world pc : Type}.
Variable Sprintf : world -> string -> list arg -> string.
Variable CallersFrames : list pc -> list rframe.
Notation env := (env arg world pc).
Notation coreTrace := (coreTrace arg pc).
Notation history := (history arg env).
Notation run := (run Sprintf CallersFrames).
Notation mstep := (mstep Sprintf CallersFrames).
Notation mrun := (mrun Sprintf CallersFrames).
Notation machine := (machine arg world pc).
Notation streamed_from := (streamed_from Sprintf CallersFrames).
Notation searched_from := (searched_from Sprintf CallersFrames).
Notation g_ok := (g_ok Sprintf CallersFrames).
Notation g_at := (g_at Sprintf CallersFrames).
Variable c0 : coreTrace.

Lemma nth_update_same {A} i (x : A) l : (i < length l)%nat -> nth_error (update i x l) i = Some x.
Proof. revert i. induction l as [|y l IH]; intros [|i] H; cbn in *; try lia; [reflexivity|]. apply IH. lia. Qed.
Lemma nth_update_other {A} i j (x : A) l : i <> j -> nth_error (update i x l) j = nth_error l j.
Proof. revert i j. induction l as [|y l IH]; intros [|i] [|j] H; cbn; try reflexivity; try lia. apply IH. lia. Qed.
Lemma Forall_update {A} (P : A -> Prop) i x l : P x -> Forall P l -> Forall P (update i x l).
Proof. intros Hx H. revert i. induction H as [|y l Hy H IH]; intros [|i]; cbn; constructor; auto. Qed.

(** What every step does, whoever takes it. *)
Lemma step_frame m i e :
  mstep m (i, e) = m \/
  exists o todo s s' x ss,
    nth_error (m_goroutines m) i = Some (MkG (o :: todo) s) /\
    m_goroutines (mstep m (i, e)) = update i (MkG todo s') (m_goroutines m) /\
    m_calls (mstep m (i, e)) = m_calls m ++ x /\ m_core (mstep m (i, e)) = run x (m_core m) /\
    m_streamed (mstep m (i, e)) = m_streamed m ++ ss /\
    (x = [] \/ exists c, x = [(e, c)] /\ (o = MCall c \/ publishes c = false)).
Proof.
  unfold M_Snapshot.mstep. destruct (nth_error (m_goroutines m) i) as [[[|o todo] s]|] eqn:Ei; try (left; reflexivity).
  destruct o as [c| | | | | | | | | ].
  - right. exists (MCall c), todo, s, s, [(e, c)], []. cbn [m_goroutines m_calls m_core m_streamed]. rewrite !app_nil_r.
    repeat (split; [reflexivity|]). right. exists c. auto.
  - destruct (m_lock m); [left; reflexivity|]. right. exists MLock, todo, s, s, [], []. cbn [m_goroutines m_calls m_core m_streamed]. rewrite !app_nil_r. repeat (split; [reflexivity|]). left. reflexivity.
  - right. eexists MFinished1, todo, s, _, [], []. cbn [m_goroutines m_calls m_core m_streamed]. rewrite !app_nil_r. repeat (split; [reflexivity|]). left. reflexivity.
  - destruct (EventsDetail _ _ _ _ _ _) as [c' evs] eqn:Ee. right.
    eexists MEvents, todo, s, _, [(e, CallEvents (if se_active s then 1 else -1) false)], []. cbn [m_goroutines m_calls m_core m_streamed]. rewrite !app_nil_r. repeat (split; [reflexivity|]).
    split; [cbn; unfold do_call; cbn [fst snd]; rewrite Ee; reflexivity|]. split; [reflexivity|]. right. eexists. split; [reflexivity|]. right. reflexivity.
  - right. eexists MDuration, todo, s, _, [], []. cbn [m_goroutines m_calls m_core m_streamed]. rewrite !app_nil_r. repeat (split; [reflexivity|]). left. reflexivity.
  - right. eexists MFinished, todo, s, _, [], []. cbn [m_goroutines m_calls m_core m_streamed]. rewrite !app_nil_r. repeat (split; [reflexivity|]). left. reflexivity.
  - right. eexists MErrored, todo, s, _, [], []. cbn [m_goroutines m_calls m_core m_streamed]. rewrite !app_nil_r. repeat (split; [reflexivity|]). left. reflexivity.
  - right. eexists MSend, todo, s, _, [], [assemble (m_core m) (DurationString (se_duration s)) s]. cbn [m_goroutines m_calls m_core m_streamed]. rewrite !app_nil_r. repeat (split; [reflexivity|]). left. reflexivity.
  - destruct (EventsDetail _ _ _ _ _ _) as [c' evs] eqn:Ee. right.
    eexists MAllEvents, todo, s, _, [(e, CallEvents (-1) true)], []. cbn [m_goroutines m_calls m_core m_streamed]. rewrite !app_nil_r. repeat (split; [reflexivity|]).
    split; [cbn; unfold do_call; cbn [fst snd]; rewrite Ee; reflexivity|]. split; [reflexivity|]. right. eexists. split; [reflexivity|]. right. reflexivity.
  - right. eexists MReturn, todo, s, _, [], []. cbn [m_goroutines m_calls m_core m_streamed]. rewrite !app_nil_r. repeat (split; [reflexivity|]). left. reflexivity.
Qed.

Definition m_ok (m : machine) : Prop :=
  m_core m = run (m_calls m) c0 /\ Forall (g_ok c0 (m_calls m)) (m_goroutines m) /\
  Forall (streamed_from c0 (m_calls m)) (m_streamed m) /\ Forall (searched_from c0 (m_calls m)) (m_searched m).
Lemma step_ok m x : m_ok m -> m_ok (mstep m x).
Proof.
  intros (Hc & Hg & Hs & Hr). destruct x as [i e].
  destruct (step_frame m i e) as [->|(o & todo & s & _ & _ & _ & Ei & _)]; [repeat split; assumption|].
  pose proof (proj1 (Forall_forall _ _) Hg _ (nth_error_In _ _ Ei)) as [Gi|(b & Gi)]; [discriminate|].
  destruct (local_step Sprintf CallersFrames c0 m i e [] (m_calls m) _ b eq_refl Hc Ei Gi) as (x & g' & ss & rr & A & B & C & D & E & F & G & H & _).
  cbn [app] in A. unfold m_ok. rewrite A, C, D, E. split; [exact B|]. split; [|split].
  - apply Forall_update; [exact F|]. eapply Forall_impl; [|exact Hg]. intros g. apply g_more.
  - apply Forall_app. split; [|exact G]. eapply Forall_impl; [|exact Hs]. intros g. apply streamed_more.
  - apply Forall_app. split; [|exact H]. eapply Forall_impl; [|exact Hr]. intros g. apply searched_more.
Qed.
Lemma mrun_induct (P : machine -> Prop) programs sched :
  P (start c0 programs) -> (forall m x, P m -> P (mstep m x)) -> P (mrun sched (start c0 programs)).
Proof.
  intros H0 Hs. unfold M_Snapshot.mrun. revert H0. generalize (start c0 programs : machine). induction sched as [|x sched IH]; intros m H; [exact H|]. cbn. apply IH. apply Hs. exact H.
Qed.
Lemma run_ok programs sched : m_ok (mrun sched (start c0 programs)).
Proof.
  apply mrun_induct; [|apply step_ok]. split; [reflexivity|]. split; [|split; constructor]. cbn [start m_goroutines m_calls].
  apply Forall_forall. intros g Hg. apply in_map_iff in Hg as (p & <- & _). apply (g_next Sprintf CallersFrames c0 [] [] p nothing). left. reflexivity.
Qed.

(** Event calls and Finishes are followed by publishing. *)
Definition published_after (todo : list (micro arg)) : Prop :=
  forall pre c post, todo = pre ++ MCall c :: post -> publishes c = true -> exists rest, post = publish_steps ++ flat_map steps_of rest.
Lemma published_tail o todo : published_after (o :: todo) -> published_after todo.
Proof. intros H pre c post E. apply (H (o :: pre)). rewrite E. reflexivity. Qed.
Lemma program_published p : forallb through_publisher p = true -> published_after (flat_map steps_of p).
Proof.
  induction p as [|g p IH]; intros Hp pre c post E Hc.
  - destruct pre; discriminate.
  - cbn [forallb] in Hp. apply andb_true_iff in Hp as [Hg Hp]. cbn [flat_map] in E. destruct g as [c1|c1|]; cbn [steps_of] in E.
    + destruct pre as [|o pre].
      * injection E as <- <-. exists p. reflexivity.
      * cbn [app publish_steps] in E. injection E as <- E. do 7 (destruct pre as [|? pre]; [discriminate|]; injection E as <- E). eapply (IH Hp); eassumption.
    + destruct pre as [|o pre].
      * injection E as <- <-. cbn in Hg. rewrite Hc in Hg. discriminate.
      * injection E as <- E. eapply (IH Hp); eassumption.
    + cbn [app] in E. do 5 (destruct pre as [|? pre]; [discriminate|]; injection E as <- E). eapply (IH Hp); eassumption.
Qed.

(** Every such call is being published, or has been, from what was read after it. *)
Definition followed (m : machine) : Prop :=
  Forall (fun g => published_after (g_todo g)) (m_goroutines m) /\
  forall ha e c hb, m_calls m = ha ++ (e, c) :: hb -> publishes c = true ->
    let c1 := run (ha ++ [(e, c)]) c0 in
    (exists i g, nth_error (m_goroutines m) i = Some g /\ g_at c1 hb true g) \/ Exists (streamed_from c1 hb) (m_streamed m).
Lemma split_snoc {A} (l : list A) (y : A) ha x hb : l ++ [y] = ha ++ x :: hb ->
  (hb = [] /\ ha = l /\ x = y) \/ exists hb', hb = hb' ++ [y] /\ l = ha ++ x :: hb'.
Proof.
  intros E. destruct hb as [|z hb] using rev_ind.
  - left. apply app_inj_tail in E as [<- <-]. auto.
  - right. clear IHhb. exists hb. change (ha ++ x :: hb ++ [z]) with (ha ++ (x :: hb) ++ [z]) in E. rewrite app_assoc in E. apply app_inj_tail in E as [-> ->]. auto.
Qed.
Lemma step_followed m x : m_ok m -> followed m -> followed (mstep m x).
Proof.
  intros Hok (Hp & Hf). destruct x as [i e].
  destruct (step_frame m i e) as [->|(o & todo & s & s' & x & ss & Ei & Eg & Ec & Er & Es & Ex)]; [split; assumption|].
  assert (Li : (i < length (m_goroutines m))%nat) by (apply nth_error_Some; congruence).
  pose proof (proj1 (Forall_forall _ _) Hp _ (nth_error_In _ _ Ei)) as Pi. cbn [g_todo] in Pi.
  split.
  { rewrite Eg. apply Forall_update; [|exact Hp]. cbn [g_todo]. eapply published_tail. exact Pi. }
  intros ha e1 c hb. rewrite Ec, Eg, Es. intros E Hc c1.
  (* a call made before this step *)
  assert (Old : forall hb', m_calls m = ha ++ (e1, c) :: hb' -> hb = hb' ++ x ->
            (exists j g, nth_error (update i (MkG todo s') (m_goroutines m)) j = Some g /\ g_at c1 hb true g) \/ Exists (streamed_from c1 hb) (m_streamed m ++ ss)).
  { intros hb' Eh ->. destruct (Hf _ _ _ _ Eh Hc) as [(j & g & Ej & Gj)|Hs].
    - destruct (Nat.eq_dec i j) as [<-|Nj].
      + rewrite Ei in Ej. injection Ej as <-.
        assert (Eh' : m_calls m = (ha ++ [(e1, c)]) ++ hb') by (rewrite <- app_assoc; exact Eh).
        assert (Hcore : m_core m = run hb' c1) by (unfold c1; rewrite <- run_app, <- Eh'; apply Hok).
        destruct (local_step Sprintf CallersFrames c1 m i e _ hb' _ true Eh' Hcore Ei Gj) as (x' & g' & ss' & rr & A & B & C & D & _ & F & G & H & K).
        rewrite Ec in A. rewrite Eh', <- app_assoc in A. apply app_inv_head in A. apply app_inv_head in A. subst x'.
        rewrite Es in D. apply app_inv_head in D. subst ss'. rewrite Eg in C.
        destruct (K eq_refl) as [K1|K1].
        * left. exists i, g'. rewrite C. split; [apply nth_update_same; exact Li|exact K1].
        * right. apply Exists_app. right. destruct ss as [|st ss]; [contradiction|]. inversion G; subst. apply Exists_cons_hd. assumption.
      + left. exists j, g. rewrite nth_update_other by exact Nj. split; [exact Ej|]. apply g_at_more. exact Gj.
    - right. apply Exists_app. left. eapply Exists_impl; [|exact Hs]. intros st. apply streamed_more. }
  destruct Ex as [->|(c' & -> & Ho)].
  - rewrite app_nil_r in E. apply (Old hb); [exact E|symmetry; apply app_nil_r].
  - apply split_snoc in E as [(-> & -> & Ey)|(hb' & -> & Eh)]; [|apply (Old hb'); [exact Eh|reflexivity]].
    injection Ey as -> ->. destruct Ho as [->|Ho]; [|congruence].
    destruct (Pi [] c' todo eq_refl Hc) as (rest & ->). left. exists i. eexists. split; [apply nth_update_same; exact Li|].
    exists publish_steps, rest. split; [reflexivity|]. split; [discriminate|apply mw_lock].
Qed.
Lemma run_followed programs sched : forallb (forallb through_publisher) programs = true -> followed (mrun sched (start c0 programs)).
Proof.
  intros Hp. apply (mrun_induct (fun m => m_ok m /\ followed m)).
  - split; [apply (run_ok programs [])|]. split; [|intros [|? ?] ? ? ? E; discriminate]. cbn [start m_goroutines].
    apply Forall_forall. intros g Hg. apply in_map_iff in Hg as (p & <- & Hin). cbn [g_todo]. apply program_published.
    rewrite forallb_forall in Hp. apply Hp. exact Hin.
  - intros m x [H1 H2]. split; [apply step_ok; exact H1|]. apply step_followed; assumption.
Qed.
Lemma all_returned_followed m ha e c hb : followed m -> all_returned m -> m_calls m = ha ++ (e, c) :: hb -> publishes c = true ->
  Exists (streamed_from (run (ha ++ [(e, c)]) c0) hb) (m_streamed m).
Proof.
  intros (_ & Hf) Hd E Hc. destruct (Hf _ _ _ _ E Hc) as [(i & g & Ei & Gi)|H]; [|exact H].
  exfalso. pose proof (proj1 (Forall_forall _ _) Hd _ (nth_error_In _ _ Ei)) as D. cbn in D.
  destruct Gi as (part & rest & Et & Hn & _). rewrite D in Et. destruct part; [contradiction|discriminate].
Qed.
End Global.

From Verif Require Import Go L_List M_Strings L_Strings M_Types M_Frame L_Frame M_Filter S_Filter.
From Coq Require Import ZifyBool.
Open Scope string_scope.
Open Scope Z_scope.

Section Lemmas.
Context {RE : Type}.
Variable Compile : string -> RE + string.
Variable MatchString : RE -> string -> bool.
Notation Filter := (Filter RE).
Notation init := (initializeQueryRegexp Compile).
Notation Allow := (Allow Compile MatchString).
Notation AllowAll := (AllowAll Compile MatchString).
Notation FilterNormalize := (FilterNormalize Compile).
Notation re_condition := (re_condition MatchString).
Notation query_condition := (query_condition Compile MatchString).
Notation accepts := (accepts Compile MatchString).

Lemma find_string_iff l s : find_string l s = true <-> In s l.
Proof.
  induction l as [|x l IH]; cbn; [split; [discriminate|tauto]|].
  destruct (String.eqb_spec x s) as [->|]; [tauto|]. rewrite IH. intuition.
Qed.

Lemma compact_ok fr s : CompactFileLine fr = Ok s <-> s = compact_file_line fr.
Proof.
  unfold compact_file_line. destruct (CompactFileLine_total fr) as [t Ht]. rewrite Ht. split; congruence.
Qed.

Lemma match_stack_iff re st : match_stack MatchString re st = true <->
  exists fr s, In fr st /\ frame_text fr s /\ MatchString re s = true.
Proof.
  induction st as [|c st IH]; cbn [match_stack].
  - split; [discriminate|]. intros (? & ? & [] & _).
  - destruct (MatchString re (Function c)) eqn:E1.
    { split; [|reflexivity]. intros _. exists c, (Function c). cbn. unfold frame_text. auto. }
    destruct (MatchString re (compact_file_line c)) eqn:E2.
    { split; [|reflexivity]. intros _. exists c, (compact_file_line c). cbn. unfold frame_text. rewrite compact_ok. auto. }
    rewrite IH. split; intros (fr & s & Hin & Ht & Hm).
    + exists fr, s. cbn. auto.
    + destruct Hin as [<-|Hin]; [|exists fr, s; auto]. destruct Ht as [->|Ht]; [congruence|].
      apply compact_ok in Ht. subst. congruence.
Qed.

Lemma match_events_iff re tr : match_events MatchString re (TraceEvents tr) = true <-> re_condition (Some re) tr.
Proof.
  unfold S_Filter.re_condition, trace_text. induction (TraceEvents tr) as [|ev evs IH]; cbn [match_events].
  - split; [discriminate|]. intros (s & (ev & [] & _) & _).
  - destruct (MatchString re (What ev)) eqn:E1.
    { split; [|reflexivity]. intros _. exists (What ev). split; [|exact E1]. exists ev. cbn; auto. }
    destruct (match_stack MatchString re (Stack ev)) eqn:E2.
    { split; [|reflexivity]. intros _. apply match_stack_iff in E2 as (fr & s & Hin & Ht & Hm).
      exists s. split; [|exact Hm]. exists ev. cbn. split; [auto|]. right. exists fr. auto. }
    rewrite IH. split.
    + intros (s & (ev' & Hin & H) & Hm). exists s. split; [|exact Hm]. exists ev'. cbn. auto.
    + intros (s & (ev' & [<-|Hin] & H) & Hm); [|exists s; split; [exists ev'; auto|exact Hm]].
      exfalso. destruct H as [->|(fr & Hfr & Ht)]; [congruence|].
      assert (match_stack MatchString re (Stack ev) = true) by (apply match_stack_iff; eauto). congruence.
Qed.

(** init *)
Definition query_re (f : Filter) : option RE :=
  match f_regexp f with
  | Some re => Some re
  | None => if String.eqb (Query f) "" then None else match Compile (Query f) with inl re => Some re | inr _ => None end
  end.

Lemma init_regexp f : f_regexp (fst (init f)) = query_re f.
Proof.
  unfold initializeQueryRegexp, query_re. destruct (f_regexp f) eqn:E; [exact E|].
  destruct (String.eqb (Query f) ""); [exact E|]. destruct (Compile (Query f)); [reflexivity|exact E].
Qed.
Lemma init_fields f : same_fields (fst (init f)) f.
Proof.
  unfold initializeQueryRegexp. destruct (f_regexp f); [repeat split|].
  destruct (String.eqb (Query f) ""); [repeat split|]. destruct (Compile (Query f)); repeat split.
Qed.
Lemma init_query_re f : query_re (fst (init f)) = query_re f.
Proof.
  unfold query_re at 1. rewrite init_regexp. destruct (query_re f) eqn:E; [reflexivity|].
  unfold query_re in E. unfold initializeQueryRegexp. destruct (f_regexp f); [discriminate|].
  destruct (String.eqb (Query f) "") eqn:Eq; [cbn; rewrite Eq; reflexivity|]. destruct (Compile (Query f)); [discriminate|]. reflexivity.
Qed.
Lemma same_fields_conditions (f g : Filter) tr : same_fields f g -> field_conditions f tr <-> field_conditions g tr.
Proof. intros (A1&A2&A3&A4&A5&A6&A7&A8). unfold field_conditions. rewrite A1, A2, A3, A4, A5, A6, A7, A8. reflexivity. Qed.

(** One Allow: the verdict and what stays. *)
Lemma Allow_spec f tr :
  (snd (Allow f tr) = true <-> field_conditions f tr /\ re_condition (query_re f) tr) /\
  same_fields (fst (Allow f tr)) f /\ query_re (fst (Allow f tr)) = query_re f.
Proof.
  unfold M_Filter.Allow.
  assert (Hkeep : same_fields f f /\ query_re f = query_re f) by (split; [repeat split|reflexivity]).
  destruct ((0 <? zlen (Sources f)) && negb (find_string (Sources f) (TraceSource tr))) eqn:E1.
  { split; [|exact Hkeep]. split; [discriminate|]. intros ((H & _) & _). exfalso.
    apply andb_true_iff in E1 as [E1 E1']. apply negb_true_iff in E1'.
    assert (find_string (Sources f) (TraceSource tr) = true); [|congruence]. apply find_string_iff. apply H.
    intros Hn. rewrite Hn in E1. cbn in E1. discriminate. }
  destruct ((0 <? zlen (IDs f)) && negb (find_string (IDs f) (TraceID tr))) eqn:E2.
  { split; [|exact Hkeep]. split; [discriminate|]. intros ((_ & H & _) & _). exfalso.
    apply andb_true_iff in E2 as [E2 E2']. apply negb_true_iff in E2'.
    assert (find_string (IDs f) (TraceID tr) = true); [|congruence]. apply find_string_iff. apply H.
    intros Hn. rewrite Hn in E2. cbn in E2. discriminate. }
  destruct (negb (String.eqb (FCategory f) "") && negb (String.eqb (TraceCategory tr) (FCategory f))) eqn:E3.
  { split; [|exact Hkeep]. split; [discriminate|]. intros ((_ & _ & H & _) & _). exfalso.
    apply andb_true_iff in E3 as [E3 E3']. apply negb_true_iff, String.eqb_neq in E3, E3'. apply E3'. apply H. exact E3. }
  destruct (IsActive f && TraceFinished tr) eqn:E4.
  { split; [|exact Hkeep]. split; [discriminate|]. intros ((_ & _ & _ & H & _) & _). exfalso.
    apply andb_true_iff in E4 as [E4 E4']. rewrite H in E4' by exact E4. discriminate. }
  destruct (IsFinished f && negb (TraceFinished tr)) eqn:E5.
  { split; [|exact Hkeep]. split; [discriminate|]. intros ((_ & _ & _ & _ & H & _) & _). exfalso.
    apply andb_true_iff in E5 as [E5 E5']. rewrite H in E5' by exact E5. discriminate. }
  destruct (match MinDuration f with Some d => if negb (TraceFinished tr) then true else TraceDuration tr <? d | None => false end) eqn:E6.
  { split; [|exact Hkeep]. split; [discriminate|]. intros ((_ & _ & _ & _ & _ & H & _) & _). exfalso.
    destruct (MinDuration f) as [d|]; [|discriminate]. destruct (H d eq_refl) as [Hf Hd]. rewrite Hf in E6. cbn in E6. lia. }
  destruct (IsSuccess f && TraceErrored tr) eqn:E7.
  { split; [|exact Hkeep]. split; [discriminate|]. intros ((_ & _ & _ & _ & _ & _ & H & _) & _). exfalso.
    apply andb_true_iff in E7 as [E7 E7']. rewrite H in E7' by exact E7. discriminate. }
  destruct (IsErrored f && negb (TraceErrored tr)) eqn:E8.
  { split; [|exact Hkeep]. split; [discriminate|]. intros ((_ & _ & _ & _ & _ & _ & _ & H) & _). exfalso.
    apply andb_true_iff in E8 as [E8 E8']. rewrite H in E8' by exact E8. discriminate. }
  assert (Hcond : field_conditions f tr).
  { repeat split.
    - intros Hne. apply find_string_iff. destruct (find_string (Sources f) (TraceSource tr)); [reflexivity|].
      destruct (Sources f); [contradiction|]. unfold zlen in E1. cbn [length negb andb] in E1. lia.
    - intros Hne. apply find_string_iff. destruct (find_string (IDs f) (TraceID tr)); [reflexivity|].
      destruct (IDs f); [contradiction|]. unfold zlen in E2. cbn [length negb andb] in E2. lia.
    - intros Hne. apply String.eqb_neq in Hne. rewrite Hne in E3. cbn in E3. apply negb_false_iff, String.eqb_eq in E3. exact E3.
    - intros Ha. rewrite Ha in E4. exact E4.
    - intros Ha. rewrite Ha in E5. cbn in E5. apply negb_false_iff in E5. exact E5.
    - rewrite H in E6. destruct (TraceFinished tr); [reflexivity|discriminate].
    - rewrite H in E6. destruct (negb (TraceFinished tr)); [discriminate|]. lia.
    - intros Ha. rewrite Ha in E7. exact E7.
    - intros Ha. rewrite Ha in E8. cbn in E8. apply negb_false_iff in E8. exact E8. }
  pose proof (init_regexp f) as Hr. pose proof (init_fields f) as Hf. pose proof (init_query_re f) as Hq.
  destruct (init f) as [f' err]. cbn [fst] in *. rewrite Hr. destruct (query_re f) as [re|]; cbn [fst snd].
  - split; [|split; assumption]. rewrite match_events_iff. tauto.
  - split; [|split; assumption]. cbn. tauto.
Qed.

(** The verdict depends on the public fields and the compiled expression. *)
Lemma query_re_unused f tr : unused f -> (re_condition (query_re f) tr <-> query_condition (Query f) tr).
Proof.
  unfold unused, query_re, S_Filter.query_condition. intros ->.
  destruct (String.eqb_spec (Query f) "") as [Hq|Hq].
  - rewrite Hq. destruct (Compile ""); [|tauto]. split; [|intros _; exact I]. intros _ Hn. contradiction.
  - destruct (Compile (Query f)); [tauto|tauto].
Qed.

Lemma Allow_unused f tr : unused f -> snd (Allow f tr) = true <-> accepts f tr.
Proof. intros Hu. rewrite (proj1 (Allow_spec f tr)). unfold S_Filter.accepts. rewrite query_re_unused by exact Hu. reflexivity. Qed.

Lemma Allow_bool f g tr : same_fields f g -> query_re f = query_re g -> snd (Allow f tr) = snd (Allow g tr).
Proof.
  intros Hf Hq. apply eq_true_iff_eq. rewrite (proj1 (Allow_spec f tr)), (proj1 (Allow_spec g tr)), Hq.
  rewrite (same_fields_conditions f g tr Hf). reflexivity.
Qed.

Lemma same_fields_trans (f g h : Filter) : same_fields f g -> same_fields g h -> same_fields f h.
Proof. intros (A1&A2&A3&A4&A5&A6&A7&A8) (B1&B2&B3&B4&B5&B6&B7&B8). repeat split; congruence. Qed.
Lemma same_fields_refl (f : Filter) : same_fields f f. Proof. repeat split. Qed.

(** Any sequence of uses gives each trace the verdict of the unused filter. *)
Definition do_use (f : Filter) (u : use) : Filter :=
  match u with UNormalize => fst (FilterNormalize f) | UAllow tr => fst (Allow f tr) end.

Lemma fst_FilterNormalize f : fst (FilterNormalize f) = fst (init f).
Proof. unfold M_Filter.FilterNormalize. destruct (init f); reflexivity. Qed.

Lemma uses_keep us : forall f, same_fields (fold_left do_use us f) f /\ query_re (fold_left do_use us f) = query_re f.
Proof.
  induction us as [|u us IH]; intros f; [split; [apply same_fields_refl|reflexivity]|].
  cbn [fold_left]. destruct (IH (do_use f u)) as [H1 H2].
  assert (same_fields (do_use f u) f /\ query_re (do_use f u) = query_re f) as [H3 H4].
  { destruct u as [|tr]; cbn [do_use].
    - rewrite fst_FilterNormalize. split; [apply init_fields|apply init_query_re].
    - apply Allow_spec. }
  split; [eapply same_fields_trans; eassumption|congruence].
Qed.

Lemma Allow_after_uses f us tr : unused f -> (snd (Allow (fold_left do_use us f) tr) = true <-> accepts f tr).
Proof.
  intros Hu. destruct (uses_keep us f) as [H1 H2].
  rewrite (Allow_bool _ f tr H1 H2). apply Allow_unused. exact Hu.
Qed.

(** AllowAll *)
Lemma AllowAll_spec trs : forall f, snd (AllowAll f trs) = map (fun tr => snd (Allow f tr)) trs.
Proof.
  induction trs as [|tr trs IH]; intros f; [reflexivity|].
  cbn [M_Filter.AllowAll map]. destruct (Allow f tr) as [f' b] eqn:E. specialize (IH f'). destruct (AllowAll f' trs) as [f'' bs].
  cbn [snd] in *. f_equal. rewrite IH. apply map_ext. intros t.
  destruct (Allow_spec f tr) as (_ & H1 & H2). rewrite E in H1, H2. cbn [fst] in *. apply Allow_bool; assumption.
Qed.

(** Normalize *)
Lemma Normalize_invalid f err : unused f -> Query f <> "" -> Compile (Query f) = inr err ->
  FilterNormalize f = (set_query f "", ["query: invalid, ignoring (" ++ err ++ ")"]).
Proof.
  intros Hu Hq Hc. unfold M_Filter.FilterNormalize, initializeQueryRegexp. rewrite Hu.
  apply String.eqb_neq in Hq. rewrite Hq, Hc. reflexivity.
Qed.
Lemma Normalize_valid f re : unused f -> Query f <> "" -> Compile (Query f) = inl re ->
  FilterNormalize f = (set_regexp f re, []).
Proof.
  intros Hu Hq Hc. unfold M_Filter.FilterNormalize, initializeQueryRegexp. rewrite Hu.
  apply String.eqb_neq in Hq. rewrite Hq, Hc. reflexivity.
Qed.
Lemma Normalize_none f : Query f = "" -> FilterNormalize f = (f, []).
Proof.
  intros Hq. unfold M_Filter.FilterNormalize, initializeQueryRegexp. rewrite Hq. destruct (f_regexp f); reflexivity.
Qed.
Lemma Normalize_idem f : FilterNormalize (fst (FilterNormalize f)) = (fst (FilterNormalize f), []).
Proof.
  rewrite fst_FilterNormalize. unfold initializeQueryRegexp. destruct (f_regexp f) eqn:E.
  - unfold M_Filter.FilterNormalize, initializeQueryRegexp; cbn [fst]. rewrite E. reflexivity.
  - destruct (String.eqb (Query f) "") eqn:Eq.
    + unfold M_Filter.FilterNormalize, initializeQueryRegexp; cbn [fst]. rewrite E, Eq. reflexivity.
    + destruct (Compile (Query f)); unfold M_Filter.FilterNormalize, initializeQueryRegexp; cbn; rewrite ?E; reflexivity.
Qed.
Lemma set_query_empty_accepts f tr : accepts (set_query f "") tr <-> field_conditions f tr.
Proof.
  unfold S_Filter.accepts, S_Filter.query_condition. cbn [Query set_query].
  rewrite (same_fields_conditions (set_query f "") f tr) by (repeat split).
  destruct (Compile ""); [|tauto]. split; [tauto|]. intros H; split; [exact H|]. intros Hn; contradiction.
Qed.

Lemma weaker_accepts g f tr : weaker g f -> accepts f tr -> accepts g tr.
Proof.
  intros (W1&W2&W3&W4&W5&W6&W7&W8&W9) ((C1&C2&C3&C4&C5&C6&C7&C8) & CQ). split.
  - repeat split.
    + intros H. destruct W1 as [W|W]; [contradiction|]. rewrite W in *. auto.
    + intros H. destruct W2 as [W|W]; [contradiction|]. rewrite W in *. auto.
    + intros H. destruct W3 as [W|W]; [contradiction|]. rewrite W in *. auto.
    + intros H. destruct W4 as [W|W]; [congruence|]. rewrite W in *. auto.
    + intros H. destruct W5 as [W|W]; [congruence|]. rewrite W in *. auto.
    + destruct W6 as [W|W]; [congruence|]. rewrite W in *. apply (C6 d). assumption.
    + destruct W6 as [W|W]; [congruence|]. rewrite W in *. apply (C6 d). assumption.
    + intros H. destruct W7 as [W|W]; [congruence|]. rewrite W in *. auto.
    + intros H. destruct W8 as [W|W]; [congruence|]. rewrite W in *. auto.
  - destruct W9 as [W|W]; rewrite W; [|exact CQ]. unfold S_Filter.query_condition. destruct (Compile ""); [|exact I].
    intros H. contradiction.
Qed.
End Lemmas.

From Verif Require Import Go M_Strings M_Types M_Filter M_Json M_JsonText M_Url M_StreamFilter S_StreamFilter.
From Coq Require Import ZifyBool.
Open Scope string_scope.
Open Scope list_scope.
Open Scope Z_scope.

Lemma int64_spec n : int64 n = true <-> a_duration n.
Proof. unfold int64, a_duration. lia. Qed.
Lemma into_elements_spec l : fst (into_elements l) = map as_string l /\ (snd (into_elements l) = false <-> Forall fits_string l).
Proof.
  induction l as [|j l [IH1 IH2]]; [split; [reflexivity|split; [constructor|reflexivity]]|]. cbn [into_elements map].
  destruct (into_elements l) as [rest bad]. cbn [fst snd] in *. subst rest. destruct j; cbn [into_string fst snd as_string orb]; (split; [reflexivity|]);
    try (split; [discriminate|]; intros H; inversion H as [|? ? H1 H2]; subst; destruct H1; fail);
    (rewrite IH2; split; [intros H; constructor; [exact Logic.I|exact H]|intros H; inversion H; assumption]).
Qed.

Section Filter.
Context {RE : Type}.
Notation Filter := (Filter RE).

Fixpoint assoc (k : string) (o : list (string * json)) : option json :=
  match o with [] => None | (k', j) :: o => if String.eqb k' k then Some j else assoc k o end.

Lemma assoc_member o k j : NoDup (map fst o) -> member o k j -> match assoc k o with Some j' => j' | None => JNull end = j.
Proof.
  induction o as [|[k' j'] o IH]; intros Hn.
  - intros [[]|[_ ->]]. reflexivity.
  - cbn [map fst] in Hn. inversion Hn as [|? ? Hni Hn']; subst. cbn [assoc]. destruct (String.eqb_spec k' k) as [->|Hne].
    + intros [[[= <-]|Hin]|[Hno _]]; [reflexivity| |exfalso; apply Hno; left; reflexivity].
      exfalso. apply Hni. apply (in_map fst) in Hin. exact Hin.
    + intros [[[= E _]|Hin]|[Hno ->]]; [congruence|apply IH; [exact Hn'|left; exact Hin]|apply IH; [exact Hn'|right; split; [intros H; apply Hno; right; exact H|reflexivity]]].
Qed.

Lemma fields_proj {A} (p : Filter -> A) k (up : json -> A -> A) :
  (forall k' j f, p (fst (into_field k' j f)) = if String.eqb k' k then up j (p f) else p f) ->
  forall o, NoDup (map fst o) -> forall f, p (fst (into_fields o f)) = match assoc k o with Some j => up j (p f) | None => p f end.
Proof.
  intros Hp. induction o as [|[k' j] o IH]; intros Hn f; [reflexivity|]. cbn [map fst] in Hn. inversion Hn as [|? ? Hni Hn']; subst.
  cbn [into_fields assoc]. specialize (Hp k' j f). destruct (into_field k' j f) as [f1 bad]. cbn [fst] in Hp. specialize (IH Hn' f1).
  destruct (into_fields o f1) as [f2 bad2]. cbn [fst] in *. rewrite IH, Hp. destruct (String.eqb_spec k' k) as [->|]; [|reflexivity].
  assert (Ha : assoc k o = None).
  { clear -Hni. induction o as [|[k' j] o IH]; [reflexivity|]. cbn [assoc map fst] in *. destruct (String.eqb_spec k' k) as [->|]; [exfalso; apply Hni; left; reflexivity|].
    apply IH. intros H. apply Hni. right. exact H. }
  rewrite Ha. reflexivity.
Qed.

Ltac each_key :=
  intros k' j f; unfold into_field;
  repeat match goal with |- context [String.eqb k' ?s] => destruct (String.eqb_spec k' s) as [->|?] end;
  cbn [String.eqb Ascii.eqb Bool.eqb]; try reflexivity;
  match goal with |- context [let '(_, _) := ?x in _] => destruct x as [? ?] eqn:?E; cbn [fst]; rewrite ?E; reflexivity | _ => idtac end.

Lemma p_sources k' j f : Sources (fst (into_field (RE := RE) k' j f)) = if String.eqb k' "sources" then fst (into_strings j (Sources f)) else Sources f. Proof. revert k' j f. each_key. Qed.
Lemma p_ids k' j f : IDs (fst (into_field (RE := RE) k' j f)) = if String.eqb k' "ids" then fst (into_strings j (IDs f)) else IDs f. Proof. revert k' j f. each_key. Qed.
Lemma p_category k' j f : FCategory (fst (into_field (RE := RE) k' j f)) = if String.eqb k' "category" then fst (into_string j (FCategory f)) else FCategory f. Proof. revert k' j f. each_key. Qed.
Lemma p_active k' j f : IsActive (fst (into_field (RE := RE) k' j f)) = if String.eqb k' "is_active" then fst (into_bool j (IsActive f)) else IsActive f. Proof. revert k' j f. each_key. Qed.
Lemma p_finished k' j f : IsFinished (fst (into_field (RE := RE) k' j f)) = if String.eqb k' "is_finished" then fst (into_bool j (IsFinished f)) else IsFinished f. Proof. revert k' j f. each_key. Qed.
Lemma p_min k' j f : MinDuration (fst (into_field (RE := RE) k' j f)) = if String.eqb k' "min_duration" then fst (into_duration j (MinDuration f)) else MinDuration f. Proof. revert k' j f. each_key. Qed.
Lemma p_success k' j f : IsSuccess (fst (into_field (RE := RE) k' j f)) = if String.eqb k' "is_success" then fst (into_bool j (IsSuccess f)) else IsSuccess f. Proof. revert k' j f. each_key. Qed.
Lemma p_errored k' j f : IsErrored (fst (into_field (RE := RE) k' j f)) = if String.eqb k' "is_errored" then fst (into_bool j (IsErrored f)) else IsErrored f. Proof. revert k' j f. each_key. Qed.
Lemma p_query k' j f : Query (fst (into_field (RE := RE) k' j f)) = if String.eqb k' "query" then fst (into_string j (Query f)) else Query f. Proof. revert k' j f. each_key. Qed.
Lemma p_regexp k' j f : f_regexp (fst (into_field (RE := RE) k' j f)) = if String.eqb k' "" then f_regexp f else f_regexp f.
Proof. destruct (String.eqb k' ""); revert k' j f; each_key. Qed.

Lemma into_string_as j : fst (into_string j "") = as_string j. Proof. now destruct j. Qed.
Lemma into_bool_as j : fst (into_bool j false) = as_bool j. Proof. now destruct j. Qed.
Lemma into_strings_as j : fst (into_strings j []) = as_strings j. Proof. destruct j; try reflexivity. apply into_elements_spec. Qed.
Lemma into_duration_as j : as_duration j (fst (into_duration j None)).
Proof.
  destruct j; try constructor. cbn [into_duration]. destruct (int64 n) eqn:E.
  - constructor. apply int64_spec, E.
  - constructor. rewrite <- int64_spec, E. discriminate.
Qed.

Lemma into_fields_asks o : NoDup (map fst o) -> asks_for o (fst (into_fields (RE := RE) o no_filter)).
Proof.
  intros Hn. unfold asks_for.
  assert (HM : forall {A} (up : json -> A -> A) zero k j, up JNull zero = zero -> member o k j -> match assoc k o with Some j' => up j' zero | None => zero end = up j zero).
  { intros A up zero k j H0 Hm. rewrite <- (assoc_member o k j Hn Hm). destruct (assoc k o); [reflexivity|symmetry; exact H0]. }
  repeat split.
  1-5,7-9: intros j Hm.
  - rewrite (fields_proj _ _ (fun j x => fst (into_strings j x)) p_sources o Hn). cbn [no_filter Sources]. rewrite (HM _ (fun j x => fst (into_strings j x)) [] _ _ eq_refl Hm). apply into_strings_as.
  - rewrite (fields_proj _ _ (fun j x => fst (into_strings j x)) p_ids o Hn). cbn [no_filter IDs]. rewrite (HM _ (fun j x => fst (into_strings j x)) [] _ _ eq_refl Hm). apply into_strings_as.
  - rewrite (fields_proj _ _ (fun j x => fst (into_string j x)) p_category o Hn). cbn [no_filter FCategory]. rewrite (HM _ (fun j x => fst (into_string j x)) "" _ _ eq_refl Hm). apply into_string_as.
  - rewrite (fields_proj _ _ (fun j x => fst (into_bool j x)) p_active o Hn). cbn [no_filter IsActive]. rewrite (HM _ (fun j x => fst (into_bool j x)) false _ _ eq_refl Hm). apply into_bool_as.
  - rewrite (fields_proj _ _ (fun j x => fst (into_bool j x)) p_finished o Hn). cbn [no_filter IsFinished]. rewrite (HM _ (fun j x => fst (into_bool j x)) false _ _ eq_refl Hm). apply into_bool_as.
  - rewrite (fields_proj _ _ (fun j x => fst (into_bool j x)) p_success o Hn). cbn [no_filter IsSuccess]. rewrite (HM _ (fun j x => fst (into_bool j x)) false _ _ eq_refl Hm). apply into_bool_as.
  - rewrite (fields_proj _ _ (fun j x => fst (into_bool j x)) p_errored o Hn). cbn [no_filter IsErrored]. rewrite (HM _ (fun j x => fst (into_bool j x)) false _ _ eq_refl Hm). apply into_bool_as.
  - rewrite (fields_proj _ _ (fun j x => fst (into_string j x)) p_query o Hn). cbn [no_filter Query]. rewrite (HM _ (fun j x => fst (into_string j x)) "" _ _ eq_refl Hm). apply into_string_as.
  - intros j Hm. rewrite (fields_proj _ _ (fun j x => fst (into_duration j x)) p_min o Hn). cbn [no_filter MinDuration]. rewrite (HM _ (fun j x => fst (into_duration j x)) None _ _ eq_refl Hm). apply into_duration_as.
  - rewrite (fields_proj _ "" (fun _ x => x) p_regexp o Hn). cbn [no_filter f_regexp]. now destruct (assoc "" o).
Qed.

Lemma into_field_fits k j f : snd (into_field (RE := RE) k j f) = false <-> fits k j.
Proof.
  unfold into_field, fits.
  assert (HS : forall old, snd (into_string j old) = false <-> fits_string j) by (intros; destruct j; cbn; split; (discriminate || tauto || reflexivity)).
  assert (HB : forall old, snd (into_bool j old) = false <-> fits_bool j) by (intros; destruct j; cbn; split; (discriminate || tauto || reflexivity)).
  assert (HD : forall old, snd (into_duration j old) = false <-> fits_duration j).
  { intros; destruct j; cbn; try (split; (discriminate || tauto || reflexivity)). rewrite <- int64_spec. destruct (int64 n); cbn; split; (discriminate || reflexivity). }
  assert (HL : forall old, snd (into_strings j old) = false <-> fits_strings j).
  { intros; destruct j; cbn; try (split; (discriminate || tauto || reflexivity)). apply into_elements_spec. }
  repeat match goal with |- context [String.eqb k ?s] => destruct (String.eqb_spec k s) as [->|?] end.
  all: try match goal with |- context [into_strings ?jj ?oo] => specialize (HL oo); destruct (into_strings jj oo) end.
  all: try match goal with |- context [into_string ?jj ?oo] => specialize (HS oo); destruct (into_string jj oo) end.
  all: try match goal with |- context [into_bool ?jj ?oo] => specialize (HB oo); destruct (into_bool jj oo) end.
  all: try match goal with |- context [into_duration ?jj ?oo] => specialize (HD oo); destruct (into_duration jj oo) end.
  all: cbn [snd] in *; cbn [In].
  all: split; [intros H|intros (H1 & H2 & H3 & H4)].
  all: try (apply HL in H || apply HS in H || apply HB in H || apply HD in H).
  all: try (repeat split; intros HH; (assumption || (exfalso; repeat destruct HH as [HH|HH]; (discriminate || congruence || contradiction)) || (exfalso; discriminate HH))).
  all: try (apply HL, H1; tauto).
  all: try (apply HS, H2; tauto).
  all: try (apply HB, H3; tauto).
  all: try (apply HD, H4; reflexivity).
  all: try reflexivity.
Qed.

Lemma into_fields_fits o : forall f, snd (into_fields (RE := RE) o f) = false <-> forall k j, In (k, j) o -> fits k j.
Proof.
  induction o as [|[k j] o IH]; intros f; [split; [intros _ k j []|reflexivity]|]. cbn [into_fields].
  pose proof (into_field_fits k j f) as HF. destruct (into_field k j f) as [f1 bad]. specialize (IH f1). destruct (into_fields o f1) as [f2 bad2].
  cbn [snd] in *. rewrite orb_false_iff, HF, IH. split.
  - intros [H1 H2] k' j' [[= <- <-]|H]; [exact H1|apply H2, H].
  - intros H. split; [apply H; left; reflexivity|intros k' j' Hin; apply H; right; exact Hin].
Qed.
End Filter.

(** C114: the filter of a stream request. *)
From Verif Require Import Go M_Strings M_Types M_Filter S_Filter L_Filter M_Json M_JsonText S_JsonText P_JsonText M_Url M_StreamFilter S_StreamFilter L_StreamFilter P_Filter.
From Coq Require Import ZifyBool.
Open Scope string_scope.
Open Scope list_scope.
Open Scope Z_scope.

Section Filter.
Context {RE : Type}.
Notation body_filter := (body_filter (RE := RE)).

(** A body that starts with an object: each member counts on its own, whether or not others fit their fields. *)
Theorem C114_members :
  forall w p rest o, white w -> value_text p (JObj o) -> NoDup (map fst o) ->
    let '(f, error) := body_filter (w ++ p ++ rest)%string in
    asks_for o f /\ (error = false <-> forall k j, In (k, j) o -> fits k j).
Proof.
  intros w p rest o Hw Hp Hn. unfold M_StreamFilter.body_filter.
  rewrite (proj1 (proj2 C90_reads_the_grammar) w p (JObj o) rest Hw Hp (fun H => match H with end)). cbn [into_filter].
  destruct (into_fields o no_filter) as [f error] eqn:E. split.
  - change f with (fst (f, error)). rewrite <- E. apply into_fields_asks, Hn.
  - change error with (snd (f, error)). rewrite <- E. apply into_fields_fits.
Qed.

(** If every member fits, the filter is the one that a search request with that filter would have. *)
Lemma field_assoc k o : NoDup (map fst o) -> field k o = match assoc k o with Some j => j | None => JNull end.
Proof.
  induction o as [|[k' j] o IH]; intros Hn; [reflexivity|]. cbn [map fst] in Hn. inversion Hn as [|? ? Hni Hn']; subst. cbn [field assoc].
  rewrite (String.eqb_sym k k'). destruct (String.eqb_spec k' k) as [->|Hne]; rewrite (IH Hn').
  - assert (Ha : assoc k o = None).
    { clear -Hni. induction o as [|[k' j] o IH]; [reflexivity|]. cbn [assoc map fst] in *. destruct (String.eqb_spec k' k) as [->|]; [exfalso; apply Hni; left; reflexivity|].
      apply IH. intros H. apply Hni. right. exact H. }
    rewrite Ha. reflexivity.
  - destruct (assoc k o) as [[]|]; reflexivity.
Qed.
Lemma assoc_In k o j : assoc k o = Some j -> In (k, j) o.
Proof. induction o as [|[k' j'] o IH]; [discriminate|]. cbn [assoc]. destruct (String.eqb_spec k' k) as [->|]; [intros [= ->]; left; reflexivity|intros H; right; apply IH, H]. Qed.
Lemma field_member k o : NoDup (map fst o) -> member o k (field k o).
Proof.
  intros Hn. rewrite (field_assoc k o Hn). destruct (assoc k o) as [j|] eqn:E; [left; apply assoc_In, E|]. right. split; [|reflexivity].
  clear -E. induction o as [|[k' j] o IH]; [intros []|]. cbn [assoc map fst] in *. destruct (String.eqb_spec k' k) as [->|Hne]; [discriminate|]. intros [H|H]; [congruence|exact (IH E H)].
Qed.

Theorem C114_same_as_search :
  forall w p rest o f, white w -> value_text p (JObj o) -> NoDup (map fst o) ->
    body_filter (w ++ p ++ rest)%string = (f, false) -> dec_filter (JObj o) = Some f.
Proof.
  intros w p rest o f Hw Hp Hn H. pose proof (C114_members w p rest o Hw Hp Hn) as HM. rewrite H in HM. destruct HM as [(A1 & A2 & A3 & A4 & A5 & A6 & A7 & A8 & A9 & A10) [HF _]].
  specialize (HF eq_refl).
  assert (FF : forall k, fits k (field k o)).
  { intros k. pose proof (field_member k o Hn) as [Hin|[_ ->]]; [exact (HF _ _ Hin)|]. repeat split; intros; exact Logic.I. }
  pose proof (fun k => field_member k o Hn) as FM.
  assert (DS : forall j, fits_string j -> dec_string j = Some (as_string j)) by (intros []; cbn; (contradiction || reflexivity)).
  assert (DB : forall j, fits_bool j -> dec_bool j = Some (as_bool j)) by (intros []; cbn; (contradiction || reflexivity)).
  assert (DL : forall j, fits_strings j -> dec_slice dec_string j = Some (as_strings j)).
  { intros [| | | | |l|]; cbn; try (contradiction || reflexivity). induction 1 as [|x l Hx _ IH]; [reflexivity|]. cbn [dec_all map]. rewrite (DS _ Hx). cbn [obind]. rewrite IH. reflexivity. }
  assert (DD : forall j d, fits_duration j -> as_duration j d -> dec_pointer dec_num j = Some d) by (intros j d Hj Hd; destruct Hd; cbn in *; (contradiction || reflexivity)).
  cbn [dec_filter dec_obj obind].
  rewrite (DL _ (proj1 (FF "sources") ltac:(cbn; tauto))). cbn [obind]. rewrite (DL _ (proj1 (FF "ids") ltac:(cbn; tauto))). cbn [obind].
  rewrite (DS _ (proj1 (proj2 (FF "category")) ltac:(cbn; tauto))). cbn [obind].
  rewrite (DB _ (proj1 (proj2 (proj2 (FF "is_active"))) ltac:(cbn; tauto))). cbn [obind].
  rewrite (DB _ (proj1 (proj2 (proj2 (FF "is_finished"))) ltac:(cbn; tauto))). cbn [obind].
  rewrite (DD _ _ (proj2 (proj2 (proj2 (FF "min_duration"))) eq_refl) (A6 _ (FM "min_duration"))). cbn [obind].
  rewrite (DB _ (proj1 (proj2 (proj2 (FF "is_success"))) ltac:(cbn; tauto))). cbn [obind].
  rewrite (DB _ (proj1 (proj2 (proj2 (FF "is_errored"))) ltac:(cbn; tauto))). cbn [obind].
  rewrite (DS _ (proj1 (proj2 (FF "query")) ltac:(cbn; tauto))). cbn [obind].
  rewrite <- (A1 _ (FM "sources")), <- (A2 _ (FM "ids")), <- (A3 _ (FM "category")), <- (A4 _ (FM "is_active")), <- (A5 _ (FM "is_finished")),
    <- (A7 _ (FM "is_success")), <- (A8 _ (FM "is_errored")), <- (A9 _ (FM "query")), <- A10. now destruct f.
Qed.

(** A body that is not JSON, or another value than an object: the stream is of everything,
    and an error is logged unless the value is null. *)
Theorem C114_not_an_object :
  forall (Compile : string -> RE + string) (MatchString : RE -> string -> bool) (body : string),
    (forall w p rest o, white w -> value_text p (JObj o) -> body <> (w ++ p ++ rest)%string) ->
    (exists f, stream_filter (fun _ _ _ => 0) Compile (SBody body) = inl f /\ forall tr, snd (Allow Compile MatchString f tr) = true) /\
    (snd (body_filter body) = false <-> exists w rest, white w /\ body = (w ++ "null" ++ rest)%string).
Proof.
  intros Compile MatchString body H. split.
  2:{ unfold M_StreamFilter.body_filter. split.
      - destruct (decode body) as [[j rest]|] eqn:E; [|discriminate]. apply (proj1 C90_reads_the_grammar) in E as (w & p & Hw & -> & Hv).
        destruct j; cbn [into_filter snd]; try discriminate; intros _; [|exfalso; exact (H w p rest l Hw Hv eq_refl)].
        inversion Hv; subst. exists w, rest. split; [exact Hw|reflexivity].
      - intros (w & rest & Hw & ->). rewrite (proj1 (proj2 C90_reads_the_grammar) w "null" JNull rest Hw vt_null (fun H => match H with end)). reflexivity. }
  exists no_filter.
  assert (E : fst (body_filter body) = no_filter).
  { unfold M_StreamFilter.body_filter. destruct (decode body) as [[j rest]|] eqn:E; [|reflexivity].
    apply (proj1 C90_reads_the_grammar) in E as (w & p & Hw & -> & Hv). destruct j; try reflexivity. exfalso. exact (H w p rest l Hw Hv eq_refl). }
  split; [unfold stream_filter; cbn [request_filter]; rewrite E; reflexivity|]. intros tr. reflexivity.
Qed.

(** Whether the request is refused depends on the query alone; the filter subscribed with keeps every field. *)
Theorem C114_refused :
  forall float_part (Compile : string -> RE + string) (r : stream_request),
    let f := fst (request_filter float_part r) in
    match stream_filter float_part Compile r with
    | inr text => exists err, Query f <> "" /\ Compile (Query f) = inr err /\ text = ("bad request: query: invalid, ignoring (" ++ err ++ ")")%string
    | inl f' => same_fields f f' /\ Query f' = Query f /\ (Query f = "" /\ f_regexp f' = None \/ Query f <> "" /\ exists re, Compile (Query f) = inl re /\ f_regexp f' = Some re)
    end.
Proof.
  intros fp Compile r f. assert (Hr : f_regexp f = None).
  { unfold f, request_filter. destruct r as [raw|body]; [reflexivity|]. unfold M_StreamFilter.body_filter. destruct (decode body) as [[j rest]|]; [|reflexivity].
    destruct j; try reflexivity. cbn [into_filter].
    assert (HX : forall l (f0 : Filter RE), f_regexp f0 = None -> f_regexp (fst (into_fields l f0)) = None).
    { clear. induction l as [|[k j] l IH]; intros f0 H0; [exact H0|]. cbn [into_fields]. pose proof (p_regexp k j f0) as Hp. destruct (into_field k j f0) as [f1 bad].
      specialize (IH f1). destruct (into_fields l f1) as [f2 bad2]. cbn [fst] in *. apply IH. rewrite Hp. now destruct (String.eqb k ""). }
    apply HX. reflexivity. }
  unfold stream_filter. fold f. unfold FilterNormalize, initializeQueryRegexp. rewrite Hr. destruct (String.eqb_spec (Query f) "") as [Hq|Hq].
  - split; [repeat split|]. split; [reflexivity|]. left. split; [exact Hq|exact Hr].
  - destruct (Compile (Query f)) as [re|err].
    + split; [repeat split|]. split; [reflexivity|]. right. split; [exact Hq|]. exists re. split; reflexivity.
    + exists err. split; [exact Hq|]. split; [reflexivity|]. reflexivity.
Qed.

(** Finding: the log says that the default is used, but what fits is used, and a minimum duration that does
    not fit, such as a text, leaves only traces that are finished. *)
Theorem C114_default_is_used_refuted :
  forall (Compile : string -> RE + string) (MatchString : RE -> string -> bool) w p rest o j, white w -> value_text p (JObj o) -> NoDup (map fst o) ->
    In ("min_duration", j) o -> j <> JNull ->
    forall f tr, stream_filter (fun _ _ _ => 0) Compile (SBody (w ++ p ++ rest)) = inl f ->
      snd (Allow Compile MatchString f tr) = true -> TraceFinished tr = true.
Proof.
  intros Compile MatchString w p rest o j Hw Hp Hn Hin Hj f tr H HA.
  pose proof (C114_members w p rest o Hw Hp Hn) as HM. pose proof (C114_refused (fun _ _ _ => 0) Compile (SBody (w ++ p ++ rest))) as HR. cbn zeta in HR. rewrite H in HR.
  cbn [request_filter] in HR. destruct (M_StreamFilter.body_filter (w ++ p ++ rest)%string) as [f0 error]. cbn [fst] in HR. destruct HM as [HM _].
  destruct HM as (_ & _ & _ & _ & _ & A6 & _). specialize (A6 j (or_introl Hin)). destruct HR as [(_ & _ & _ & _ & _ & E & _) _].
  apply Allow_spec in HA as [(_ & _ & _ & _ & _ & C6 & _) _]. rewrite <- E in C6. inversion A6; subst; try congruence;
    match goal with Hx : Some _ = MinDuration f0 |- _ => exact (proj1 (C6 _ (eq_sym Hx))) end.
Qed.
End Filter.
Print Assumptions C114_members.
Print Assumptions C114_same_as_search.
Print Assumptions C114_not_an_object.
Print Assumptions C114_refused.
Print Assumptions C114_default_is_used_refuted.

(** A text for a duration: the category counts, and traces that are not finished are left out *)
Definition demo_body : string := "{""category"": ""a"", ""min_duration"": ""10ms"", ""ids"": [""x"", 7], ""unknown"": {}}".
Example C114_instance :
  body_filter (RE := unit) demo_body = (MkFilter [] ["x"; ""] "a" false false (Some 0) false false "" None, true) /\
  body_filter (RE := unit) "{""category"": ""a"", ""min_duration"": 10000000}" = (MkFilter [] [] "a" false false (Some 10000000) false false "" None, false) /\
  body_filter (RE := unit) "{""category"": ""a""" = (no_filter, true) /\
  (exists o, value_text demo_body (JObj o) /\ NoDup (map fst o) /\ In ("min_duration", JStr "10ms") o).
Proof.
  split; [vm_compute; reflexivity|]. split; [vm_compute; reflexivity|]. split; [vm_compute; reflexivity|].
  destruct (decode demo_body) as [[j rest]|] eqn:E; [|vm_compute in E; discriminate].
  pose proof E as E'. apply (proj1 C90_reads_the_grammar) in E as (w & p & Hw & Hb & Hv). vm_compute in E'.
  injection E' as <- <-. exists [("category", JStr "a"); ("min_duration", JStr "10ms"); ("ids", JArr [JStr "x"; JNum 7]); ("unknown", JObj [])].
  split; [|split; [repeat constructor; cbn; intuition discriminate|cbn; tauto]].
  assert (Ew : w = "") by (destruct w as [|a w]; [reflexivity|]; exfalso; destruct Hw as [Ha _]; injection Hb as <- _; vm_compute in Ha; intuition discriminate).
  subst w. rewrite Hb. cbn [append]. assert (HS : forall s, (s ++ "")%string = s) by (induction s; cbn; congruence). rewrite HS. exact Hv.
Qed.

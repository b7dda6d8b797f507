(** C114, continued: what the first event of a stream says about the filter. *)
From Verif Require Import Go M_Strings M_Types M_Frame M_Filter S_Filter L_Filter M_Json S_Json P_Json M_JsonText S_JsonText L_JsonRead P_JsonText M_Url M_EventSource
     M_StreamFilter S_StreamFilter L_StreamFilter P_StreamFilter.
Open Scope string_scope.
Open Scope list_scope.
Open Scope Z_scope.

(** A reader of the first event: the filter and the size of the buffer. *)
Definition read_told {RE} (s : string) : option (Filter RE * Z) :=
  read (fun j => obind (dec_obj j) (fun o => obind (dec_filter (field "filter" o)) (fun f => obind (dec_num (field "sendbuf" o)) (fun n => Some (f, n))))) s.

(** *** Strings that come from JSON are valid UTF-8 *)
Lemma string_text_utf8 s v : string_text s v -> utf8 v.
Proof. intros (c & b & _ & _ & ->). apply (to_utf8_valid (String.length b)). lia. Qed.
Lemma value_writable s v : value_text s v -> writable_json v.
Proof.
  revert s v. apply (texts_ind (fun _ v => writable_json v) (fun _ l => Forall writable_json l) (fun _ l => Forall (fun kv => utf8 (fst kv) /\ writable_json (snd kv)) l));
    intros; repeat constructor; try assumption; try (eapply string_text_utf8; eassumption).
Qed.

Section Told.
Context {RE : Type}.
Notation Filter := (Filter RE).

Lemma into_string_valid j old : writable_json j -> utf8 old -> utf8 (fst (into_string j old)).
Proof. intros Hj Ho. destruct j; cbn; try exact Ho. inversion Hj; assumption. Qed.
Lemma into_strings_valid j old : writable_json j -> Forall utf8 old -> Forall utf8 (fst (into_strings j old)).
Proof.
  intros Hj Ho. destruct j as [| | | | |l|]; cbn; try exact Ho; [constructor|]. inversion Hj as [| | | | |? Hl|]; subst. clear Hj Ho. induction Hl as [|x l Hx _ IH]; cbn [into_elements]; [constructor|].
  pose proof (into_string_valid x "" Hx utf8_nil) as Hs. destruct (into_string x "") as [s bad]. destruct (into_elements l) as [rest bad']. cbn [fst] in *. constructor; assumption.
Qed.
Lemma into_field_valid k j (f : Filter) : writable_json j -> valid_filter f -> valid_filter (fst (into_field k j f)).
Proof.
  intros Hj (V1 & V2 & V3 & V4). unfold into_field.
  destruct (String.eqb k "sources"). { pose proof (into_strings_valid j _ Hj V1) as H. destruct (into_strings j (Sources f)). repeat split; assumption. }
  destruct (String.eqb k "ids"). { pose proof (into_strings_valid j _ Hj V2) as H. destruct (into_strings j (IDs f)). repeat split; assumption. }
  destruct (String.eqb k "category"). { pose proof (into_string_valid j _ Hj V3) as H. destruct (into_string j (FCategory f)). repeat split; assumption. }
  destruct (String.eqb k "is_active"). { destruct (into_bool j (IsActive f)). repeat split; assumption. }
  destruct (String.eqb k "is_finished"). { destruct (into_bool j (IsFinished f)). repeat split; assumption. }
  destruct (String.eqb k "min_duration"). { destruct (into_duration j (MinDuration f)). repeat split; assumption. }
  destruct (String.eqb k "is_success"). { destruct (into_bool j (IsSuccess f)). repeat split; assumption. }
  destruct (String.eqb k "is_errored"). { destruct (into_bool j (IsErrored f)). repeat split; assumption. }
  destruct (String.eqb k "query"). { pose proof (into_string_valid j _ Hj V4) as H. destruct (into_string j (Query f)). repeat split; assumption. }
  repeat split; assumption.
Qed.
Lemma body_filter_valid body : valid_filter (fst (body_filter (RE := RE) body)).
Proof.
  assert (V0 : valid_filter (no_filter (RE := RE))) by (repeat split; constructor).
  unfold body_filter. destruct (decode body) as [[j rest]|] eqn:E; [|exact V0]. apply decode_sound in E as (w & p & _ & _ & Hv). apply value_writable in Hv.
  destruct j as [| | | | | |l]; try exact V0. cbn [into_filter]. inversion Hv as [| | | | | |? Hl]; subst. revert V0. generalize (no_filter (RE := RE)). clear Hv.
  induction Hl as [|[k j] l [_ Hj] _ IH]; intros f Vf; [exact Vf|]. cbn [into_fields]. pose proof (into_field_valid k j f Hj Vf) as H. destruct (into_field k j f) as [f1 bad].
  specialize (IH f1 H). destruct (into_fields l f1). exact IH.
Qed.
End Told.

(** The first event of a stream can always be written; whatever follows it, a reader of it gets the filter that is
    subscribed with, with bytes that are not valid UTF-8 replaced, and the size of the buffer that is used. *)
Theorem C114_told :
  forall (RE : Type) (f : Filter RE) raw,
    (exists j, init_data f (stream_send_buffer raw) j) /\
    forall short j rest, init_data f (stream_send_buffer raw) j ->
      read_told (text short None j ++ rest) = Some (sent_filter f, stream_send_buffer raw).
Proof.
  intros RE f raw. split.
  - destruct (enc_filter_ex f) as [j Hj]. eexists. exists j. split; [exact Hj|reflexivity].
  - intros short j rest (filter & Hf & ->).
    assert (W : writable_json (obj [("filter", Some filter); ("sendbuf", Some (JNum (stream_send_buffer raw)))])).
    { apply obj_writable. repeat constructor; cbn; try (apply utf8_ascii; reflexivity). exact (filter_writable f filter Hf). }
    unfold read_told. rewrite (proj1 (read_written _ short None _ rest W)). cbn. rewrite (filter_ok _ _ Hf). reflexivity.
Qed.
Print Assumptions C114_told.

(** So who reads it knows what will be streamed: the filter that is told accepts the same traces as the one
    that is subscribed with. This holds for every body, also one that was not understood, and for a filter in
    the URL if its strings are valid UTF-8. *)
Theorem C114_told_accepts :
  forall (RE : Type) float_part (Compile : string -> RE + string) MatchString r f,
    stream_filter float_part Compile r = inl f ->
    match r with SBody _ => True | SQuery raw => valid_filter (RE := RE) (parseFilter float_part raw) end ->
    forall short raw j rest, init_data f (stream_send_buffer raw) j ->
    exists told, read_told (text short None j ++ rest) = Some (told, stream_send_buffer raw) /\
      forall tr, snd (Allow Compile MatchString told tr) = snd (Allow Compile MatchString f tr).
Proof.
  intros RE fp Compile MatchString r f H V short raw j rest Hj. exists (sent_filter f). split; [exact (proj2 (C114_told RE f raw) short j rest Hj)|].
  pose proof (C114_refused fp Compile r) as HR. cbn zeta in HR. rewrite H in HR. destruct HR as (HF & HQ & HRe).
  assert (V0 : valid_filter (fst (request_filter (RE := RE) fp r))) by (destruct r as [q|body]; [exact V|apply body_filter_valid]). clear V H.
  set (f0 := fst (request_filter fp r)) in *. clearbody f0.
  assert (V1 : valid_filter f) by (destruct HF as (E1 & E2 & E3 & _); destruct V0 as (A1 & A2 & A3 & A4); unfold valid_filter; rewrite HQ, <- E1, <- E2, <- E3; repeat split; assumption).
  intros tr. destruct V1 as (A1 & A2 & A3 & A4). apply Allow_bool.
  - unfold sent_filter. repeat split; cbn; rewrite ?valid_strings, ?valid_unchanged by assumption; reflexivity.
  - unfold query_re, sent_filter. cbn [f_regexp Query]. rewrite (valid_unchanged _ A4), HQ. destruct HRe as [[Hq Hn]|(Hne & re & Hc & Hr)].
    + rewrite Hn, Hq. reflexivity.
    + rewrite Hr, Hc. destruct (String.eqb_spec (Query f0) "") as [Hq|]; [contradiction|reflexivity].
Qed.
Print Assumptions C114_told_accepts.

(** Finding: for other bytes in the URL this is not so: what is streamed are the traces with these bytes, and the filter
    that is told accepts none of them. *)
Theorem C114_told_bytes_refuted :
  exists raw f told tr, forall Compile MatchString,
    stream_filter (RE := string) (fun _ _ _ => 0) Compile (SQuery raw) = inl f /\
    (forall short j, init_data f (stream_send_buffer raw) j -> read_told (text short None j) = Some (told, stream_send_buffer raw)) /\
    snd (Allow Compile MatchString f tr) = true /\ snd (Allow Compile MatchString told tr) = false.
Proof.
  set (f := MkFilter [] [] (String (ascii_of_nat 255) "") false false None false false "" (None : option string)).
  exists "category=%ff", f, (sent_filter f), (MkStatic "s" "1" (String (ascii_of_nat 255) "") 7 1 "" true false []). intros Compile MatchString.
  split; [vm_compute; reflexivity|]. split; [|split; vm_compute; reflexivity].
  intros short j Hj. rewrite <- (proj2 (C114_told string f "category=%ff") short j "" Hj). f_equal. symmetry. induction (text short None j) as [|a s IH]; [reflexivity|]. cbn. rewrite IH. reflexivity.
Qed.
Print Assumptions C114_told_bytes_refuted.

(** A body of which only a part fits: the first event shows that the minimum duration is 0, and which category is asked for *)
Example C114_told_instance :
  forall Compile, exists f, stream_filter (RE := string) (fun _ _ _ => 0) Compile (SBody demo_body) = inl f /\ Sources f = [] /\ IDs f = ["x"; ""] /\
    exists j, init_data f (stream_send_buffer "sendbuf=7") j /\
      text false None j = "{""filter"":{""ids"":[""x"",""""],""category"":""a"",""min_duration"":0},""sendbuf"":7}" /\
      read_told (text false None j) = Some (f, 7).
Proof.
  intros Compile. eexists. split; [vm_compute; reflexivity|]. split; [reflexivity|]. split; [reflexivity|].
  exists (obj [("filter", Some (obj [("ids", Some (JArr [JStr "x"; JStr ""])); ("category", Some (JStr "a")); ("min_duration", Some (JNum 0))])); ("sendbuf", Some (JNum 7))]).
  split; [|split; vm_compute; reflexivity]. eexists. split; [|reflexivity]. exists None, (Some (JArr [JStr "x"; JStr ""])).
  split; [left; split; reflexivity|]. split; [|vm_compute; reflexivity]. right. split; [discriminate|]. eexists. split; [reflexivity|]. repeat constructor.
Qed.

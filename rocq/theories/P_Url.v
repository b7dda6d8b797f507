(** C54, C55, C60: what travels in the URL. *)
From Verif Require Import Go M_Strings M_Types M_Frame M_Filter S_Order L_Order M_Humanize M_Text M_Search M_Url L_Search L_Strings L_Text L_Url.
From Coq Require Import Sorted.
Open Scope string_scope.
Open Scope list_scope.
Open Scope Z_scope.

(** The query parameters that belong to a filter. *)
Definition filter_params : list string := ["source"; "id"; "category"; "active"; "finished"; "min"; "success"; "errored"; "q"].

(** Exact decimal arithmetic is one possible floating point unit. *)
Definition exact_part (f unit scale : Z) : Z := f * unit / scale.
Lemma exact_part_ok : float_exact exact_part.
Proof. intros f q scale Hf Hq Hs _ _. unfold exact_part. rewrite Z.mul_assoc. apply Z.div_mul. lia. Qed.

Section Roundtrip.
Context {RE : Type}.
Notation Filter := (@Filter RE).

Definition or_else (b : bool) (x : string) (l : list string) : list string := if b then [x] else l.

(** every parameter after the filter has been added *)
Definition encoded (f : Filter) (old : string -> list string) (k : string) : list string :=
  if String.eqb k "q" then or_else (negb (String.eqb (Query f) "")) (Query f) (old k)
  else if String.eqb k "errored" then or_else (IsErrored f) "true" (old k)
  else if String.eqb k "success" then or_else (IsSuccess f) "true" (old k)
  else if String.eqb k "min" then match MinDuration f with Some d => [DurationString d] | None => old k end
  else if String.eqb k "finished" then or_else (IsFinished f) "true" (old k)
  else if String.eqb k "active" then or_else (IsActive f) "true" (old k)
  else if String.eqb k "category" then or_else (negb (String.eqb (FCategory f) "")) (FCategory f) (old k)
  else if String.eqb k "id" then old k ++ IDs f
  else if String.eqb k "source" then old k ++ Sources f
  else old k.

Lemma encodeFilter_values (f : Filter) raw k : values (Query_of (encodeFilter f raw)) k = encoded f (values (Query_of raw)) k.
Proof.
  unfold encodeFilter. rewrite good_encodes.
  2:{ repeat apply good_set_if. destruct (MinDuration f); [apply good_vSet|]; repeat apply good_set_if; repeat apply good_fold_vAdd; apply good_Query. }
  unfold encoded, or_else.
  assert (C : forall x, String.eqb k x = true -> k = x) by (intros x H; apply String.eqb_eq; exact H).
  assert (M : forall (q : Values), values (match MinDuration f with Some d => vSet q "min" (DurationString d) | None => q end) k
      = if String.eqb k "min" then match MinDuration f with Some d => [DurationString d] | None => values q k end else values q k).
  { intros q. destruct (MinDuration f); [apply values_vSet|]. destruct (String.eqb k "min"); reflexivity. }
  repeat (rewrite values_set_if || rewrite values_fold_vAdd || rewrite M).
  clear M. generalize (negb (String.eqb (Query f) "")) as bq, (negb (String.eqb (FCategory f) "")) as bc. intros bc bq.
  repeat match goal with |- context [String.eqb k ?x] => destruct (string_dec k x) as [->|?];
     [ cbn [String.eqb Ascii.eqb Bool.eqb]; rewrite ?andb_false_r, ?andb_true_r; try reflexivity
     | rewrite (proj2 (String.eqb_neq k x)) by assumption ] end.
  rewrite ?andb_false_r. reflexivity.
Qed.

Theorem C54_other_parameters_kept :
  forall (f : Filter) raw k, ~ In k filter_params -> values (Query_of (encodeFilter f raw)) k = values (Query_of raw) k.
Proof.
  intros f raw k H. rewrite encodeFilter_values. unfold encoded.
  repeat match goal with |- context [String.eqb k ?x] =>
    rewrite (proj2 (String.eqb_neq k x)) by (intros ->; apply H; cbn; tauto) end. reflexivity.
Qed.

Variable float_part : Z -> Z -> Z -> Z.
Hypothesis Hfloat : float_exact float_part.
Notation parseFilter := (@parseFilter RE float_part).

(** Adding a filter to a URL that already has parameters: lists are appended to, flags are
    or-ed, the others are replaced if set. *)
Theorem C54_filter_added_to_parameters :
  forall (f : Filter) raw, (forall d, MinDuration f = Some d -> int64 d) ->
  let old := parseFilter raw in
  parseFilter (encodeFilter f raw) =
    MkFilter (Sources old ++ Sources f) (IDs old ++ IDs f)
             (if String.eqb (FCategory f) "" then FCategory old else FCategory f)
             (IsActive old || IsActive f) (IsFinished old || IsFinished f)
             (match MinDuration f with Some d => Some d | None => MinDuration old end)
             (IsSuccess old || IsSuccess f) (IsErrored old || IsErrored f)
             (if String.eqb (Query f) "" then Query old else Query f) None.
Proof.
  intros f raw Hmin old. unfold old, M_Url.parseFilter. cbn [Sources IDs FCategory IsActive IsFinished MinDuration IsSuccess IsErrored Query].
  assert (G : good (Query_of (encodeFilter f raw))) by apply good_Query.
  rewrite !(vHas_values _ _ G), !(vHas_values _ _ (good_Query raw)). unfold vGet. rewrite !encodeFilter_values. unfold encoded, or_else. cbn [String.eqb Ascii.eqb Bool.eqb].
  f_equal.
  - destruct (String.eqb_spec (FCategory f) ""); reflexivity.
  - destruct (IsActive f), (values (Query_of raw) "active"); reflexivity.
  - destruct (IsFinished f), (values (Query_of raw) "finished"); reflexivity.
  - destruct (MinDuration f) as [d|]; [|reflexivity]. unfold parseDefault, parseDurationPointer. rewrite (ParseDuration_String _ Hfloat d (Hmin d eq_refl)). reflexivity.
  - destruct (IsSuccess f), (values (Query_of raw) "success"); reflexivity.
  - destruct (IsErrored f), (values (Query_of raw) "errored"); reflexivity.
  - destruct (String.eqb_spec (Query f) ""); reflexivity.
Qed.

(** The filter that arrives is the filter that was sent. *)
Theorem C54_filter_roundtrip :
  forall (f : Filter) raw, (forall d, MinDuration f = Some d -> int64 d) ->
  (forall k, In k filter_params -> values (Query_of raw) k = []) ->
  parseFilter (encodeFilter f raw) =
    MkFilter (Sources f) (IDs f) (FCategory f) (IsActive f) (IsFinished f) (MinDuration f) (IsSuccess f) (IsErrored f) (Query f) None.
Proof.
  intros f raw Hmin Hnone. rewrite C54_filter_added_to_parameters by exact Hmin. unfold M_Url.parseFilter, vGet.
  cbn [Sources IDs FCategory IsActive IsFinished MinDuration IsSuccess IsErrored Query].
  rewrite !(vHas_values _ _ (good_Query raw)), !Hnone by (cbn; tauto). cbn [app negb orb].
  f_equal.
  - destruct (String.eqb_spec (FCategory f) ""); congruence.
  - destruct (MinDuration f); reflexivity.
  - destruct (String.eqb_spec (Query f) ""); congruence.
Qed.

(** The same through the stream client, which also adds its own two parameters. *)
Lemma stream_values c (f : Filter) raw k :
  values (Query_of (stream_query c f raw)) k =
  encoded f (fun k => if (0 <? c_StatsInterval (initialize c)) && String.eqb k "stats" then [DurationString (c_StatsInterval (initialize c))]
                      else if (0 <? c_SendBuffer (initialize c)) && String.eqb k "sendbuf" then [itoa (c_SendBuffer (initialize c))]
                      else values (Query_of raw) k) k.
Proof.
  unfold stream_query. rewrite encodeFilter_values. unfold encoded.
  rewrite !good_encodes by (repeat apply good_set_if; apply good_Query). rewrite !values_set_if. reflexivity.
Qed.

Lemma clamp_pos def min max v : 0 < def -> 0 < min -> min <= max -> 0 < clamp def min max v.
Proof. intros. unfold clamp. destruct (Z.eqb_spec v 0); [assumption|]. destruct (Z.ltb_spec v min); [assumption|]. destruct (Z.ltb_spec max v); lia. Qed.

Theorem C54_stream_client_filter :
  forall c (f : Filter) raw, (forall d, MinDuration f = Some d -> int64 d) ->
  (forall k, In k filter_params -> values (Query_of raw) k = []) ->
  parseFilter (stream_query c f raw) =
    MkFilter (Sources f) (IDs f) (FCategory f) (IsActive f) (IsFinished f) (MinDuration f) (IsSuccess f) (IsErrored f) (Query f) None.
Proof.
  intros c f raw Hmin Hnone. unfold stream_query. apply C54_filter_roundtrip; [exact Hmin|]. intros k Hk.
  rewrite good_encodes by (repeat apply good_set_if; apply good_Query). rewrite !values_set_if, (Hnone k Hk).
  assert (K : String.eqb k "stats" = false /\ String.eqb k "sendbuf" = false).
  { cbn in Hk. repeat destruct Hk as [<-|Hk]; try (split; reflexivity). contradiction. }
  destruct K as [-> ->]. rewrite !andb_false_r. reflexivity.
Qed.

(** What the server uses of the client's configuration. *)
Theorem C55_client_configuration_reaches_server :
  forall c (f : Filter) raw,
  let q := stream_query c f raw in
  stream_stats_interval float_part q = c_StatsInterval (initialize c) /\
  stream_send_buffer q =
    (if c_SendBuffer (initialize c) =? 0 then stream_send_buffer raw else c_SendBuffer (initialize c)) /\
  stream_setup float_part q = Ok (parseFilter q, stream_send_buffer q, c_StatsInterval (initialize c)).
Proof.
  intros c f raw q.
  assert (HS : 1 * Second <= c_StatsInterval (initialize c) <= 60 * Second).
  { cbn [initialize c_StatsInterval]. unfold clamp, Second, Millisecond, Microsecond. destruct (Z.eqb_spec (c_StatsInterval c) 0); [lia|].
    repeat match goal with |- context [?x <? ?y] => destruct (Z.ltb_spec x y) end; lia. }
  assert (HB : 0 <= c_SendBuffer (initialize c) <= 100000).
  { cbn [initialize c_SendBuffer]. unfold clamp_buffer. repeat match goal with |- context [?x <? ?y] => destruct (Z.ltb_spec x y) end; lia. }
  assert (E1 : stream_stats_interval float_part q = c_StatsInterval (initialize c)).
  { unfold stream_stats_interval, vGet, q. rewrite stream_values. unfold encoded. cbn [String.eqb Ascii.eqb Bool.eqb].
    unfold Second, Millisecond, Microsecond in HS. destruct (Z.ltb_spec 0 (c_StatsInterval (initialize c))); [|lia]. cbn [andb].
    unfold parseDefault. rewrite ParseDuration_String; [reflexivity|exact Hfloat|]. unfold int64. change two63 with 9223372036854775808. lia. }
  split; [exact E1|]. split.
  - unfold stream_send_buffer, vGet, q. rewrite stream_values. unfold encoded. cbn [String.eqb Ascii.eqb Bool.eqb].
    rewrite andb_false_r, andb_true_r. destruct (Z.eqb_spec (c_SendBuffer (initialize c)) 0) as [->|N]; [reflexivity|].
    destruct (Z.ltb_spec 0 (c_SendBuffer (initialize c))); [|lia]. unfold parseRange. rewrite Atoi_itoa by (unfold int64; change two63 with 9223372036854775808; lia).
    destruct (Z.ltb_spec (c_SendBuffer (initialize c)) 0); [lia|]. destruct (Z.ltb_spec 100000 (c_SendBuffer (initialize c))); [lia|reflexivity].
  - unfold stream_setup. rewrite E1. unfold NewTicker, bind. unfold Second, Millisecond, Microsecond in HS. destruct (Z.leb_spec (c_StatsInterval (initialize c)) 0); [lia|reflexivity].
Qed.
End Roundtrip.
Print Assumptions C54_filter_added_to_parameters.
Print Assumptions C54_filter_roundtrip.
Print Assumptions C54_other_parameters_kept.
Print Assumptions C54_stream_client_filter.
Print Assumptions C55_client_configuration_reaches_server.

(** Strings of any bytes survive: what was put under a key is what is read under it. *)
Theorem C54_parameters_roundtrip :
  forall v k, NoDup (map_keys v) -> values (Query_of (Encode v)) k = values v k.
Proof. intros v k H. apply values_Query_Encode. exact H. Qed.
Print Assumptions C54_parameters_roundtrip.

(** Durations survive being written and read, over the whole range of the type. *)
Theorem C54_duration_roundtrip :
  forall float_part, float_exact float_part -> forall d, int64 d -> ParseDuration float_part (DurationString d) = Some d.
Proof. intros fl H d Hd. apply ParseDuration_String; assumption. Qed.
Print Assumptions C54_duration_roundtrip.

Definition demo_filter : @Filter unit :=
  MkFilter ["a b"; ""; "x&y=z"] ["01H;%2B+"] "caf" true false (Some (-1500)) false true "[" (Some tt).
Example C54_instance :
  parseFilter (RE:=unit) exact_part (encodeFilter demo_filter "n=3&sendbuf=7") =
    MkFilter ["a b"; ""; "x&y=z"] ["01H;%2B+"] "caf" true false (Some (-1500)) false true "[" None /\
  encodeFilter demo_filter "n=3" =
   "active=true&category=caf&errored=true&id=01H%3B%252B%2B&min=-1.5%C2%B5s&n=3&q=%5B&source=a+b&source=&source=x%26y%3Dz" /\
  (forall k, In k filter_params -> values (Query_of "n=3&sendbuf=7") k = []) /\ float_exact exact_part.
Proof.
  split; [vm_compute; reflexivity|]. split; [vm_compute; reflexivity|]. split; [|exact exact_part_ok].
  intros k Hk. cbn in Hk. repeat destruct Hk as [<-|Hk]; try (vm_compute; reflexivity). contradiction.
Qed.

(** Finding: a flag is set by any value of its parameter, "false" included. *)
Theorem C54_flag_false_refuted :
  forall (RE : Type) fl x, IsActive (@parseFilter RE fl ("active=" ++ QueryEscape x)) = true.
Proof.
  intros RE fl x. unfold parseFilter. cbn [IsActive]. rewrite (vHas_values _ _ (good_Query _)).
  change ("active=" ++ QueryEscape x)%string with (join_amp (map text_of [("active", x)])).
  unfold Query_of. rewrite split_join; [|discriminate|].
  - cbn [map fold_left]. change (text_of ("active", x)) with (pair_text "active" x). rewrite parse_text. reflexivity.
  - repeat constructor. cbn. apply escape_no_separator. unfold separator. auto.
Qed.
Print Assumptions C54_flag_false_refuted.

(** ** C55 *)
(** the values a parameter is clamped into: [def] if it cannot be parsed *)
Definition in_range (min def max : Z) (parsed : option Z) (v : Z) : Prop :=
  min <= v <= max /\ (parsed = None -> v = def) /\ (forall n, parsed = Some n -> v = Z.max min (Z.min n max)).

Lemma parseRange_spec s parse min def max : min <= def <= max -> in_range min def max (parse s) (parseRange s parse min def max).
Proof.
  intros H. unfold in_range, parseRange. destruct (parse s) as [n|]; [|repeat split; auto; try lia; discriminate].
  destruct (Z.ltb_spec n min); [repeat split; try lia; try discriminate; intros ? [= <-]; lia|].
  destruct (Z.ltb_spec max n); repeat split; try lia; try discriminate; intros ? [= <-]; lia.
Qed.

Theorem C55_limit_in_range :
  forall (RE : Type) fl raw, in_range 1 10 250 (Atoi (vGet (Query_of raw) "n")) (req_Limit (@search_request RE fl raw)).
Proof. intros. apply parseRange_spec. unfold SearchLimitMin, SearchLimitDefault, SearchLimitMax. lia. Qed.
Print Assumptions C55_limit_in_range.

Theorem C55_send_buffer_in_range :
  forall raw, in_range 0 100 100000 (Atoi (vGet (Query_of raw) "sendbuf")) (stream_send_buffer raw).
Proof. intros. apply parseRange_spec. lia. Qed.
Print Assumptions C55_send_buffer_in_range.

Lemma parse_all_in fl bs d : In d (parse_all fl bs) <-> exists s, In s bs /\ ParseDuration fl s = Some d.
Proof.
  induction bs as [|s bs IH]; cbn [parse_all].
  - split; [intros []|intros (? & [] & _)].
  - destruct (ParseDuration fl s) as [d'|] eqn:E; cbn [In]; rewrite IH; split.
    + intros [<-|(s' & H & P)]; [exists s; auto|exists s'; auto].
    + intros (s' & [<-|H] & P); [left; congruence|right; exists s'; auto].
    + intros (s' & H & P); exists s'; auto.
    + intros (s' & [<-|H] & P); [congruence|exists s'; auto].
Qed.

(** The bucketing consists of 0 and the parameters that parse; it is ascending from 0 when
    none of them is negative, and empty (so that Normalize picks the default) when none parses. *)
Theorem C55_bucketing :
  forall fl bs, let ds := parseBucketing fl bs in
  (forall d, In d ds <-> (exists s, In s bs /\ ParseDuration fl s = Some d) \/ (d = 0 /\ ds <> [])) /\
  (ds = [] <-> forall s, In s bs -> ParseDuration fl s = None) /\
  ((forall s d, In s bs -> ParseDuration fl s = Some d -> 0 <= d) -> StronglySorted Z.le ds /\ (ds <> [] -> nth 0 ds 1 = 0)).
Proof.
  intros fl bs ds.
  assert (P : Permutation (sort_durations (parse_all fl bs)) (parse_all fl bs)) by apply isort_perm.
  assert (O : StronglySorted Z.le (sort_durations (parse_all fl bs))).
  { pose proof (isort_in_order Z.ltb (parse_all fl bs) zltb_strict_weak) as H. unfold in_order in H. fold sort_durations in H.
    revert H. generalize (sort_durations (parse_all fl bs)). induction l as [|a l IH]; intros H; constructor; inversion H; subst; auto.
    match goal with H : Forall _ l |- _ => eapply Forall_impl; [|exact H] end. intros y Hy. cbn beta in Hy. apply Z.ltb_ge in Hy. exact Hy. }
  assert (I : forall d, In d (sort_durations (parse_all fl bs)) <-> exists s, In s bs /\ ParseDuration fl s = Some d).
  { intros d. rewrite <- parse_all_in. split; apply Permutation_in; [exact P|apply Permutation_sym; exact P]. }
  unfold ds, parseBucketing. destruct (sort_durations (parse_all fl bs)) as [|a l] eqn:E.
  - split; [|split].
    + intros d. specialize (I d). cbn [In] in *. split; [tauto|]. intros [H|[_ H]]; [apply I; exact H|congruence].
    + split; [|reflexivity]. intros _ s Hs. destruct (ParseDuration fl s) as [d|] eqn:E2; [|reflexivity]. exfalso. apply (I d). exists s; auto.
    + intros _. split; [constructor|congruence].
  - assert (A : exists s, In s bs /\ ParseDuration fl s = Some a) by (apply I; left; reflexivity).
    assert (NN : ~ (forall s, In s bs -> ParseDuration fl s = None)) by (destruct A as (s & H1 & H2); intros C; rewrite C in H2 by exact H1; discriminate).
    destruct (Z.eqb_spec a 0) as [->|N].
    + split; [|split].
      * intros d. rewrite I. split; [tauto|]. intros [H|[-> _]]; [exact H|exact A].
      * split; [discriminate|tauto].
      * intros _. split; [exact O|reflexivity].
    + split; [|split].
      * intros d. change (In d (0 :: a :: l)) with (0 = d \/ In d (a :: l)). rewrite I. split.
        -- intros [<-|H]; [right; split; [reflexivity|discriminate]|left; exact H].
        -- intros [H|[-> _]]; [right; exact H|left; reflexivity].
      * split; [discriminate|tauto].
      * intros Hpos. assert (Ha : 0 <= a) by (destruct A as (s & H1 & H2); eapply Hpos; eassumption).
        split; [|reflexivity]. constructor; [exact O|]. inversion O as [|? ? O1 O2]; subst. constructor; [exact Ha|].
        eapply Forall_impl; [|exact O2]. cbn beta. intros; lia.
Qed.
Print Assumptions C55_bucketing.

Example C55_instance :
  parseBucketing exact_part ["1ms"; "x"; "5s"; "100us"] = [0; 100000; 1000000; 5000000000] /\
  req_Limit (@search_request unit exact_part "n=1000&b=1s") = 250 /\ req_Limit (@search_request unit exact_part "n=abc") = 10 /\
  req_Limit (@search_request unit exact_part "n=-4") = 1 /\ stream_send_buffer "sendbuf=-1" = 0 /\ stream_send_buffer "" = 100 /\
  stream_send_buffer (stream_query (MkStreamClient None "host" 5000 None 0 0) demo_filter "") = 5000.
Proof. vm_compute. repeat split. Qed.

(** Finding: a bucketing with a negative bucket starts with 0 all the same, so it is not ascending. *)
Theorem C55_negative_bucket_refuted : parseBucketing exact_part ["-1s"; "1s"] = [0; - Second; Second].
Proof. vm_compute. reflexivity. Qed.
Print Assumptions C55_negative_bucket_refuted.

(** Finding: a client that asks for no buffer gets the server's default of 100. *)
Theorem C55_zero_send_buffer_refuted :
  forall (RE : Type) c (f : @Filter RE) raw, c_SendBuffer c <= 0 -> values (Query_of raw) "sendbuf" = [] ->
  c_SendBuffer (initialize c) = 0 /\ stream_send_buffer (stream_query c f raw) = 100.
Proof.
  intros RE c f raw H Hr. assert (E : c_SendBuffer (initialize c) = 0).
  { cbn [initialize c_SendBuffer]. unfold clamp_buffer. destruct (Z.ltb_spec (c_SendBuffer c) 0); [reflexivity|].
    destruct (Z.ltb_spec 100000 (c_SendBuffer c)); lia. }
  split; [exact E|]. destruct (C55_client_configuration_reaches_server exact_part exact_part_ok c f raw) as (_ & -> & _). rewrite E.
  change (0 =? 0) with true. cbv iota. unfold stream_send_buffer, vGet. rewrite Hr. reflexivity.
Qed.
Print Assumptions C55_zero_send_buffer_refuted.

(** Finding: the stream handler panics exactly when the stats parameter is a duration that is
    not positive. *)
Theorem C55_stats_interval_panics :
  forall (RE : Type) fl raw,
  @stream_setup RE fl raw = Panic <-> exists d, ParseDuration fl (vGet (Query_of raw) "stats") = Some d /\ d <= 0.
Proof.
  intros RE fl raw. unfold stream_setup, stream_stats_interval, parseDefault, NewTicker.
  destruct (ParseDuration fl (vGet (Query_of raw) "stats")) as [d|].
  - destruct (Z.leb_spec d 0); cbn [bind]; split; try discriminate; try (intros (d' & [= <-] & H'); lia); eauto.
  - cbn. split; [discriminate|]. intros (d & [=] & _).
Qed.
Print Assumptions C55_stats_interval_panics.
Theorem C55_stats_interval_refuted : @stream_setup unit exact_part "stats=0s" = Panic.
Proof. vm_compute. reflexivity. Qed.
Print Assumptions C55_stats_interval_refuted.

(** ** C60 *)
Theorem C60_initialized_configuration :
  forall c, let i := initialize c in
  0 <= c_SendBuffer i <= 100000 /\ c_SendBuffer i = Z.max 0 (Z.min (c_SendBuffer c) 100000) /\
  (c_RetryInterval c = 0 -> c_RetryInterval i = 3 * Second) /\
  (c_RetryInterval c <> 0 -> c_RetryInterval i = Z.max (1 * Second) (Z.min (c_RetryInterval c) (60 * Second))) /\
  (c_StatsInterval c = 0 -> c_StatsInterval i = 10 * Second) /\
  (c_StatsInterval c <> 0 -> c_StatsInterval i = Z.max (1 * Second) (Z.min (c_StatsInterval c) (60 * Second))) /\
  1 * Second <= c_RetryInterval i <= 60 * Second /\ 1 * Second <= c_StatsInterval i <= 60 * Second /\
  (c_URI c = "" -> c_URI i = "") /\
  (c_URI c <> "" -> exists rest, c_URI i = ("http" ++ rest)%string) /\
  (forall rest, c_URI c = ("http" ++ rest)%string -> c_URI i = c_URI c) /\
  (c_URI c <> "" -> (forall rest, c_URI c <> ("http" ++ rest)%string) -> c_URI i = ("http://" ++ c_URI c)%string) /\
  c_HTTPClient i <> None /\ c_OnRead i <> None.
Proof.
  intros c i. unfold i. cbn [initialize c_SendBuffer c_RetryInterval c_StatsInterval c_URI c_HTTPClient c_OnRead].
  assert (CL : forall def v, 0 < def -> 1 * Second <= def <= 60 * Second ->
     (v = 0 -> clamp def (1 * Second) (60 * Second) v = def) /\
     (v <> 0 -> clamp def (1 * Second) (60 * Second) v = Z.max (1 * Second) (Z.min v (60 * Second))) /\
     1 * Second <= clamp def (1 * Second) (60 * Second) v <= 60 * Second).
  { intros def v Hd Hr. unfold clamp, Second, Millisecond, Microsecond in *. destruct (Z.eqb_spec v 0); [repeat split; try lia|].
    repeat match goal with |- context [?x <? ?y] => destruct (Z.ltb_spec x y) end; repeat split; try lia. }
  destruct (CL (3 * Second) (c_RetryInterval c)) as (A1 & A2 & A3); [unfold Second, Millisecond, Microsecond; lia..|].
  destruct (CL (10 * Second) (c_StatsInterval c)) as (B1 & B2 & B3); [unfold Second, Millisecond, Microsecond; lia..|].
  assert (SB : clamp_buffer (c_SendBuffer c) = Z.max 0 (Z.min (c_SendBuffer c) 100000)).
  { unfold clamp_buffer. repeat match goal with |- context [?x <? ?y] => destruct (Z.ltb_spec x y) end; lia. }
  split; [rewrite SB; lia|]. split; [exact SB|]. do 4 (split; [assumption|]). split; [exact A3|]. split; [exact B3|].
  assert (HP : forall s, HasPrefix s "http" = true <-> exists r, s = ("http" ++ r)%string) by (intros s; apply prefix_iff).
  split; [intros ->; reflexivity|]. split; [|split; [|split; [|split]]].
  - intros N. destruct (String.eqb_spec (c_URI c) ""); [contradiction|]. cbn [negb andb]. destruct (HasPrefix (c_URI c) "http") eqn:E; cbn [negb].
    + apply HP. exact E.
    + exists ("://" ++ c_URI c)%string. reflexivity.
  - intros rest E. assert (HasPrefix (c_URI c) "http" = true) as -> by (apply HP; exists rest; exact E). rewrite andb_false_r. reflexivity.
  - intros N H. destruct (String.eqb_spec (c_URI c) ""); [contradiction|]. cbn [negb andb]. destruct (HasPrefix (c_URI c) "http") eqn:E; cbn [negb]; [|reflexivity].
    apply HP in E as [r E]. exfalso. eapply H. exact E.
  - destruct (c_HTTPClient c); discriminate.
  - destruct (c_OnRead c); discriminate.
Qed.
Print Assumptions C60_initialized_configuration.

Theorem C60_initializing_again_changes_nothing : forall c, initialize (initialize c) = initialize c.
Proof.
  intros c. destruct (C60_initialized_configuration c) as (S0 & _ & _ & _ & _ & _ & R & T & U1 & U2 & _).
  destruct (C60_initialized_configuration (initialize c)) as (_ & S & _ & R2 & _ & T2 & _ & _ & V1 & _ & V3 & _).
  set (i := initialize c) in *. unfold Second, Millisecond, Microsecond in *.
  assert (X : forall a b, c_HTTPClient a = c_HTTPClient b -> c_URI a = c_URI b -> c_SendBuffer a = c_SendBuffer b -> c_OnRead a = c_OnRead b ->
    c_RetryInterval a = c_RetryInterval b -> c_StatsInterval a = c_StatsInterval b -> a = b) by (intros [] []; cbn; intros; subst; reflexivity).
  apply X.
  - unfold i, initialize. cbn. destruct (c_HTTPClient c); reflexivity.
  - destruct (string_dec (c_URI c) "") as [N|N].
    + rewrite (V1 (U1 N)). symmetry. exact (U1 N).
    + destruct (U2 N) as [r Hr]. exact (V3 r Hr).
  - lia.
  - unfold i, initialize. cbn. destruct (c_OnRead c); reflexivity.
  - rewrite R2 by lia. lia.
  - rewrite T2 by lia. lia.
Qed.
Print Assumptions C60_initializing_again_changes_nothing.

Example C60_instance :
  initialize (MkStreamClient None "localhost:8080" (-5) None 100 (1000 * Second)) =
    MkStreamClient (Some tt) "http://localhost:8080" 0 (Some tt) (1 * Second) (60 * Second).
Proof. vm_compute. reflexivity. Qed.

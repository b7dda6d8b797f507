(** C90: JSON text. *)
From Verif Require Import Go L_List M_Strings L_Strings M_Types M_Filter M_Stats M_Search M_Web M_Json S_Json P_Json M_JsonText S_JsonText L_JsonText L_JsonRead L_JsonWrite D_Demo P_JsonFindings.
Open Scope list_scope.
Open Scope string_scope.

(** Decoding reads what the grammar of JSON says a text means: the value at the start of the
    text, and only if there is one. *)
Theorem C90_reads_the_grammar :
  (forall s v r, decode s = Some (v, r) -> exists w p, white w /\ s = w ++ p ++ r /\ value_text p v) /\
  (forall w p v r, white w -> value_text p v -> (is_number v -> ends_number r) -> decode (w ++ p ++ r) = Some (v, r)) /\
  (forall s v v', value_text s v -> value_text s v' -> v = v').
Proof. split; [exact decode_sound|]. split; [intros w p v r; apply decode_complete|exact value_text_fun]. Qed.

(** What is written, indented or not, is JSON for that value and is read back as that value,
    whatever follows it. *)
Theorem C90_written_reads_back :
  forall short ind v, writable_json v ->
    value_text (text short ind v) v /\
    forall rest, (is_number v -> ends_number rest) -> decode (text short ind v ++ rest) = Some (v, rest).
Proof.
  intros short ind v W. assert (T : value_text (text short ind v) v) by (apply text_value; [exact valid_unchanged|exact W]).
  split; [exact T|]. intros rest H. apply (decode_complete "" _ rest v white_nil T H).
Qed.

(** If an object or array is cut off anywhere, reading it is an error. *)
Theorem C90_cut_off_is_an_error :
  forall short ind v, writable_json v -> ~ is_number v ->
  forall p x, text short ind v = p ++ x -> x <> "" -> decode p = None.
Proof.
  intros short ind v W N p x E Hx. destruct (C90_written_reads_back short ind v W) as [T _]. rewrite E in T. exact (truncated p x v T N Hx).
Qed.

(** Values written one after another, in either format, are read back one after another. *)
Lemma text_nonempty short ind v : writable_json v -> exists a s, text short ind v = String a s /\ is_space a = false.
Proof.
  intros W. destruct (C90_written_reads_back short ind v W) as [T _]. pose proof (value_first _ _ T) as F.
  destruct (text short ind v) as [|a s]; [destruct F|]. exists a, s. split; [reflexivity|apply F].
Qed.
Theorem C90_outputs_read_back :
  forall short ind vs, Forall writable_json vs -> decode_all (output short ind vs) = Some vs.
Proof.
  intros short ind vs W. unfold decode_all.
  assert (G : forall fuel pre, white pre -> (length vs < fuel)%nat -> decode_all_ fuel (pre ++ output short ind vs) = Some vs).
  { induction W as [|v vs Wv W IH]; intros fuel pre Hpre L; (destruct fuel as [|n]; [cbn in L; lia|]); cbn [output decode_all_].
    - rewrite skip_white by exact Hpre. reflexivity.
    - unfold encoded. rewrite skip_white by exact Hpre. destruct (text_nonempty short ind v Wv) as (a & s & E & Ha). destruct (C90_written_reads_back short ind v Wv) as [T _].
      rewrite skip_nonspace by (rewrite E; exact Ha).
      assert (Q : is_empty ((text short ind v ++ String newline "") ++ output short ind vs) = false) by (rewrite E; reflexivity). rewrite Q, sapp_assoc.
      rewrite (decode_complete pre _ (String newline "" ++ output short ind vs) v Hpre T).
      + rewrite IH; [reflexivity|split; [right; right; left; reflexivity|exact Logic.I]|cbn in L; lia].
      + intros _. cbn. repeat split; try discriminate. cbv. intros [? ?]; congruence. }
  apply (G _ "" white_nil). clear G. induction W as [|v vs Wv W IH]; cbn [output length]; [cbn; lia|]. unfold encoded. rewrite !str_length_app. cbn. lia.
Qed.

(** Without indentation every value is on a line of its own, whatever its strings contain: the
    output has as many lines as values, and a value has no control characters. *)
Theorem C90_one_value_per_line :
  forall short vs, Forall writable_json vs ->
    lines (output short None vs) = map (text short None) vs /\
    Forall (fun v => all_bytes_in (fun n => 32 <= n)%Z (text short None v)) vs.
Proof.
  intros short vs W. split.
  - induction W as [|v vs Wv W IH]; [reflexivity|]. cbn [output map]. unfold encoded. rewrite sapp_assoc. change (String newline "" ++ output short None vs) with (String newline (output short None vs)).
    rewrite lines_one by (apply text_visible; exact Wv). rewrite IH. reflexivity.
  - eapply Forall_impl; [|exact W]. intros v Wv. exact (text_visible short v Wv).
Qed.

(** *** What trc writes *)
Lemma jstr_writable s : writable_json (jstr s).
Proof. constructor. apply (to_utf8_valid (String.length s)). lia. Qed.
Definition writable_opt (o : option json) : Prop := match o with Some j => writable_json j | None => True end.
Lemma obj_writable l : Forall (fun x => utf8 (fst x) /\ writable_opt (snd x)) l -> writable_json (obj l).
Proof.
  intros H. constructor. induction H as [|[k [j|]] l [H1 H2] H IH]; cbn [present]; [constructor| |exact IH]. constructor; [split; assumption|exact IH].
Qed.
Fixpoint ascii_only (s : string) : bool := match s with "" => true | String a s => Nat.ltb (byte a) 128 && ascii_only s end.
Lemma utf8_ascii s : ascii_only s = true -> utf8 s.
Proof. induction s as [|a s IH]; [constructor|]. cbn [ascii_only]. rewrite Bool.andb_true_iff. intros [H1 H2]. apply utf8_1; [apply one_spec; exact H1|auto]. Qed.
Lemma omit_writable b j : writable_json j -> writable_opt (omit b j).
Proof. destruct b; [intros _; exact Logic.I|auto]. Qed.
Lemma all_writable {A} (enc : A -> json -> Prop) l js : (forall x j, enc x j -> writable_json j) -> Forall2 enc l js -> Forall writable_json js.
Proof. intros H. induction 1; constructor; eauto. Qed.
Lemma slice_writable {A} (enc : A -> json -> Prop) l j : (forall x j, enc x j -> writable_json j) -> enc_slice enc l j -> writable_json j.
Proof. intros H [[_ ->]|(js & -> & F)]; constructor. eapply all_writable; eassumption. Qed.
Lemma slice_omit_writable {A} (enc : A -> json -> Prop) l j : (forall x j, enc x j -> writable_json j) -> enc_slice_omit enc l j -> writable_opt j.
Proof. intros H [[_ ->]|(_ & js & -> & F)]; [exact Logic.I|]. constructor. eapply all_writable; eassumption. Qed.
Lemma num_writable n j : enc_num n j -> writable_json j.
Proof. intros ->. constructor. Qed.
Lemma string_writable s j : enc_string s j -> writable_json j.
Proof. intros ->. apply jstr_writable. Qed.
Ltac each_field := apply obj_writable; repeat (apply Forall_cons; [split; [apply utf8_ascii; reflexivity|cbn [snd]]|]); try apply Forall_nil;
  repeat match goal with
  | |- writable_opt (Some _) => change (writable_json) with (writable_json); unfold writable_opt
  | |- writable_opt (omit _ _) => apply omit_writable
  | |- writable_opt (option_map _ ?o) => destruct o; [unfold writable_opt, option_map|exact Logic.I]
  | |- writable_json (jstr _) => apply jstr_writable
  | |- writable_json (JNum _) => apply wj_num
  | |- writable_json (JBool _) => apply wj_bool
  end.
Section Written.
Context {RE : Type}.
Variable time_text : Z -> option string.
Hypothesis times_valid : forall t s, time_text t = Some s -> utf8 s.
Lemma time_writable t j : enc_time time_text t j -> writable_json j.
Proof. intros (s & H & ->). constructor. eapply times_valid. exact H. Qed.
Lemma frame_writable f j : enc_frame f j -> writable_json j.
Proof. intros ->. each_field. Qed.
Lemma event_writable e j : enc_event time_text e j -> writable_json j.
Proof. intros (w & st & H1 & H2 & ->). each_field; [eapply time_writable; exact H1|eapply slice_omit_writable; [exact frame_writable|exact H2]]. Qed.
Lemma static_writable t j : enc_static time_text t j -> writable_json j.
Proof.
  intros (st & sec & ev & H1 & H2 & H3 & ->). each_field; [eapply time_writable; exact H1| |eapply slice_omit_writable; [exact event_writable|exact H3]].
  destruct sec as [[]|]; cbn in H2; try contradiction; [constructor|constructor; apply is_float_iff; exact H2|exact Logic.I].
Qed.
Lemma filter_writable (f : Filter RE) j : enc_filter f j -> writable_json j.
Proof. intros (s & i & H1 & H2 & ->). each_field; eapply slice_omit_writable; eauto using string_writable. Qed.
Lemma request_writable (r : SearchRequest RE) j : enc_request r j -> writable_json j.
Proof. intros (b & f & H1 & H2 & ->). each_field; [eapply slice_omit_writable; [exact num_writable|exact H1]|eapply filter_writable; exact H2]. Qed.
Lemma category_writable c j : enc_category_stats time_text c j -> writable_json j.
Proof. intros (n & o & w & H1 & H2 & H3 & ->). each_field; [eapply slice_writable; [exact num_writable|exact H1]|eapply time_writable; exact H2|eapply time_writable; exact H3]. Qed.
Lemma stats_writable s j : enc_stats time_text s j -> writable_json j.
Proof.
  intros (b & c & H1 & H2 & ->). each_field; [eapply slice_writable; [exact num_writable|exact H1]|].
  destruct H2 as [[_ ->]|(m & js & _ & F & ->)]; [constructor|]. constructor. induction F as [|kc kj m js [Hk Hc] F IH]; constructor; auto. split; [|eapply category_writable; exact Hc].
  rewrite Hk. apply (to_utf8_valid (String.length (fst kc))). lia.
Qed.
Lemma response_writable (w : wire_response RE) j : enc_response time_text w j -> writable_json j.
Proof.
  intros (r & s & t & st & p & H1 & H2 & H3 & H4 & H5 & ->). each_field.
  - destruct (wr_Request w); cbn in H1; [destruct H1 as (j & -> & H1); eapply request_writable; exact H1|subst r; exact Logic.I].
  - eapply slice_writable; [exact string_writable|exact H2].
  - eapply slice_writable; [exact static_writable|exact H3].
  - destruct (resp_Stats (wr_Response w)); cbn in H4; [destruct H4 as (j & -> & H4); eapply stats_writable; exact H4|subst st; exact Logic.I].
  - eapply slice_omit_writable; [exact string_writable|exact H5].
Qed.
Lemma data_writable (req : SearchRequest RE) w j : enc_data time_text req w j -> writable_json j.
Proof. intros (a & b & H1 & H2 & ->). each_field; [eapply request_writable; exact H1|eapply response_writable; exact H2]. Qed.
End Written.
Lemma object_not_number l : ~ is_number (obj l).
Proof. intros []. Qed.


Lemma read_written {A} (dec : json -> option A) short ind l rest : writable_json (obj l) ->
  read dec (text short ind (obj l) ++ rest) = dec (obj l) /\ forall p x, text short ind (obj l) = p ++ x -> x <> "" -> read dec p = None.
Proof.
  intros W. split.
  - unfold read. destruct (C90_written_reads_back short ind _ W) as [_ R]. rewrite R by (intros []). reflexivity.
  - intros p x E Hx. unfold read. rewrite (C90_cut_off_is_an_error short ind _ W (object_not_number l) p x E Hx). reflexivity.
Qed.

(** A request that the client sends reaches the server as it was sent, and one of which only a
    part arrives (the server reads at most 1 MB) is an error. *)
Theorem C90_request_text :
  forall (RE : Type) short (req : SearchRequest RE) j, enc_request req j ->
    (forall rest, read dec_request (text short None j ++ rest) = Some (sent_request req)) /\
    (forall p x, text short None j = p ++ x -> x <> "" -> read (@dec_request RE) p = None).
Proof.
  intros RE short req j E. pose proof (request_writable req j E) as W. pose proof (proj1 (proj2 (C56_request_roundtrip RE req)) j E) as D.
  destruct E as (b & f & _ & _ & ->). split; [intros rest; rewrite <- D|intros p x]; apply (read_written dec_request short None _ "" W) || apply (read_written dec_request short None _ rest W).
Qed.

(** The same for a trace, in a response, in a stream or in the output of the command. *)
Theorem C90_trace_text :
  forall time_text parse_time, times_read_back time_text parse_time -> times_are_text time_text ->
  forall short ind t j, enc_static time_text t j ->
    (forall rest, read (dec_static parse_time) (text short ind j ++ rest) = Some (sent_trace t)) /\
    (forall p x, text short ind j = p ++ x -> x <> "" -> read (dec_static parse_time) p = None) /\
    all_bytes_in (fun n => 32 <= n)%Z (text short None j).
Proof.
  intros tt pt Ht Hu short ind t j E. pose proof (static_writable tt Hu t j E) as W. pose proof (proj1 (proj2 (C56_trace_roundtrip tt pt Ht t)) j E) as D.
  pose proof (text_visible short j W) as V. destruct E as (a & b & c & _ & _ & _ & ->). split; [|split; [|exact V]].
  - intros rest. rewrite <- D. apply (read_written (dec_static pt) short ind _ rest W).
  - apply (read_written (dec_static pt) short ind _ "" W).
Qed.

(** A search through the client, with the text of request and response: it is the exchange of
    C56. *)
Theorem C90_search_text :
  forall (RE : Type) short short' time_text parse_time, times_are_text time_text ->
  forall (Compile : string -> RE + string) float_part Search req w,
    remote_text short short' time_text parse_time Compile float_part Search req w <->
    remote time_text parse_time Compile float_part Search req w.
Proof.
  intros RE short short' tt pt Hu C fp Se req w.
  assert (R1 : forall j, enc_request req j -> read (@dec_request RE) (text short None j) = dec_request j).
  { intros j E. pose proof (request_writable req j E) as W. destruct E as (b & f & _ & _ & ->). rewrite <- (str_app_nil_r (text _ _ _)). apply read_written. exact W. }
  assert (R2 : forall (rq : SearchRequest RE) ww j, enc_data tt rq ww j -> read (dec_data (RE:=RE) pt) (encoded short' (Some 0%nat) j) = dec_data pt j).
  { intros rq ww j E. pose proof (data_writable tt Hu rq ww j E) as W. destruct E as (a & b & _ & _ & ->). apply read_written. exact W. }
  unfold remote_text, remote. split; intros (body & req' & data & dur & answer & H1 & H2 & H3 & H4 & H5); exists body, req', data, dur, answer.
  - rewrite (R1 _ H1) in H2. rewrite (R2 _ _ _ H4) in H5. auto.
  - rewrite (R1 _ H1), (R2 _ _ _ H4). auto.
Qed.

(** Finding: what follows a request in the body is ignored, so that a body that is not JSON may
    be accepted. *)
Theorem C90_garbage_after_request_refuted :
  exists s req, read (@dec_request unit) s = Some req /\ forall v, ~ value_text s v.
Proof.
  exists "{""limit"":5} and garbage", (MkReq [] (MkFilter [] [] "" false false None false false "" None) 5 0). split; [reflexivity|].
  intros v H. pose proof (decode_complete "" _ "" v white_nil H (fun _ => Logic.I)) as E. vm_compute in E. discriminate.
Qed.

Definition demo_json : json :=
  JObj [("a<b", JArr [JNum (-12); JNull; JStr (String (chr 10) (String (chr 34) (String (chr 226) (String (chr 128) (String (chr 168) "!")))))]);
        ("f", JFloat "1.5e-7"); ("e", JArr []); ("o", JObj []); ("t", JBool true)].
Example C90_instance :
  writable_json demo_json /\ ~ is_number demo_json /\
  text false None demo_json = "{""a\u003cb"":[-12,null,""\n\""\u2028!""],""f"":1.5e-7,""e"":[],""o"":{},""t"":true}" /\
  times_are_text demo_time /\ (exists j, enc_static demo_time (demo_seven "x") j) /\
  decode "{""limit"":5" = None.
Proof.
  split; [|split; [intros []|split; [reflexivity|split; [|split; [|reflexivity]]]]].
  - constructor. repeat (apply Forall_cons; [split; [apply utf8_ascii; reflexivity|]|]); try apply Forall_nil; cbn [snd].
    + constructor. repeat (apply Forall_cons; [first [apply wj_num|apply wj_null|constructor]|]); try apply Forall_nil.
      match goal with |- utf8 ?s => change (utf8 (to_utf8 s)) end. apply (to_utf8_valid 6). cbn. lia.
    + constructor. apply is_float_iff. reflexivity.
    + constructor. constructor.
    + constructor. constructor.
    + constructor.
  - intros t s H. apply utf8_ascii. unfold demo_time in H. destruct (Z.eqb t 0); [injection H as <-; reflexivity|]. destruct (Z.eqb t 7); [injection H as <-; reflexivity|discriminate].
  - apply enc_static_ex. split; [discriminate|]. repeat constructor; discriminate.
Qed.

Print Assumptions C90_reads_the_grammar.
Print Assumptions C90_written_reads_back.
Print Assumptions C90_cut_off_is_an_error.
Print Assumptions C90_outputs_read_back.
Print Assumptions C90_one_value_per_line.
Print Assumptions C90_request_text.
Print Assumptions C90_trace_text.
Print Assumptions C90_search_text.
Print Assumptions C90_garbage_after_request_refuted.

(** C91: the text of an event stream. *)
From Verif Require Import Go L_List M_Strings L_Strings M_Types M_Filter M_Text M_Broker M_Json S_Json P_Json M_JsonText S_JsonText L_JsonText L_JsonRead L_JsonWrite P_JsonText M_StreamHttp S_StreamHttp L_StreamHttp P_StreamHttp M_EventSource S_EventSource L_EventSource D_Demo P_JsonFindings P_Search P_Filter.
Open Scope list_scope.
Open Scope string_scope.

(** Messages that are written one after another are all written without an error and are read
    back one after another, whatever their data. *)
Theorem C91_messages_arrive :
  forall es, Forall sendable es -> Forall (fun e => snd (send e) = true) es /\ messages (stream_text es) = es.
Proof.
  intros es H. split; [eapply Forall_impl; [|exact H]; intros e He; rewrite (send_lines e He); reflexivity|].
  destruct (cut_stream es (stream_text es) "" [] H) as (n & st & H1 & H2 & _ & H4); [rewrite str_app_nil_r; reflexivity|].
  unfold messages. rewrite H2. cbn [snd List.app]. apply firstn_all2. destruct (Nat.lt_ge_cases n (length es)) as [L|L]; [|exact L]. exfalso. specialize (H4 L).
  assert (Q : forall k, (String.length (stream_text (firstn k es)) <= String.length (stream_text es))%nat).
  { clear. induction es as [|e es IH]; intros [|k]; cbn [firstn stream_text]; try (cbn; lia). rewrite !str_length_app. specialize (IH k). lia. }
  specialize (Q (S n)). lia.
Qed.

(** Whatever text a server sends, every message that is read has data, and its type and its data
    are valid text: lines that are not are left out. *)
Theorem C91_any_text :
  forall s, Forall (fun m => m_data m <> "" /\ utf8 (m_type m) /\ utf8 (m_data m)) (messages s).
Proof.
  intros s. unfold messages.
  assert (K : forall ls p out, utf8 (p_type p) -> (forall d, p_data p = Some d -> utf8 d) ->
              Forall (fun m => m_data m <> "" /\ utf8 (m_type m) /\ utf8 (m_data m)) out ->
              Forall (fun m => m_data m <> "" /\ utf8 (m_type m) /\ utf8 (m_data m)) (snd (fold_left read_step ls (p, out)))).
  { assert (S0 : utf8 (p_type start) /\ forall d, p_data start = Some d -> utf8 d) by (split; [apply valid_iff; reflexivity|discriminate]). destruct S0 as [S1 S2].
    induction ls as [|l ls IH]; intros p out Hp Hd Ho; [exact Ho|]. cbn [fold_left]. unfold read_step at 2. destruct (read_field l) as [f v].
    destruct (valid f && valid v) eqn:V; cbn [negb]; [|apply IH; [exact S1|exact S2|exact Ho]].
    apply andb_prop in V as [_ V]. apply valid_iff in V.
    destruct (is_empty f && is_empty v).
    - apply IH; [exact S1|exact S2|]. apply Forall_app. split; [exact Ho|]. unfold complete. destruct (p_data p) as [[|c d]|] eqn:Ed; [constructor| |constructor].
      constructor; [|constructor]. cbn [m_type m_data]. split; [discriminate|]. split; [exact Hp|]. apply Hd. reflexivity.
    - destruct (String.eqb f "event"); [apply IH; cbn [p_type p_data]; assumption|].
      destruct (String.eqb f "data"); [|apply IH; cbn [p_type p_data]; assumption].
      apply IH; [exact Hp| |exact Ho]. cbn [p_data]. intros d [= <-]. destruct (p_data p) as [d|]; [|exact V].
      apply utf8_app; [apply Hd; reflexivity|]. apply (utf8_app (String newline "") v); [apply valid_iff; reflexivity|exact V]. }
  apply K; [apply valid_iff; reflexivity|discriminate|constructor].
Qed.
Print Assumptions C91_any_text.

(** Of a stream that is cut off anywhere, exactly the messages before the cut are read: the
    text has them all, and does not have all of the next one. *)
Theorem C91_cut_off :
  forall es p x, Forall sendable es -> stream_text es = p ++ x ->
    exists n, (n <= length es)%nat /\ messages p = firstn n es /\
      (exists y, p = stream_text (firstn n es) ++ y) /\
      ((n < length es)%nat -> (String.length p < String.length (stream_text (firstn (S n) es)))%nat).
Proof.
  intros es p x H E. destruct (cut_stream es p x [] H E) as (n & st & H1 & H2 & H3 & H4). exists n. split; [exact H1|]. split; [unfold messages; rewrite H2; reflexivity|]. split; assumption.
Qed.

(** *** What trc sends *)
Lemma json_sendable short ty v : writable_json v -> ty <> "" -> all_bytes_in (fun n => n <> 10 /\ n <> 13)%Z ty -> utf8 ty -> sendable (MkMsg ty (text short None v)).
Proof.
  intros W H1 H2 H3. unfold sendable. cbn [m_type m_data]. split; [exact H1|]. split; [exact H2|]. split; [exact H3|].
  split; [destruct (text_nonempty short None v W) as (a & s & -> & _); discriminate|]. split; [|apply text_utf8; exact W].
  eapply all_bytes_impl; [|exact (text_visible short v W)]. unfold visible_byte. intros; lia.
Qed.
Lemma whole_text short v : writable_json v -> whole (text short None v) = Some v.
Proof.
  intros W. destruct (C90_written_reads_back short None v W) as [_ R]. specialize (R "" (fun _ => Logic.I)). rewrite str_app_nil_r in R. unfold whole. rewrite R. reflexivity.
Qed.
Ltac type_ok := first [discriminate | apply utf8_ascii; reflexivity | cbv; repeat split; discriminate].

(** A trace with any texts, names and categories is a message that can be sent, and the client
    makes of it the trace that was sent. *)
Theorem C91_any_trace_can_be_sent :
  forall time_text parse_time, times_read_back time_text parse_time -> times_are_text time_text ->
  forall short init t j, enc_static time_text t j ->
    sendable (message_of short init (WTrace j)) /\
    wire_of (message_of short init (WTrace j)) = Some (WTrace j) /\ dec_static parse_time j = Some (sent_trace t).
Proof.
  intros tt pt Ht Hu short init t j E. pose proof (static_writable tt Hu t j E) as W. split; [apply json_sendable; [exact W|type_ok..]|].
  split; [|exact (proj1 (proj2 (C56_trace_roundtrip tt pt Ht t)) j E)]. cbn [message_of]. unfold wire_of. cbn [m_type m_data String.eqb Ascii.eqb Bool.eqb]. rewrite whole_text by exact W. reflexivity.
Qed.

(** The connection of C67, with its text: whatever part of the text has arrived, the client has
    read the events that were written, in order, up to some point, and no others. *)
Theorem C91_connection :
  forall (RE : Type) (Compile : string -> RE + string) MatchString time_text parse_time caps conn f own interval,
  times_read_back time_text parse_time -> times_are_text time_text ->
  forall s, conn_reachable Compile MatchString time_text parse_time caps conn f own interval s ->
  forall short init, init_data f (caps conn) init ->
    let written := (x_read s ++ x_wire s)%list in
    let ms := map (message_of short init) written in
    Forall sendable ms /\
    messages (stream_text ms) = ms /\ map wire_of ms = map Some written /\
    forall p x, stream_text ms = p ++ x -> exists n, map wire_of (messages p) = map Some (firstn n written).
Proof.
  intros RE Compile MatchString tt pt caps conn f own interval Ht Hu s R short init (fj & Hfj & Hinit) written ms.
  destruct (reachable_ok Compile MatchString tt pt Ht caps conn f own interval s R) as (_ & Hw & _).
  assert (Wi : writable_json init) by (subst init; apply obj_writable; repeat (apply Forall_cons; [split; [apply utf8_ascii; reflexivity|cbn [snd writable_opt]]|]); [eapply filter_writable; exact Hfj|constructor|constructor]).
  assert (G : Forall (fun e => sendable (message_of short init e) /\ wire_of (message_of short init e) = Some e) written).
  { unfold wire_ok in Hw. eapply Forall_impl; [|exact Hw]. intros [|j|j] He; cbn [message_of].
    - split; [apply json_sendable; [exact Wi|type_ok..]|reflexivity].
    - destruct He as (h1 & h2 & st & _ & _ & ->).
      assert (W : writable_json (enc_stream_stats st)) by (unfold enc_stream_stats; apply obj_writable; repeat (apply Forall_cons; [split; [apply utf8_ascii; reflexivity|constructor]|]); constructor).
      split; [apply json_sendable; [exact W|type_ok..]|]. unfold wire_of. cbn [m_type m_data String.eqb Ascii.eqb Bool.eqb]. rewrite whole_text by exact W. reflexivity.
    - destruct He as (t & He). destruct (C91_any_trace_can_be_sent tt pt Ht Hu short init t j He) as (S1 & S2 & _). split; assumption. }
  assert (S : Forall sendable ms) by (apply Forall_map; eapply Forall_impl; [|exact G]; intros e He; apply He).
  assert (M : map wire_of ms = map Some written).
  { unfold ms. rewrite map_map. apply map_ext_in. intros e He. apply (proj1 (Forall_forall _ _) G e He). }
  split; [exact S|]. split; [apply C91_messages_arrive; exact S|]. split; [exact M|].
  intros p x E. destruct (C91_cut_off ms p x S E) as (n & _ & H & _). exists n. rewrite H, <- !firstn_map, M. reflexivity.
Qed.

Definition demo_forged : StaticTrace :=
  MkStatic "s" "1" (String (chr 10) (String (chr 10) ("event: stats" ++ String (chr 10) "data: {}"))) 7 1 "" true false [MkEvent 7 (String (chr 13) "x") [] false].
Example C91_instance :
  sendable (MkMsg "init" (String newline (String newline "a:b"))) /\
  fst (send (MkMsg "init" (String newline (String newline "a:b")))) = "event: init" ++ String newline ("data" ++ String newline ("data" ++ String newline ("data: a:b" ++ String newline (String newline "")))) /\
  (exists j, enc_static demo_time demo_forged j) /\
  (exists j, init_data (no_filter : Filter string) 5 j).
Proof.
  split; [|split; [reflexivity|split]].
  - unfold sendable. cbn [m_type m_data]. split; [discriminate|]. split; [cbv; repeat split; discriminate|]. split; [apply utf8_ascii; reflexivity|]. split; [discriminate|]. split; [cbv; repeat split; discriminate|apply utf8_ascii; reflexivity].
  - apply enc_static_ex. split; [discriminate|]. repeat constructor; discriminate.
  - eexists. exists (obj []). split; [|reflexivity]. exists None, None. repeat split; left; split; reflexivity.
Qed.

Print Assumptions C91_messages_arrive.
Print Assumptions C91_cut_off.
Print Assumptions C91_any_trace_can_be_sent.
Print Assumptions C91_connection.

(** C56: searching through the client. *)
From Verif Require Import Go L_List M_Strings M_Types M_Frame M_RingBuf M_RingBufs M_Filter M_Stats M_Search M_Humanize M_Text M_Url M_Trace
     M_Web S_Web S_Trace S_Filter S_Order L_Order S_Search S_Collector L_RingBufs L_Filter L_Trace L_Stats L_Search L_Url P_Url P_Filter P_Search P_Web D_Demo M_Json S_Json.
Open Scope string_scope.
Open Scope list_scope.
Open Scope Z_scope.

(** *** Strings *)
Lemma between_spec lo a hi : between lo (nat_of_ascii a) hi = true <-> in_range lo a hi.
Proof. unfold between, in_range. rewrite Bool.andb_true_iff, !Nat.leb_le. reflexivity. Qed.
Lemma second3_spec a b c : second3 a b && cont c = true <-> well_formed3 a b c.
Proof.
  unfold second3, cont, byte. rewrite Bool.andb_true_iff, between_spec. unfold well_formed3, in_range.
  destruct (Nat.eqb_spec (nat_of_ascii a) 224); [rewrite between_spec; unfold in_range; lia|].
  destruct (Nat.eqb_spec (nat_of_ascii a) 237); [rewrite between_spec; unfold in_range; lia|].
  rewrite Bool.andb_true_iff, !between_spec. unfold in_range. lia.
Qed.
Lemma second4_spec a b c d : second4 a b && cont c && cont d = true <-> well_formed4 a b c d.
Proof.
  unfold second4, cont, byte. rewrite !Bool.andb_true_iff, !between_spec. unfold well_formed4, in_range.
  destruct (Nat.eqb_spec (nat_of_ascii a) 240); [rewrite between_spec; unfold in_range; lia|].
  destruct (Nat.eqb_spec (nat_of_ascii a) 244); [rewrite between_spec; unfold in_range; lia|].
  rewrite Bool.andb_true_iff, !between_spec. unfold in_range. lia.
Qed.
Lemma two_spec a b : between 194 (byte a) 223 && cont b = true <-> well_formed2 a b.
Proof. unfold cont, byte, well_formed2. rewrite Bool.andb_true_iff, !between_spec. reflexivity. Qed.
Lemma one_spec a : Nat.ltb (byte a) 128 = true <-> in_range 0 a 127.
Proof. unfold byte, in_range. rewrite Nat.ltb_lt. lia. Qed.
Lemma not_true b : b <> true -> b = false.
Proof. destruct b; congruence. Qed.
Ltac no S := match goal with |- context [if ?b then _ else _] => rewrite (not_true b) by (intros Q; apply S in Q; unfold well_formed2, well_formed3, well_formed4, in_range in *; lia) end.
Ltac yes S := match goal with |- context [if ?b then _ else _] => replace b with true by (symmetry; apply S; assumption) end.
Lemma valid_unchanged s : utf8 s -> to_utf8 s = s.
Proof.
  induction 1 as [|a s H _ IH|a b s H _ IH|a b c s H _ IH|a b c d s H _ IH]; cbn [to_utf8].
  - reflexivity.
  - yes one_spec. rewrite IH. reflexivity.
  - no one_spec. yes two_spec. rewrite IH. reflexivity.
  - no one_spec. no two_spec. yes second3_spec. rewrite IH. reflexivity.
  - no one_spec. no two_spec. no second3_spec. yes second4_spec. rewrite IH. reflexivity.
Qed.
Lemma utf8_replacement s : utf8 s -> utf8 (replacement ++ s).
Proof. intros H. apply (utf8_3 (ascii_of_nat 239) (ascii_of_nat 191) (ascii_of_nat 189)); [|exact H]. unfold well_formed3, in_range. rewrite !nat_ascii_embedding by lia. lia. Qed.
Lemma to_utf8_valid : forall n s, (String.length s <= n)%nat -> utf8 (to_utf8 s).
Proof.
  induction n as [|n IH]; intros s L; [destruct s; [constructor|cbn in L; lia]|].
  destruct s as [|a r]; [constructor|]. cbn [String.length] in L.
  assert (Hr : utf8 (replacement ++ to_utf8 r)) by (apply utf8_replacement, IH; lia). cbn [to_utf8].
  destruct (Nat.ltb (byte a) 128) eqn:E1; [apply one_spec in E1; apply utf8_1; [exact E1|apply IH; lia]|].
  destruct r as [|b r2]; [exact Hr|]. cbn [String.length] in L.
  destruct (between 194 (byte a) 223 && cont b) eqn:E2; [apply two_spec in E2; apply utf8_2; [exact E2|apply IH; lia]|].
  destruct r2 as [|c r3]; [exact Hr|]. cbn [String.length] in L.
  destruct (second3 a b && cont c) eqn:E3; [apply second3_spec in E3; apply utf8_3; [exact E3|apply IH; lia]|].
  destruct r3 as [|d r4]; [exact Hr|]. cbn [String.length] in L.
  destruct (second4 a b && cont c && cont d) eqn:E4; [apply second4_spec in E4; apply utf8_4; [exact E4|apply IH; lia]|exact Hr].
Qed.

(** *** Fields *)
Definition oget (o : option json) : json := match o with Some j => j | None => JNull end.
Fixpoint pick (k : string) (l : list (string * option json)) : json :=
  match l with [] => JNull | (k', o) :: l => if String.eqb k k' then oget o else pick k l end.
Fixpoint fresh_keys (l : list string) : bool :=
  match l with [] => true | k :: l => negb (existsb (String.eqb k) l) && fresh_keys l end.
Lemma pick_absent k : forall l, existsb (String.eqb k) (map fst l) = false -> pick k l = JNull.
Proof. induction l as [|[k' o] l IH]; [reflexivity|]. cbn [map fst existsb pick]. intros H. apply Bool.orb_false_iff in H. destruct H as [-> H]. exact (IH H). Qed.
Lemma field_present k : forall l, fresh_keys (map fst l) = true -> field k (present l) = pick k l.
Proof.
  induction l as [|[k' o] l IH]; [reflexivity|]. cbn [map fst fresh_keys]. intros H. apply Bool.andb_true_iff in H. destruct H as [H1 H2]. specialize (IH H2).
  apply Bool.negb_true_iff in H1. cbn [pick]. destruct o as [j|]; cbn [present field oget].
  - rewrite IH. destruct (String.eqb_spec k k') as [->|n]; [rewrite (pick_absent _ _ H1); reflexivity|]. destruct (pick k l); reflexivity.
  - rewrite IH. destruct (String.eqb_spec k k') as [->|n]; [apply pick_absent; exact H1|reflexivity].
Qed.
Lemma dec_all_ok {A B} (enc : A -> json -> Prop) dec (g : A -> B) : forall l js, (forall x j, In x l -> enc x j -> dec j = Some (g x)) -> Forall2 enc l js -> dec_all dec js = Some (map g l).
Proof.
  induction l as [|x l IH]; intros js H F; inversion F as [|? j ? js' E F']; subst; [reflexivity|]. cbn [dec_all map].
  rewrite (H x j (or_introl eq_refl) E). cbn [obind]. rewrite (IH js'); [reflexivity| |exact F']. intros y j' Hy. apply H. right. exact Hy.
Qed.
Lemma dec_slice_ok {A B} (enc : A -> json -> Prop) dec (g : A -> B) l j : (forall x j, In x l -> enc x j -> dec j = Some (g x)) -> enc_slice enc l j -> dec_slice dec j = Some (map g l).
Proof. intros H [[-> ->]|(js & -> & F)]; [reflexivity|]. exact (dec_all_ok enc dec g l js H F). Qed.
Lemma dec_slice_omit_ok {A B} (enc : A -> json -> Prop) dec (g : A -> B) l j :
  (forall x j, In x l -> enc x j -> dec j = Some (g x)) -> enc_slice_omit enc l j -> dec_slice dec (oget j) = Some (map g l).
Proof. intros H [[-> ->]|(_ & js & -> & F)]; [reflexivity|]. exact (dec_all_ok enc dec g l js H F). Qed.
Lemma dec_string_jstr s : dec_string (jstr s) = Some (to_utf8 s).
Proof. reflexivity. Qed.
Lemma dec_string_omit s : dec_string (oget (omit (is_empty s) (jstr s))) = Some (to_utf8 s).
Proof. destruct s; reflexivity. Qed.
Lemma dec_bool_omit b : dec_bool (oget (omit (negb b) (JBool true))) = Some b.
Proof. destruct b; reflexivity. Qed.
Lemma dec_num_omit n : dec_num (oget (omit (n =? 0) (JNum n))) = Some n.
Proof. destruct (Z.eqb_spec n 0) as [->|]; reflexivity. Qed.
Lemma dec_min m : dec_pointer dec_num (oget (option_map JNum m)) = Some m.
Proof. destruct m; reflexivity. Qed.
Lemma enc_string_ok s j : enc_string s j -> dec_string j = Some (to_utf8 s).
Proof. intros ->. reflexivity. Qed.
Lemma enc_num_ok n j : enc_num n j -> dec_num j = Some n.
Proof. intros ->. reflexivity. Qed.
Lemma dec_nums l j : enc_slice enc_num l j -> dec_slice dec_num j = Some l.
Proof. intros H. rewrite (dec_slice_ok enc_num dec_num (fun x => x) l j); [rewrite map_id; reflexivity|intros x j' _; apply enc_num_ok|exact H]. Qed.
Lemma dec_nums_omit l j : enc_slice_omit enc_num l j -> dec_slice dec_num (oget j) = Some l.
Proof. intros H. rewrite (dec_slice_omit_ok enc_num dec_num (fun x => x) l j); [rewrite map_id; reflexivity|intros x j' _; apply enc_num_ok|exact H]. Qed.
Lemma dec_strings l j : enc_slice enc_string l j -> dec_slice dec_string j = Some (map to_utf8 l).
Proof. apply dec_slice_ok. intros x j' _. apply enc_string_ok. Qed.
Lemma dec_strings_omit l j : enc_slice_omit enc_string l j -> dec_slice dec_string (oget j) = Some (map to_utf8 l).
Proof. apply dec_slice_omit_ok. intros x j' _. apply enc_string_ok. Qed.

(** Looking up the fields of an object with different keys *)
Ltac fields := unfold obj; cbn [dec_obj obind]; rewrite !field_present by reflexivity;
  repeat match goal with |- context [pick ?k (?x :: ?l)] => let r := eval cbn [pick String.eqb Ascii.eqb Bool.eqb] in (pick k (x :: l)) in change (pick k (x :: l)) with r end;
  cbn [oget].

Section Codec.
Context {RE : Type}.
Variable time_text : Z -> option string.
Variable parse_time : string -> option Z.
Hypothesis time_ok : forall t s, time_text t = Some s -> parse_time s = Some t.
Lemma dec_time_ok t j : enc_time time_text t j -> dec_time parse_time j = Some t.
Proof. intros (s & E & ->). exact (time_ok t s E). Qed.
Lemma frame_ok f j : enc_frame f j -> dec_frame j = Some (sent_frame f).
Proof. intros ->. unfold dec_frame. fields. reflexivity. Qed.
Lemma event_ok e j : enc_event time_text e j -> dec_event parse_time j = Some (sent_event e).
Proof.
  intros (when & stack & Hw & Hs & ->). unfold dec_event. fields. rewrite (dec_time_ok _ _ Hw). cbn [obind]. rewrite dec_string_jstr. cbn [obind].
  rewrite (dec_slice_omit_ok enc_frame dec_frame sent_frame _ _ (fun x j' _ => frame_ok x j') Hs). cbn [obind]. rewrite dec_bool_omit. reflexivity.
Qed.
Lemma static_ok t j : enc_static time_text t j -> dec_static parse_time j = Some (sent_trace t).
Proof.
  intros (started & sec & events & Hs & _ & He & ->). unfold dec_static. fields. rewrite !dec_string_jstr. cbn [obind]. rewrite (dec_time_ok _ _ Hs). cbn [obind dec_num].
  rewrite dec_string_omit. cbn [obind]. rewrite !dec_bool_omit. cbn [obind].
  rewrite (dec_slice_omit_ok (enc_event time_text) (dec_event parse_time) sent_event _ _ (fun x j' _ => event_ok x j') He). reflexivity.
Qed.
Lemma filter_ok (f : Filter RE) j : enc_filter f j -> dec_filter j = Some (sent_filter f).
Proof.
  intros (sources & ids & Hs & Hi & ->). unfold dec_filter. fields. rewrite (dec_strings_omit _ _ Hs), (dec_strings_omit _ _ Hi). cbn [obind].
  rewrite !dec_string_omit. cbn [obind]. rewrite !dec_bool_omit. cbn [obind]. rewrite dec_min. reflexivity.
Qed.
Lemma request_ok (r : SearchRequest RE) j : enc_request r j -> dec_request j = Some (sent_request r).
Proof.
  intros (b & f & Hb & Hf & ->). unfold dec_request. fields. rewrite (dec_nums_omit _ _ Hb). cbn [obind]. rewrite (filter_ok _ _ Hf). cbn [obind].
  rewrite !dec_num_omit. reflexivity.
Qed.
Lemma category_ok c j : enc_category_stats time_text c j -> dec_category_stats parse_time j = Some (sent_category c).
Proof.
  intros (counts & o & n & Hc & Ho & Hn & ->). unfold dec_category_stats. fields. rewrite dec_string_jstr. cbn [obind dec_num].
  rewrite (dec_nums _ _ Hc). cbn [obind]. rewrite (dec_time_ok _ _ Ho), (dec_time_ok _ _ Hn). reflexivity.
Qed.

(** *** Maps *)
Lemma map_set_fresh {A} k (x : A) : forall m, ~ In k (map fst m) -> map_set k x m = m ++ [(k, x)].
Proof.
  induction m as [|[k' x'] m IH]; intros H; [reflexivity|]. cbn [map_set map fst In app] in *. destruct (String.eqb_spec k k') as [->|n]; [tauto|]. rewrite IH by tauto. reflexivity.
Qed.
Lemma dec_pairs_ok {A B} (enc : A -> json -> Prop) dec (g : A -> B) : (forall x j, enc x j -> dec j = Some (g x)) ->
  forall l js m, Forall2 (fun kc kj => fst kj = to_utf8 (fst kc) /\ enc (snd kc) (snd kj)) l js -> NoDup (map fst m ++ map (fun kc => to_utf8 (fst kc)) l) ->
  dec_pairs dec js m = Some (m ++ map (fun kc => (to_utf8 (fst kc), g (snd kc))) l).
Proof.
  intros Hd. induction l as [|[k c] l IH]; intros js m F N; inversion F as [|? [k' j] ? js' [E1 E2] F']; subst; cbn [fst snd] in *; [rewrite app_nil_r; reflexivity|].
  subst k'. cbn [dec_pairs map fst snd]. rewrite (Hd _ _ E2). cbn [obind]. cbn [map fst] in N.
  assert (Hk : ~ In (to_utf8 k) (map fst m)) by (intros I; apply NoDup_remove_2 in N; apply N, in_or_app; left; exact I).
  rewrite map_set_fresh by exact Hk. rewrite IH; [rewrite <- app_assoc; reflexivity|exact F'|].
  rewrite map_app, <- app_assoc. exact N.
Qed.
Definition sent_entry (kc : string * CategoryStats) : string * CategoryStats := (to_utf8 (fst kc), sent_category (snd kc)).
Lemma categories_ok m j : enc_categories time_text m j -> NoDup (map (fun kc => to_utf8 (fst kc)) m) ->
  exists m', dec_map (dec_category_stats parse_time) j = Some m' /\ Permutation (map sent_entry m) m'.
Proof.
  intros [[-> ->]|(m' & js & P & F & ->)] N; [exists []; split; [reflexivity|constructor]|].
  exists (map sent_entry m'). split; [|apply Permutation_map; exact P].
  unfold dec_map. cbn [dec_obj obind]. rewrite (dec_pairs_ok (enc_category_stats time_text) _ sent_category category_ok m' js [] F); [reflexivity|].
  cbn [map app]. eapply Permutation_NoDup; [|exact N]. apply Permutation_map. exact P.
Qed.
Lemma stats_ok s j : enc_stats time_text s j -> NoDup (map (fun kc => to_utf8 (fst kc)) (Categories s)) ->
  exists m', dec_stats parse_time j = Some (MkSS (Bucketing s) m') /\ Permutation (map sent_entry (Categories s)) m'.
Proof.
  intros (b & c & Hb & Hc & ->) N. destruct (categories_ok _ _ Hc N) as (m' & E & P). exists m'. split; [|exact P].
  unfold dec_stats. fields. rewrite (dec_nums _ _ Hb). cbn [obind]. rewrite E. reflexivity.
Qed.
Lemma dec_pointer_ok {A B} (enc : A -> json -> Prop) dec (g : A -> B) o j : (forall x j, enc x j -> j <> JNull /\ dec j = Some (g x)) ->
  enc_option enc o j -> dec_pointer dec (oget j) = Some (option_map g o).
Proof.
  intros H. destruct o as [x|]; cbn [enc_option].
  - intros (j' & -> & E). cbn [oget]. destruct (H _ _ E) as [N D]. unfold dec_pointer. destruct j'; [congruence|..]; rewrite D; reflexivity.
  - intros ->. reflexivity.
Qed.
Lemma response_ok (w : wire_response RE) j : enc_response time_text w j ->
  match resp_Stats (wr_Response w) with Some s => NoDup (map (fun kc => to_utf8 (fst kc)) (Categories s)) | None => True end ->
  exists stats, dec_response parse_time j =
      Some (MkWire (option_map sent_request (wr_Request w))
                   (MkResp (map to_utf8 (resp_Sources (wr_Response w))) (resp_TotalCount (wr_Response w)) (resp_MatchCount (wr_Response w))
                           (map sent_trace (resp_Traces (wr_Response w))) stats (map to_utf8 (resp_Problems (wr_Response w)))) (wr_Duration w)) /\
    match resp_Stats (wr_Response w), stats with
    | None, None => True
    | Some s, Some s' => Bucketing s' = Bucketing s /\ Permutation (map sent_entry (Categories s)) (Categories s')
    | _, _ => False
    end.
Proof.
  destruct w as [request [sources total matched traces stats problems] duration].
  intros (jr & jso & jt & jst & jp & Hr & Hs & Ht & Hst & Hp & ->) N. cbn [wr_Request wr_Response wr_Duration resp_Sources resp_Problems resp_TotalCount resp_MatchCount resp_Traces resp_Stats] in *.
  assert (Hr' : dec_pointer dec_request (oget jr) = Some (option_map sent_request request)).
  { refine (dec_pointer_ok _ _ _ _ _ (fun x j E => conj _ (request_ok x j E)) Hr). destruct E as (? & ? & _ & _ & ->). discriminate. }
  assert (Hst' : exists stats', dec_pointer (dec_stats parse_time) (oget jst) = Some stats' /\
    match stats, stats' with None, None => True | Some s, Some s' => Bucketing s' = Bucketing s /\ Permutation (map sent_entry (Categories s)) (Categories s') | _, _ => False end).
  { destruct stats as [s|]; cbn [enc_option] in Hst.
    - destruct Hst as (j' & -> & E). destruct (stats_ok _ _ E N) as (m' & D & P). exists (Some (MkSS (Bucketing s) m')). split; [|split; [reflexivity|exact P]].
      cbn [oget]. unfold dec_pointer. destruct j'; try (rewrite D; reflexivity). destruct E as (? & ? & _ & _ & E). discriminate E.
    - subst jst. exists None. split; [reflexivity|exact I]. }
  destruct Hst' as (stats' & Est & P). exists stats'. split; [|exact P].
  unfold dec_response. fields. rewrite Hr'. cbn [obind]. rewrite (dec_strings _ _ Hs). cbn [obind dec_num].
  rewrite (dec_slice_ok (enc_static time_text) (dec_static parse_time) sent_trace _ _ (fun x j' _ => static_ok x j') Ht). cbn [obind]. rewrite Est. cbn [obind].
  rewrite (dec_strings_omit _ _ Hp). reflexivity.
Qed.

(** *** Valid strings are not changed *)
Lemma map_fix {A} (P : A -> Prop) (g : A -> A) l : (forall x, P x -> g x = x) -> Forall P l -> map g l = l.
Proof. intros H F. rewrite <- (map_id l) at 2. apply map_ext_in. intros x I. apply H. eapply Forall_forall; [exact F|exact I]. Qed.
Lemma valid_strings l : Forall utf8 l -> map to_utf8 l = l.
Proof. apply map_fix. exact valid_unchanged. Qed.
Lemma valid_sent_frame f : valid_frame f -> sent_frame f = f.
Proof. destruct f as [fn fl]. intros [H1 H2]. unfold sent_frame. cbn in *. rewrite !valid_unchanged by assumption. reflexivity. Qed.
Lemma valid_sent_event e : valid_event e -> sent_event e = e.
Proof. destruct e as [w t st er]. intros [H1 H2]. unfold sent_event. cbn in *. rewrite valid_unchanged by assumption. rewrite (map_fix valid_frame) by (assumption || exact valid_sent_frame). reflexivity. Qed.
Lemma valid_sent_trace t : valid_trace t -> sent_trace t = t.
Proof.
  destruct t. intros (H1 & H2 & H3 & H4 & H5). unfold sent_trace. cbn in *. rewrite !valid_unchanged by assumption. rewrite (map_fix valid_event) by (assumption || exact valid_sent_event). reflexivity.
Qed.
Lemma valid_sent_filter (f : Filter RE) : valid_filter f -> unused f -> sent_filter f = f.
Proof. destruct f. unfold unused. intros (H1 & H2 & H3 & H4) U. unfold sent_filter. cbn in *. rewrite !valid_strings, !valid_unchanged by assumption. rewrite U. reflexivity. Qed.
Lemma valid_sent_request (r : SearchRequest RE) : valid_filter (req_Filter r) -> unused (req_Filter r) -> sent_request r = r.
Proof. destruct r. intros H U. unfold sent_request. cbn in *. rewrite valid_sent_filter by assumption. reflexivity. Qed.
Lemma valid_sent_entries l : Forall (fun kc => utf8 (fst kc) /\ utf8 (cs_Category (snd kc))) l -> map sent_entry l = l /\ map (fun kc => to_utf8 (fst kc)) l = map fst l.
Proof.
  intros F. split; [revert F; apply map_fix|].
  - intros [k []] [H1 H2]. unfold sent_entry, sent_category. cbn in *. rewrite !valid_unchanged by assumption. reflexivity.
  - apply map_ext_in. intros kc I. apply valid_unchanged. eapply Forall_forall in F; [|exact I]. tauto.
Qed.
Lemma valid_response_ok (w : wire_response RE) j : enc_response time_text w j -> valid_response (wr_Response w) -> proper_response (wr_Response w) ->
  exists w', dec_response parse_time j = Some w' /\ same_response (wr_Response w) (wr_Response w') /\
    wr_Request w' = option_map sent_request (wr_Request w) /\ wr_Duration w' = wr_Duration w.
Proof.
  intros E (V1 & V2 & V3 & V4) N. unfold proper_response in N. destruct (response_ok w j E) as (stats & D & P).
  { destruct (resp_Stats (wr_Response w)) as [s|]; [|exact I]. rewrite (proj2 (valid_sent_entries _ V4)). exact N. }
  eexists. split; [exact D|]. cbn [wr_Request wr_Response wr_Duration]. split; [|split; reflexivity]. unfold same_response.
  cbn [resp_Sources resp_Problems resp_TotalCount resp_MatchCount resp_Traces resp_Stats].
  rewrite !valid_strings by assumption. rewrite (map_fix valid_trace) by (assumption || exact valid_sent_trace).
  split; [reflexivity|]. split; [reflexivity|]. split; [reflexivity|]. split; [reflexivity|]. split; [reflexivity|].
  destruct (resp_Stats (wr_Response w)) as [s|], stats as [s'|]; try exact P. destruct P as [P1 P2]. split; [exact P1|]. rewrite (proj1 (valid_sent_entries _ V4)) in P2. exact P2.
Qed.
End Codec.

(** *** Encodings exist *)
Section Exist.
Context {RE : Type}.
Variable time_text : Z -> option string.
Definition writable (t : Z) : Prop := time_text t <> None.
Lemma enc_all_ex {A} (enc : A -> json -> Prop) l : (forall x, In x l -> exists j, enc x j) -> exists js, Forall2 enc l js.
Proof.
  induction l as [|x l IH]; intros H; [exists []; constructor|]. destruct (H x (or_introl eq_refl)) as [j E].
  destruct IH as [js F]; [intros y I; apply H; right; exact I|]. exists (j :: js). constructor; assumption.
Qed.
Lemma enc_slice_ex {A} (enc : A -> json -> Prop) l : (forall x, In x l -> exists j, enc x j) -> exists j, enc_slice enc l j.
Proof. intros H. destruct (enc_all_ex enc l H) as [js F]. exists (JArr js). right. exists js. split; [reflexivity|exact F]. Qed.
Lemma enc_slice_omit_ex {A} (enc : A -> json -> Prop) l : (forall x, In x l -> exists j, enc x j) -> exists j, enc_slice_omit enc l j.
Proof.
  intros H. destruct l as [|x l]; [exists None; left; split; reflexivity|]. destruct (enc_all_ex enc (x :: l) H) as [js F].
  exists (Some (JArr js)). right. split; [discriminate|]. exists js. split; [reflexivity|exact F].
Qed.
Lemma enc_time_ex t : writable t -> exists j, enc_time time_text t j.
Proof. unfold writable. intros W. destruct (time_text t) as [s|] eqn:E; [|congruence]. exists (JStr s), s. split; [exact E|reflexivity]. Qed.
Lemma enc_event_ex e : writable (When e) -> exists j, enc_event time_text e j.
Proof.
  intros W. destruct (enc_time_ex _ W) as [jw Hw]. destruct (enc_slice_omit_ex enc_frame (Stack e)) as [js Hs]; [intros f _; eexists; reflexivity|].
  eexists. exists jw, js. split; [exact Hw|]. split; [exact Hs|reflexivity].
Qed.
Lemma enc_static_ex t : writable_trace writable t -> exists j, enc_static time_text t j.
Proof.
  intros [W1 W2]. destruct (enc_time_ex _ W1) as [jw Hw]. destruct (enc_slice_omit_ex (enc_event time_text) (TraceEvents t)) as [js Hs].
  { intros e I. apply enc_event_ex. eapply Forall_forall in W2; [exact W2|exact I]. }
  eexists. exists jw, None, js. split; [exact Hw|]. split; [exact Logic.I|]. split; [exact Hs|reflexivity].
Qed.
Lemma enc_filter_ex (f : Filter RE) : exists j, enc_filter f j.
Proof.
  destruct (enc_slice_omit_ex enc_string (Sources f)) as [j1 H1]; [intros; eexists; reflexivity|].
  destruct (enc_slice_omit_ex enc_string (IDs f)) as [j2 H2]; [intros; eexists; reflexivity|].
  eexists. exists j1, j2. split; [exact H1|]. split; [exact H2|reflexivity].
Qed.
Lemma enc_request_ex (r : SearchRequest RE) : exists j, enc_request r j.
Proof.
  destruct (enc_slice_omit_ex enc_num (req_Bucketing r)) as [j1 H1]; [intros; eexists; reflexivity|]. destruct (enc_filter_ex (req_Filter r)) as [j2 H2].
  eexists. exists j1, j2. split; [exact H1|]. split; [exact H2|reflexivity].
Qed.
Lemma enc_stats_ex s : Forall (fun kc => writable (Oldest (snd kc)) /\ writable (Newest (snd kc))) (Categories s) -> exists j, enc_stats time_text s j.
Proof.
  intros W. destruct (enc_slice_ex enc_num (Bucketing s)) as [j1 H1]; [intros; eexists; reflexivity|].
  assert (H2 : exists js, Forall2 (fun kc kj => fst kj = to_utf8 (fst kc) /\ enc_category_stats time_text (snd kc) (snd kj)) (Categories s) js).
  { induction W as [|[k c] l [W1 W2] _ [js IH]]; [exists []; constructor|]. cbn [fst snd] in *.
    destruct (enc_time_ex _ W1) as [jo Ho]. destruct (enc_time_ex _ W2) as [jn Hn]. destruct (enc_slice_ex enc_num (BucketCounts c)) as [jb Hb]; [intros; eexists; reflexivity|].
    eexists ((to_utf8 k, _) :: js). constructor; [|exact IH]. cbn [fst snd]. split; [reflexivity|]. exists jb, jo, jn. split; [exact Hb|]. split; [exact Ho|]. split; [exact Hn|reflexivity]. }
  destruct H2 as [js H2]. eexists. exists j1, (JObj js). split; [exact H1|]. split; [|reflexivity]. right. exists (Categories s), js. split; [reflexivity|]. split; [exact H2|reflexivity].
Qed.
Lemma enc_response_ex (w : wire_response RE) : writable_response writable (wr_Response w) -> exists j, enc_response time_text w j.
Proof.
  intros [W1 W2].
  assert (H1 : exists jr, enc_option enc_request (wr_Request w) jr).
  { destruct (wr_Request w) as [r|]; [|exists None; reflexivity]. destruct (enc_request_ex r) as [j E]. exists (Some j), j. split; [reflexivity|exact E]. }
  destruct (enc_slice_ex enc_string (resp_Sources (wr_Response w))) as [j2 H2]; [intros; eexists; reflexivity|].
  destruct (enc_slice_ex (enc_static time_text) (resp_Traces (wr_Response w))) as [j3 H3].
  { intros t I. apply enc_static_ex. eapply Forall_forall in W1; [exact W1|exact I]. }
  assert (H4 : exists js, enc_option (enc_stats time_text) (resp_Stats (wr_Response w)) js).
  { destruct (resp_Stats (wr_Response w)) as [s|]; [|exists None; reflexivity]. destruct (enc_stats_ex s W2) as [j E]. exists (Some j), j. split; [reflexivity|exact E]. }
  destruct (enc_slice_omit_ex enc_string (resp_Problems (wr_Response w))) as [j5 H5]; [intros; eexists; reflexivity|].
  destruct H1 as [j1 H1], H4 as [j4 H4]. eexists. exists j1, j2, j3, j4, j5.
  split; [exact H1|]. split; [exact H2|]. split; [exact H3|]. split; [exact H4|]. split; [exact H5|reflexivity].
Qed.
End Exist.

(** ** C56.  [time_text] and [parse_time] are the time package's; reading back a time that
    was written gives the same time. *)
Definition times_read_back (time_text : Z -> option string) (parse_time : string -> option Z) : Prop :=
  forall t s, time_text t = Some s -> parse_time s = Some t.

(** Every request can be sent.  What is read is the request, with each byte that is not part
    of valid UTF-8 replaced, and without the compiled query. *)
Theorem C56_request_roundtrip :
  forall (RE : Type) (req : SearchRequest RE),
    (exists j, enc_request req j) /\
    (forall j, enc_request req j -> dec_request j = Some (sent_request req)) /\
    (valid_filter (req_Filter req) -> unused (req_Filter req) -> sent_request req = req) /\
    (forall s, utf8 (to_utf8 s) /\ (utf8 s <-> to_utf8 s = s)).
Proof.
  intros RE req. split; [apply enc_request_ex|]. split; [intros j; apply request_ok|]. split; [apply valid_sent_request|].
  assert (U : forall s, utf8 (to_utf8 s)) by (intros s; apply (to_utf8_valid (String.length s)); lia).
  intros s. split; [apply U|]. split; [apply valid_unchanged|]. intros E. rewrite <- E. apply U.
Qed.

(** The same for a trace: in a response, or as an event of a stream. *)
Theorem C56_trace_roundtrip :
  forall time_text parse_time, times_read_back time_text parse_time ->
  forall t : StaticTrace,
    (writable_trace (fun t => time_text t <> None) t -> exists j, enc_static time_text t j) /\
    (forall j, enc_static time_text t j -> dec_static parse_time j = Some (sent_trace t)) /\
    (valid_trace t -> sent_trace t = t).
Proof. intros tt pt Ht t. split; [apply enc_static_ex|]. split; [intros j; apply static_ok; exact Ht|apply valid_sent_trace]. Qed.

(** A response with valid strings comes back the same, its request and duration as well. *)
Theorem C56_response_roundtrip :
  forall (RE : Type) time_text parse_time, times_read_back time_text parse_time ->
  forall w : wire_response RE,
    (writable_response (fun t => time_text t <> None) (wr_Response w) -> exists j, enc_response time_text w j) /\
    (forall j, enc_response time_text w j -> valid_response (wr_Response w) -> proper_response (wr_Response w) ->
       exists w', dec_response parse_time j = Some w' /\ same_response (wr_Response w) (wr_Response w') /\
         wr_Request w' = option_map sent_request (wr_Request w) /\ wr_Duration w' = wr_Duration w).
Proof. intros RE tt pt Ht w. split; [apply enc_response_ex|intros j; apply valid_response_ok; exact Ht]. Qed.

(** Searching a collector through the client gives what searching it directly gives, but
    without the problems. *)
Theorem C56_remote_equals_local :
  forall (RE : Type) (Compile : string -> RE + string) MatchString float_part time_text parse_time, times_read_back time_text parse_time ->
  forall (T : Type) (zero : T) (view : T -> StaticTrace) sort order source ops s freed (req : SearchRequest RE),
    Forall valid_op ops -> coll_run zero new_collector_storage ops = Ok (s, freed) -> is_order order ->
    (forall b, In b (req_Bucketing req) -> 0 <= b) -> valid_filter (req_Filter req) -> unused (req_Filter req) ->
    exists req' local,
      Search Compile MatchString view sort order source s req = Ok (req', local) /\
      (valid_response local ->
         (forall w, remote time_text parse_time Compile float_part (collector_searcher Compile MatchString view sort order source s) req w ->
            same_response (without_problems local) (wr_Response w)) /\
         (writable_response (fun t => time_text t <> None) local ->
            exists w, remote time_text parse_time Compile float_part (collector_searcher Compile MatchString view sort order source s) req w)).
Proof.
  intros RE C M fp tt pt Ht T zero view sort order source ops s freed req Hops Hrun Hord Hnn Hv Hu.
  destruct (Normalize C req) as [[reqn errs]|] eqn:HN; [|rewrite Normalize_spec in HN; discriminate].
  pose proof (C21_normalize_again_changes_nothing RE C req reqn errs Hnn HN) as HN2.
  destruct (Search_spec C M zero view sort order source ops s freed req _ Hops Hrun Hord (fun t => eq_refl)) as
      (req' & resp & names & stats & E & _ & Hobs & Hst & _ & _ & _ & _ & _ & _).
  exists req', resp. split; [exact E|]. intros Hvalid.
  assert (E2 : Search C M view sort order source s reqn = Ok (req', without_problems resp)).
  { unfold Search in E |- *. rewrite HN in E. rewrite HN2. cbn [bind] in *.
    destruct (search_categories _ _ _ _ _ _ _ _ _) as [[st traces]|] eqn:Es; cbn [bind] in *; [|discriminate]. injection E as <- <-. reflexivity. }
  assert (Hp : proper_response (without_problems resp)).
  { unfold proper_response, without_problems. cbn [resp_Stats]. rewrite Hst. destruct (Observe_spec (norm_bucketing (req_Bucketing req)) (map view (flat_map (fun c => held c ops) names)) _ [] (represents_new _)) as (ss & Eo & (_ & Hno & _) & _). rewrite Hobs in Eo. injection Eo as <-. exact Hno. }
  assert (Hv2 : valid_response (without_problems resp)).
  { destruct Hvalid as (V1 & V2 & V3 & V4). split; [exact V1|]. split; [exact V2|]. split; [constructor|exact V4]. }
  assert (Hh : handleSearch C fp (collector_searcher C M view sort order source s) (IJSON (inl req)) =
     Ok (ORendered (MkData req' (without_problems resp) (errs ++ map (fun p => "response: " ++ p)%string [] ++ category_problem stats)))).
  { apply (C57_answer_is_rendered C fp _ (IJSON (inl req)) req reqn errs req' (without_problems resp) stats);
      [reflexivity|exact HN| |exact Hst]. unfold collector_searcher. rewrite E2. reflexivity. }
  assert (Hreq : sent_request req = req) by (apply valid_sent_request; assumption).
  split.
  - intros w (body & req1 & data & duration & answer & B1 & B2 & B3 & (jr & jp & A1 & A2 & ->) & A3).
    rewrite (request_ok _ _ B1), Hreq in B2. injection B2 as <-. rewrite Hh in B3. injection B3 as <-. cbn [d_Request d_Response] in *.
    unfold dec_data in A3. revert A3. fields. rewrite (request_ok _ _ A1). cbn [obind].
    destruct (valid_response_ok tt pt Ht _ _ A2 Hv2 Hp) as (w' & D & S & _). rewrite D. intros F. injection F as <-. exact S.
  - intros W. destruct (enc_request_ex req) as [body B]. destruct (enc_request_ex req') as [jr R].
    destruct (enc_response_ex tt (MkWire (Some req') (without_problems resp) 0)) as [jp P]; [exact W|].
    destruct (valid_response_ok tt pt Ht _ _ P Hv2 Hp) as (w' & D & _).
    exists w', body, req, (MkData req' (without_problems resp) (errs ++ map (fun p => "response: " ++ p)%string [] ++ category_problem stats)), 0.
    eexists. split; [exact B|]. split; [rewrite (request_ok _ _ B), Hreq; reflexivity|]. split; [exact Hh|]. split.
    + exists jr, jp. split; [exact R|]. split; [exact P|reflexivity].
    + unfold dec_data. fields. rewrite (request_ok _ _ R). cbn [obind]. exact D.
Qed.

Section Inv.
Context {RE : Type}.
Variable Compile : string -> RE + string.
Variable float_part : Z -> Z -> Z -> Z.
Variable time_text : Z -> option string.
Variable parse_time : string -> option Z.
Lemma remote_inv Search (req : SearchRequest RE) w : remote time_text parse_time Compile float_part Search req w ->
  exists data duration j, handleSearch Compile float_part Search (IJSON (inl (sent_request req))) = Ok (ORendered data) /\
    enc_response time_text (MkWire (Some (d_Request data)) (d_Response data) duration) j /\ dec_response parse_time j = Some w.
Proof.
  intros (body & req1 & data & duration & answer & B1 & B2 & B3 & (jr & jp & A1 & A2 & ->) & A3).
  rewrite (request_ok _ _ B1) in B2. injection B2 as <-. exists data, duration, jp. split; [exact B3|]. split; [exact A2|].
  unfold dec_data in A3. revert A3. fields. rewrite (request_ok _ _ A1). cbn [obind]. intros D. exact D.
Qed.
Hypothesis time_ok : times_read_back time_text parse_time.
Lemma remote_ex Search (req : SearchRequest RE) data : handleSearch Compile float_part Search (IJSON (inl (sent_request req))) = Ok (ORendered data) ->
  writable_response (writable time_text) (d_Response data) ->
  match resp_Stats (d_Response data) with Some s => NoDup (map (fun kc => to_utf8 (fst kc)) (Categories s)) | None => True end ->
  exists w, remote time_text parse_time Compile float_part Search req w.
Proof.
  intros Hh W N. destruct (enc_request_ex req) as [body B]. destruct (enc_request_ex (d_Request data)) as [jr R].
  destruct (enc_response_ex time_text (MkWire (Some (d_Request data)) (d_Response data) 0) W) as [jp P].
  destruct (response_ok time_text parse_time time_ok _ _ P N) as (stats & D & _). eexists. exists body, (sent_request req), data, 0. eexists.
  split; [exact B|]. split; [apply request_ok; exact B|]. split; [exact Hh|]. split.
  - exists jr, jp. split; [exact R|]. split; [exact P|reflexivity].
  - unfold dec_data. fields. rewrite (request_ok _ _ R). cbn [obind]. exact D.
Qed.
End Inv.
Print Assumptions C56_request_roundtrip.
Print Assumptions C56_trace_roundtrip.
Print Assumptions C56_response_roundtrip.
Print Assumptions C56_remote_equals_local.

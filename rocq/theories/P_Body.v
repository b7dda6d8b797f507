(** C117: the limit on the size of request bodies. *)
From Verif Require Import Go L_List M_Strings L_Strings M_Types M_Filter S_Filter L_Filter M_Stats M_Search M_Web M_Json S_Json P_Json M_JsonText S_JsonText L_JsonText L_JsonRead L_JsonWrite D_Demo P_JsonText M_Url M_StreamFilter S_StreamFilter L_StreamFilter P_Filter M_Body S_Body.
Open Scope list_scope.
Open Scope string_scope.
Open Scope Z_scope.

Lemma slen_app a b : slen (a ++ b) = slen a + slen b.
Proof. unfold slen. rewrite str_length_app. lia. Qed.
Lemma slen_nonneg a : 0 <= slen a.
Proof. unfold slen. lia. Qed.
Lemma substring_prefix n : forall s, (n <= String.length s)%nat -> exists r, s = substring 0 n s ++ r /\ String.length (substring 0 n s) = n.
Proof.
  induction n as [|n IH]; intros s H; [exists s; destruct s; split; reflexivity|]. destruct s as [|c s]; [cbn in H; lia|]. cbn [String.length] in H.
  destruct (IH s ltac:(lia)) as (r & E & L). exists r. cbn [substring append String.length]. split; [congruence|lia].
Qed.
(** what can be read *)
Lemma reader_cases body limit : 0 <= limit ->
  (slen body <= limit /\ MaxBytesReader body limit = (body, false)) \/
  (limit < slen body /\ exists bytes x, MaxBytesReader body limit = (bytes, true) /\ body = bytes ++ x /\ slen bytes = limit).
Proof.
  intros L. unfold MaxBytesReader. destruct (Z.leb_spec (slen body) limit) as [H|H]; [left; auto|]. right. split; [exact H|].
  destruct (substring_prefix (Z.to_nat limit) body) as (r & E & N); [unfold slen in H; lia|]. exists (substring 0 (Z.to_nat limit) body), r. split; [reflexivity|]. split; [exact E|]. unfold slen. lia.
Qed.
(** two ways to cut a text *)
Lemma app_cut a b : forall c d, a ++ b = c ++ d -> slen a <= slen c -> exists m, c = a ++ m /\ b = m ++ d.
Proof.
  induction a as [|x a IH]; intros c d E L; [exists c; auto|]. destruct c as [|y c]; [unfold slen in L; cbn in L; lia|]. cbn [append] in E. injection E as -> E.
  destruct (IH c d E) as (m & -> & ->); [unfold slen in *; cbn [String.length] in L; lia|]. exists m. auto.
Qed.
Lemma number_text p v : value_text p v -> is_number v -> number_first p.
Proof. intros H N. inversion H; subst; cbn in N; try contradiction; [eapply integer_first; eassumption|apply float_first; assumption]. Qed.
(** no number starts like another value *)
Lemma not_both w p r w' p' r' v v' : white w -> white w' -> value_text p v -> value_text p' v' -> w ++ p ++ r = w' ++ p' ++ r' -> is_number v' -> is_number v.
Proof.
  intros W W' P P' E N. pose proof (number_text p' v' P' N) as F. pose proof (skip_first w p r W (value_first _ _ P)) as S1. rewrite E, (skip_first w' p' r' W' (value_first _ _ P')) in S1.
  destruct p' as [|a p']; [destruct F|]. pose proof (value_first _ _ P) as F2. destruct p as [|b p]; [destruct F2|]. cbn [append] in S1. injection S1 as <- _.
  inversion P; subst; try exact Logic.I; try (cbn in F; destruct F as [F|F]; [cbv in F; destruct F; congruence|discriminate]).
  match goal with Hs : string_text _ _ |- _ => destruct Hs as (c & b & Q & _) end. injection Q as -> _. cbn in F. destruct F as [F|F]; [cbv in F; destruct F; congruence|discriminate].
Qed.
Lemma closed_container v : closed v = true <-> container v.
Proof. destruct v; cbn; split; intros H; try discriminate; try contradiction; auto. Qed.

(** What the server gets from a body is exactly the value that its first bytes show; what comes
    after the value does not matter, and a longer text is not taken for a smaller value. *)
Theorem C117_what_arrives :
  forall limit body v, 0 <= limit -> ~ is_number v -> (decode_body limit body = Some v <-> arrives limit body v).
Proof.
  intros limit body v L N. unfold decode_body, arrives. destruct (reader_cases body limit L) as [[H ->]|(H & bytes & x & -> & E & S)].
  - split.
    + destruct (decode body) as [[j r]|] eqn:D; [|discriminate]. cbn [andb]. intros [= ->]. destruct (decode_sound _ _ _ D) as (w & p & W & -> & V). exists w, p, r. repeat split; auto.
    + intros (w & p & r & W & -> & V & _). rewrite (decode_complete w p r v W V) by (intros Q; contradiction). reflexivity.
  - split.
    + destruct (decode bytes) as [[j r]|] eqn:D; [|discriminate]. destruct (decode_sound _ _ _ D) as (w & p & W & -> & V). intros Q. assert (j = v) as -> by (destruct (true && negb (closed j) && is_empty r); congruence).
      exists w, p, (r ++ x). split; [exact W|]. split; [rewrite E, !sapp_assoc; reflexivity|]. split; [exact V|]. cbn zeta. rewrite sapp_assoc in *. fold (slen (w ++ p)). rewrite <- sapp_assoc, slen_app in S.
      pose proof (slen_nonneg r) as R. destruct r as [|c r].
      * destruct (closed v) eqn:C; [|discriminate]. apply closed_container in C. right. left. split; [unfold slen in S at 2; cbn in S; lia|exact C].
      * left. unfold slen in S at 2. cbn [String.length] in S. lia.
    + intros (w & p & r & W & E2 & V & C). cbn zeta in C. fold (slen (w ++ p)) in C. fold (slen body) in C. assert (K : slen (w ++ p) <= slen bytes) by (destruct C as [C|[[C _]|C]]; lia).
      destruct (app_cut (w ++ p) r bytes x) as (m & Em & Er); [rewrite sapp_assoc; congruence|exact K|]. rewrite Em, sapp_assoc, (decode_complete w p m v W V) by (intros Q; contradiction).
      destruct (closed v) eqn:Q; [reflexivity|]. destruct m as [|c m]; [|reflexivity]. exfalso. rewrite str_app_nil_r in Em. subst bytes.
      destruct C as [C|[[_ C]|C]]; [lia| |lia]. apply closed_container in C. congruence.
Qed.

(** A value whose text is longer than the limit does not arrive, nor does anything else. *)
Theorem C117_too_long :
  forall limit w p rest v, 0 <= limit -> white w -> value_text p v -> container v -> limit < slen (w ++ p) ->
    decode_body limit (w ++ p ++ rest) = None.
Proof.
  intros limit w p rest v L W V C H. assert (N : ~ is_number v) by (destruct v; cbn in *; auto).
  destruct (decode_body limit (w ++ p ++ rest)) as [v'|] eqn:D; [exfalso|reflexivity].
  assert (N' : ~ is_number v').
  { intros Q. unfold decode_body in D. destruct (reader_cases (w ++ p ++ rest) limit L) as [[K Eb]|(K & bytes & x & Eb & E & S)]; rewrite Eb in D.
    - rewrite (decode_complete w p rest v W V) in D by (intros X; contradiction). cbn in D. injection D as <-. contradiction.
    - destruct (decode bytes) as [[j r]|] eqn:D2; [|discriminate]. assert (j = v') as -> by (destruct (true && negb (closed j) && is_empty r); congruence).
      destruct (decode_sound _ _ _ D2) as (w' & p' & W' & -> & V'). rewrite !sapp_assoc in E. apply N. exact (not_both w p rest w' p' (r ++ x) v v' W W' V V' E Q). }
  apply (C117_what_arrives limit _ v' L N') in D. destruct D as (w' & p' & r' & W' & E & V' & K). cbn zeta in K.
  pose proof (decode_complete w p rest v W V ltac:(intros X; contradiction)) as D1. rewrite E, (decode_complete w' p' r' v' W' V') in D1 by (intros X; contradiction). injection D1 as -> ->.
  pose proof (f_equal slen E) as EL. rewrite !slen_app in *. pose proof (slen_nonneg rest). fold (slen (w' ++ p')) in K. fold (slen (w ++ p ++ rest)) in K. rewrite !slen_app in K. lia.
Qed.

(** So a search with a JSON body is answered if its request arrives, and otherwise it is refused
    without a search. *)
Theorem C117_search :
  forall (RE : Type) err limit body, 0 <= limit ->
    (forall req : SearchRequest RE, body_request err limit body = inl req <-> exists v, arrives limit body v /\ dec_request v = Some req) /\
    ((forall v, arrives limit body v -> @dec_request RE v = None) ->
     body_request (RE:=RE) err limit body = inr err /\
     forall (Compile : string -> RE + string) float_part Search, handleSearch Compile float_part Search (IJSON (body_request err limit body)) = Ok (OBadRequest err)).
Proof.
  intros RE err limit body L.
  assert (NUM : forall v (req : SearchRequest RE), dec_request v = Some req -> ~ is_number v) by (intros v req D Q; destruct v; cbn in Q; try contradiction; discriminate D).
  assert (A : forall req : SearchRequest RE, body_request err limit body = inl req <-> exists v, arrives limit body v /\ dec_request v = Some req).
  { intros req. unfold body_request. split.
    - destruct (decode_body limit body) as [v|] eqn:D; [|discriminate]. destruct (dec_request v) as [q|] eqn:R; [|discriminate]. intros [= ->]. exists v. split; [|exact R]. apply C117_what_arrives; [exact L|exact (NUM _ _ R)|exact D].
    - intros (v & H & R). apply C117_what_arrives in H; [|exact L|exact (NUM _ _ R)]. rewrite H, R. reflexivity. }
  split; [exact A|]. intros H. assert (E : body_request (RE:=RE) err limit body = inr err).
  { destruct (body_request err limit body) as [req|e] eqn:B.
    - destruct (proj1 (A req) eq_refl) as (v & V & R). rewrite (H v V) in R. discriminate.
    - unfold body_request in B. destruct (decode_body limit body) as [v|]; [destruct (dec_request v)|]; congruence. }
  split; [exact E|]. intros Compile float_part Search. rewrite E. reflexivity.
Qed.

(** What the client sends is read if it is not longer than the limit.  Finding: a longer request
    is refused, whatever it asks for, although a local collector would answer it; there are such
    requests. *)
Theorem C117_sent_request :
  forall (RE : Type) err short limit (req : SearchRequest RE) j, 0 <= limit -> enc_request req j -> slen (text short None j) <= limit ->
    body_request err limit (text short None j) = inl (sent_request req).
Proof.
  intros RE err short limit req j L E H. pose proof (request_writable req j E) as W. pose proof (proj1 (proj2 (C56_request_roundtrip RE req)) j E) as D.
  apply C117_search; [exact L|]. exists j. split; [|exact D]. exists "", (text short None j), "". split; [exact white_nil|]. split; [rewrite str_app_nil_r; reflexivity|].
  split; [apply (C90_written_reads_back short None j W)|]. right. right. exact H.
Qed.
Fixpoint xs (n : nat) : string := match n with O => "" | S n => String "x" (xs n) end.
Definition long_request {RE} (n : nat) : SearchRequest RE := MkReq [] (MkFilter [] [] (xs n) false false None false false "" None) 0 0.
Lemma xs_utf8 n : utf8 (xs n).
Proof. apply utf8_ascii. induction n as [|n IH]; [reflexivity|exact IH]. Qed.
Lemma xs_escaped short n : escaped short (xs n) = xs n.
Proof.
  induction n as [|n IH]; [reflexivity|]. destruct n as [|[|n]]; [destruct short; reflexivity|destruct short; reflexivity|].
  change (xs (S (S (S n)))) with (String "x" (String "x" (String "x" (xs n)))) in *. cbn [escaped].
  change (separator "x" "x" "x") with (@None string). change (esc short "x") with "x" || (destruct short; change (esc true "x") with "x"; change (esc false "x") with "x").
  all: cbn [append]; f_equal; exact IH.
Qed.
Lemma xs_length n : String.length (xs n) = n.
Proof. induction n; cbn; congruence. Qed.
Theorem C117_long_request_refuted :
  (forall (RE : Type) err short limit (req : SearchRequest RE) j rest, 0 <= limit -> enc_request req j -> limit < slen (text short None j) ->
     body_request (RE:=RE) err limit (text short None j ++ rest) = inr err /\
     forall (Compile : string -> RE + string) float_part Search,
       handleSearch Compile float_part Search (IJSON (body_request err limit (text short None j ++ rest))) = Ok (OBadRequest err)) /\
  (forall (RE : Type) short, exists (req : SearchRequest RE) j, enc_request req j /\ maxRequestBodySizeBytes < slen (text short None j)).
Proof.
  split.
  - intros RE err short limit req j rest L E H. pose proof (request_writable req j E) as W.
    assert (C : container j) by (destruct E as (b & f & _ & _ & ->); exact Logic.I).
    assert (D : decode_body limit (text short None j ++ rest) = None).
    { apply (C117_too_long limit "" (text short None j) rest j L white_nil); [apply (C90_written_reads_back short None j W)|exact C|exact H]. }
    assert (B : body_request (RE:=RE) err limit (text short None j ++ rest) = inr err) by (unfold body_request; rewrite D; reflexivity). split; [exact B|]. intros. rewrite B. reflexivity.
  - intros RE short. assert (T : exists n, 0 < n /\ Z.to_nat n <> O /\ maxRequestBodySizeBytes < n) by (exists (maxRequestBodySizeBytes + 1); unfold maxRequestBodySizeBytes; lia).
    destruct T as (n & P & NZ & T). exists (long_request (Z.to_nat n)). eexists. split.
    + exists None. eexists. split; [left; auto|]. split; [|reflexivity]. exists None, None. split; [left; auto|]. split; [left; auto|reflexivity].
    + assert (L : slen (xs (Z.to_nat n)) = n) by (unfold slen; rewrite xs_length; lia).
      assert (EM : is_empty (xs (Z.to_nat n)) = false) by (destruct (Z.to_nat n); [contradiction|reflexivity]). cbn [long_request req_Filter req_Bucketing req_Limit req_StackDepth FCategory IsActive IsFinished MinDuration IsSuccess IsErrored Query].
      rewrite EM. unfold jstr. rewrite (valid_unchanged _ (xs_utf8 _)). cbn [omit obj present is_empty negb option_map Z.eqb map text wrap line fst snd]. unfold obj. cbn [present map text wrap line items fst snd option_map].
      unfold quote. rewrite xs_escaped. rewrite !slen_app || idtac. cbn [append]. unfold slen in *. cbn [String.length]. rewrite ?str_length_app. cbn [String.length]. rewrite ?str_length_app. cbn [String.length]. rewrite ?str_length_app. lia.
Qed.

(** With the limit of the server: a request of the client arrives exactly if it is at most 1 MB long. *)
Theorem C117_one_megabyte :
  forall (RE : Type) err short (req : SearchRequest RE) j, enc_request req j ->
    body_request err maxRequestBodySizeBytes (text short None j) = inl (sent_request req) <-> slen (text short None j) <= 2 ^ 20.
Proof.
  intros RE err short req j E. change (2 ^ 20) with maxRequestBodySizeBytes. assert (L : 0 <= maxRequestBodySizeBytes) by (unfold maxRequestBodySizeBytes; lia). split.
  - intros H. destruct (Z.le_gt_cases (slen (text short None j)) maxRequestBodySizeBytes) as [C|C]; [exact C|exfalso].
    destruct (proj1 C117_long_request_refuted RE err short _ req j "" L E C) as [H' _]. rewrite str_app_nil_r in H'. congruence.
  - apply C117_sent_request; assumption.
Qed.

Section Stream.
Context {RE : Type}.
Notation Filter := (Filter RE).
(** A filter in the body of a stream request is the one of C114 if it arrives.  Finding: a longer
    one is dropped, and the stream is not refused: everything is streamed. *)
Theorem C117_stream_filter :
  forall limit w p rest o, 0 <= limit -> white w -> value_text p (JObj o) -> slen (w ++ p) <= limit ->
    limited_filter limit (w ++ p ++ rest) = body_filter (RE:=RE) (w ++ p ++ rest).
Proof.
  intros limit w p rest o L W V H. assert (A : arrives limit (w ++ p ++ rest) (JObj o)).
  { exists w, p, rest. repeat split; auto. cbn zeta. fold (slen (w ++ p)). destruct (Z.eq_dec (slen (w ++ p)) limit); [right; left; split; [assumption|exact Logic.I]|left; lia]. }
  apply C117_what_arrives in A; [|exact L|intros []]. unfold limited_filter, body_filter. rewrite A, (decode_complete w p rest _ W V) by (intros []). reflexivity.
Qed.
Theorem C117_long_filter_refuted :
  forall limit w p rest o, 0 <= limit -> white w -> value_text p (JObj o) -> limit < slen (w ++ p) ->
    let '(f, error) := limited_filter (RE:=RE) limit (w ++ p ++ rest) in
    error = true /\ forall Compile MatchString tr, snd (Allow Compile MatchString f tr) = true.
Proof.
  intros limit w p rest o L W V H. unfold limited_filter. rewrite (C117_too_long limit w p rest (JObj o) L W V Logic.I H). split; [reflexivity|]. reflexivity.
Qed.
End Stream.

(** A body of 11 bytes: with a limit of 11 bytes it is a request, with 10 it is not; "null" needs
    a byte more, or the end. *)
Example C117_instance :
  decode_body 11 "{""limit"":5}" = Some (JObj [("limit", JNum 5)]) /\ decode_body 10 "{""limit"":5}" = None /\
  decode_body 11 "{""limit"":5}xyz" = Some (JObj [("limit", JNum 5)]) /\
  decode_body 4 "null" = Some JNull /\ decode_body 4 "null " = None /\ decode_body 5 "null x" = Some JNull /\
  arrives 11 "{""limit"":5}xyz" (JObj [("limit", JNum 5)]) /\
  (exists req : SearchRequest unit, body_request "" 11 "{""limit"":5}" = inl req /\ req_Limit req = 5) /\
  limited_filter (RE:=unit) 17 "{""category"":""a""}" = body_filter "{""category"":""a""}" /\
  limited_filter (RE:=unit) 15 "{""category"":""a""}" = (no_filter, true) /\ FCategory (fst (body_filter (RE:=unit) "{""category"":""a""}")) = "a".
Proof.
  assert (D : decode_body 11 "{""limit"":5}xyz" = Some (JObj [("limit", JNum 5)])) by reflexivity.
  do 6 (split; [reflexivity|]). split; [apply C117_what_arrives; [lia|intros []|exact D]|]. split; [eexists; split; reflexivity|]. repeat split.
Qed.

Print Assumptions C117_what_arrives.
Print Assumptions C117_too_long.
Print Assumptions C117_search.
Print Assumptions C117_sent_request.
Print Assumptions C117_long_request_refuted.
Print Assumptions C117_one_megabyte.
Print Assumptions C117_stream_filter.
Print Assumptions C117_long_filter_refuted.

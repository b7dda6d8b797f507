(** Lemmas about the search page. *)
From Verif Require Import Go M_Strings M_Types M_Frame M_Filter S_Order L_Order M_Humanize M_Text M_Search M_Url M_Page S_Page L_Search L_Strings L_Text L_Url.
From Coq Require Import DecimalString.
Open Scope string_scope.
Open Scope list_scope.
Open Scope Z_scope.

Lemma sapp_assoc (a b c : string) : ((a ++ b) ++ c = a ++ (b ++ c))%string.
Proof. induction a; cbn; congruence. Qed.

(** ** HTML *)
Lemma read_plain c s : Ascii.eqb c "<" = false -> Ascii.eqb c "&" = false ->
  read_html InText (String c s) = option_map (cons (Txt c)) (read_html InText s).
Proof. intros A B. cbn [read_html]. rewrite A, B. reflexivity. Qed.

(** one escaped byte, with its breaks, in front of more *)
Lemma read_byte c s l : read_html InText s = Some l ->
  exists t, read_html InText (InsertBreaks (escape_byte_html c) ++ s) = Some (t ++ l) /\
            text_content (t ++ l) = (showable (String c "") ++ text_content l)%string /\ Forall (eq "wbr") (tags t).
Proof.
  intros H. unfold escape_byte_html.
  destruct (Ascii.eqb_spec c "000") as [->|N0].
  { exists [Txt "239"; Txt "191"; Txt "189"]%char. cbn [InsertBreaks replacement_char Ascii.eqb Bool.eqb append]. 
    rewrite !read_plain by reflexivity. rewrite H. repeat split. constructor. }
  assert (SH : showable (String c "") = String c "") by (cbn; rewrite (proj2 (Ascii.eqb_neq _ _) N0); reflexivity).
  rewrite SH.
  repeat match goal with |- context [Ascii.eqb c ?x] => destruct (Ascii.eqb_spec c x) as [->|?];
    [ eexists [Txt _; Tag "wbr"]; cbn; rewrite H; cbn; repeat split; repeat constructor | ] end.
  cbn [InsertBreaks]. destruct (Ascii.eqb_spec c ",") as [->|?]; [eexists [Txt _; Tag "wbr"]; cbn; rewrite H; cbn; repeat split; repeat constructor|].
  destruct (Ascii.eqb_spec c ";") as [->|?]; [eexists [Txt _; Tag "wbr"]; cbn; rewrite H; cbn; repeat split; repeat constructor|].
  exists [Txt c]. cbn [append]. rewrite read_plain by (apply Ascii.eqb_neq; assumption). rewrite H. cbn. repeat split. constructor.
Qed.
Lemma breaks_app a b : InsertBreaks (a ++ b) = (InsertBreaks a ++ InsertBreaks b)%string.
Proof. induction a as [|c a IH]; [reflexivity|]. cbn [append InsertBreaks]. rewrite IH. destruct (Ascii.eqb c ","); [reflexivity|]. destruct (Ascii.eqb c ";"); reflexivity. Qed.
Lemma tags_app a b : tags (a ++ b) = tags a ++ tags b.
Proof. induction a as [|[c|t] a IH]; cbn; congruence. Qed.
Lemma text_app a b : text_content (a ++ b) = (text_content a ++ text_content b)%string.
Proof. induction a as [|[c|t] a IH]; cbn; congruence. Qed.

Lemma event_html_read what :
  exists l, read_html InText (event_html what) = Some l /\ text_content l = showable what /\ Forall (eq "wbr") (tags l).
Proof.
  unfold event_html. induction what as [|c s (l & R & T & W)]; [exists []; repeat split; constructor|].
  cbn [HTMLEscapeString]. rewrite breaks_app. destruct (read_byte c _ l R) as (t & R2 & T2 & W2).
  exists (t ++ l). split; [exact R2|]. split.
  - rewrite T2, T. cbn [showable]. destruct (Ascii.eqb c "000"); reflexivity.
  - rewrite tags_app. apply Forall_app. split; assumption.
Qed.

Lemma read_text_app a s l : contains_byte "<" a = false -> contains_byte "&" a = false -> read_html InText s = Some l ->
  read_html InText (a ++ s) = Some (map Txt (list_ascii_of_string a) ++ l).
Proof.
  intros A B H. induction a as [|c a IH]; [exact H|]. cbn [contains_byte append] in *. apply orb_false_iff in A as [A1 A2]. apply orb_false_iff in B as [B1 B2].
  rewrite read_plain by assumption. rewrite IH by assumption. reflexivity.
Qed.
Lemma read_tag_app name pre s : contains_byte ">" name = false ->
  read_html (InTag pre) (name ++ ">" ++ s) = option_map (cons (Tag (pre ++ name))) (read_html InText s).
Proof.
  revert pre. induction name as [|c name IH]; intros pre A.
  - cbn. rewrite str_app_nil_r. reflexivity.
  - cbn [contains_byte] in A. apply orb_false_iff in A as [A1 A2]. cbn [append read_html]. rewrite A1.
    change (name ++ String ">" s)%string with (name ++ ">" ++ s)%string. rewrite IH by exact A2. rewrite sapp_assoc. reflexivity.
Qed.
Lemma text_map a : text_content (map Txt (list_ascii_of_string a)) = a.
Proof. induction a as [|c a IH]; [reflexivity|]. cbn. rewrite IH. reflexivity. Qed.
Lemma tags_map a : tags (map Txt (list_ascii_of_string a)) = [].
Proof. induction a as [|c a IH]; [reflexivity|]. exact IH. Qed.

Lemma prefix_fold_first p a s c : Ascii.eqb c (lower a) = false -> prefix_fold (String c p) (String a s) = false.
Proof. intros H. cbn. rewrite H. reflexivity. Qed.
Lemma lower_lt c : Ascii.eqb "<" (lower c) = Ascii.eqb c "<".
Proof. all_bytes c; vm_compute; reflexivity. Qed.
Lemma unmark_plain s : contains_byte "<" s = false -> unmark 0 s = s.
Proof.
  induction s as [|c s IH]; [reflexivity|]. cbn [contains_byte]. intros H. apply orb_false_iff in H as [A B].
  cbn [unmark]. unfold mark_open, mark_close. cbn [append]. rewrite !prefix_fold_first by (rewrite lower_lt; exact A). rewrite IH by exact B. reflexivity.
Qed.

(** ** URLs *)
Lemma lowerhex_byte c : unhex (lowerhex (N_of_ascii c / 16)) = Some (N_of_ascii c / 16)%N /\
                   unhex (lowerhex (N_of_ascii c mod 16)) = Some (N_of_ascii c mod 16)%N /\
                   ascii_of_N (N_of_ascii c / 16 * 16 + N_of_ascii c mod 16) = c.
Proof. all_bytes c; vm_compute; auto. Qed.
Lemma unescape_percent c s : QueryUnescape (percent c s) = option_map (String c) (QueryUnescape s).
Proof. destruct (lowerhex_byte c) as (A & B & C). unfold percent. cbn [QueryUnescape]. change (Ascii.eqb "%" "%") with true. cbv iota. rewrite A, B, C. reflexivity. Qed.
Lemma unescape_self c s : Ascii.eqb c "%" = false -> Ascii.eqb c "+" = false -> QueryUnescape (String c s) = option_map (String c) (QueryUnescape s).
Proof. intros A B. cbn [QueryUnescape]. rewrite A, B. reflexivity. Qed.

Definition delimiter (x : ascii) : Prop := In x ["&"; "#"; ";"; "="; "+"]%char.
Lemma percent_no_delim x c s : delimiter x -> contains_byte x (percent c s) = contains_byte x s.
Proof.
  intros Hx. unfold percent. cbn [contains_byte].
  assert (A : Ascii.eqb "%" x = false /\ Ascii.eqb (lowerhex (N_of_ascii c / 16)) x = false /\ Ascii.eqb (lowerhex (N_of_ascii c mod 16)) x = false).
  { cbn in Hx. repeat destruct Hx as [<-|Hx]; try contradiction; all_bytes c; vm_compute; auto. }
  destruct A as (-> & -> & ->). reflexivity.
Qed.
Lemma kept_byte c : (url_reserved c = false -> Ascii.eqb c "%" = false -> unreserved c = true -> Ascii.eqb c "+" = false /\ forall x, delimiter x -> Ascii.eqb c x = false).
Proof. intros A B C. split; [|intros x Hx; cbn in Hx; repeat destruct Hx as [<-|Hx]; try contradiction]; revert A B C; all_bytes c; vm_compute; auto; discriminate. Qed.

(** escaped text *)
Lemma unescape_escaped s : QueryUnescape (process_url false s) = Some s.
Proof.
  induction s as [|c s IH]; [reflexivity|]. cbn [process_url andb].
  destruct (url_reserved c) eqn:E1; [rewrite unescape_percent, IH; reflexivity|].
  destruct (Ascii.eqb c "%") eqn:E2; [rewrite unescape_percent, IH; reflexivity|].
  destruct (unreserved c) eqn:E3; [|rewrite unescape_percent, IH; reflexivity].
  destruct (kept_byte c E1 E2 E3) as [A _]. rewrite unescape_self by assumption. rewrite IH. reflexivity.
Qed.
Lemma escaped_no_delim x s : delimiter x -> contains_byte x (process_url false s) = false.
Proof.
  intros Hx. induction s as [|c s IH]; [reflexivity|]. cbn [process_url andb].
  destruct (url_reserved c) eqn:E1; [rewrite percent_no_delim by exact Hx; exact IH|].
  destruct (Ascii.eqb c "%") eqn:E2; [rewrite percent_no_delim by exact Hx; exact IH|].
  destruct (unreserved c) eqn:E3; [|rewrite percent_no_delim by exact Hx; exact IH].
  destruct (kept_byte c E1 E2 E3) as [_ A]. cbn [contains_byte]. rewrite (A x Hx), IH. reflexivity.
Qed.

(** normalised text *)
Lemma hex_digit_iff c : is_hex c = true <-> hex_digit c.
Proof.
  unfold hex_digit. split.
  - all_bytes c; vm_compute; intros H; try discriminate; tauto.
  - cbn. intros H. repeat destruct H as [<-|H]; try reflexivity. contradiction.
Qed.
Lemma link_text_cons c s : link_text (String c s) <->
  (c <> "&"%char /\ c <> "+"%char /\ c <> "#"%char /\ c <> ";"%char) /\ (c = "%"%char -> two_hex s = false) /\ link_text s.
Proof.
  unfold link_text. cbn [list_ascii_of_string In]. split.
  - intros [A B]. split; [apply A; left; reflexivity|]. split.
    + intros ->. destruct s as [|x [|y r]]; [reflexivity..|]. cbn. destruct (is_hex x) eqn:X; [|reflexivity]. destruct (is_hex y) eqn:Y; [|reflexivity].
      exfalso. apply (B "" x y r eq_refl). split; apply hex_digit_iff; assumption.
    + split; [intros c0 H; apply A; right; exact H|]. intros a x y b ->. apply (B (String c a) x y b). reflexivity.
  - intros (A & P & B & C). split; [intros c0 [<-|H]; [exact A|apply B; exact H]|].
    intros a x y b E [Hx Hy]. destruct a as [|c' a]; injection E as -> E.
    + specialize (P eq_refl). rewrite E in P. cbn in P. apply hex_digit_iff in Hx, Hy. rewrite Hx, Hy in P. discriminate.
    + subst s. apply (C a x y b eq_refl). split; assumption.
Qed.
Lemma link_text_nil : link_text "".
Proof. split; [intros c []|]. intros [|? ?] x y b E; discriminate. Qed.

Lemma unescape_normal s : link_text s -> QueryUnescape (process_url true s) = Some s.
Proof.
  induction s as [|c s IH]; intros H; [reflexivity|]. apply link_text_cons in H as ((N1 & N2 & N3 & N4) & P & H). specialize (IH H).
  cbn [process_url andb]. destruct (url_reserved c) eqn:E1.
  { destruct (Ascii.eqb_spec c "%") as [->|Q]; [discriminate|]. rewrite unescape_self; [rewrite IH; reflexivity|apply Ascii.eqb_neq; exact Q|apply Ascii.eqb_neq; exact N2]. }
  destruct (Ascii.eqb_spec c "%") as [->|Q].
  { rewrite (P eq_refl). rewrite unescape_percent, IH. reflexivity. }
  destruct (unreserved c) eqn:E3; [|rewrite unescape_percent, IH; reflexivity].
  rewrite unescape_self; [rewrite IH; reflexivity|apply Ascii.eqb_neq; exact Q|apply Ascii.eqb_neq; exact N2].
Qed.
Lemma normal_contains x s : In x ["&"; "#"; ";"]%char -> contains_byte x (process_url true s) = contains_byte x s.
Proof.
  intros Hx. assert (D : delimiter x) by (cbn in *; tauto). induction s as [|c s IH]; [reflexivity|]. cbn [process_url andb].
  assert (PC : contains_byte x (percent c (process_url true s)) = contains_byte x s) by (rewrite percent_no_delim by exact D; exact IH).
  assert (K : contains_byte x (String c (process_url true s)) = contains_byte x (String c s)) by (cbn [contains_byte]; rewrite IH; reflexivity).
  assert (NE : url_reserved c = false -> contains_byte x (String c s) = contains_byte x s).
  { intros E. cbn [contains_byte]. assert (Ascii.eqb c x = false) as ->; [|reflexivity]. cbn in Hx. revert E. repeat destruct Hx as [<-|Hx]; try contradiction; all_bytes c; vm_compute; auto; discriminate. }
  destruct (url_reserved c) eqn:E1; [exact K|]. specialize (NE eq_refl).
  destruct (Ascii.eqb c "%"); [destruct (two_hex s); [exact K|rewrite PC; symmetry; exact NE]|].
  destruct (unreserved c); [exact K|rewrite PC; symmetry; exact NE].
Qed.
Lemma link_text_contains x s : In x ["&"; "#"; ";"]%char -> link_text s -> contains_byte x s = false.
Proof.
  intros Hx. induction s as [|c s IH]; intros H; [reflexivity|]. apply link_text_cons in H as ((N1 & N2 & N3 & N4) & _ & H). cbn [contains_byte]. rewrite (IH H), orb_false_r.
  apply Ascii.eqb_neq. cbn in Hx. intros ->. repeat destruct Hx as [<-|Hx]; congruence || contradiction.
Qed.
(** a reserved byte other than % separates *)
Lemma two_hex_app s x b : is_hex x = false -> two_hex (s ++ String x b) = two_hex s.
Proof. intros H. destruct s as [|a [|b' r]]; cbn; [destruct b; rewrite ?H; reflexivity|rewrite H, andb_false_r; reflexivity|reflexivity]. Qed.
Lemma normal_app a x b : url_reserved x = true -> process_url true (a ++ String x b) = (process_url true a ++ String x (process_url true b))%string.
Proof.
  intros H. assert (HX : is_hex x = false) by (revert H; all_bytes x; vm_compute; auto; discriminate).
  induction a as [|c a IH]; [cbn [append process_url]; rewrite H; reflexivity|].
  cbn [append process_url andb]. rewrite IH, two_hex_app by exact HX.
  destruct (url_reserved c); [reflexivity|]. destruct (Ascii.eqb c "%"); [destruct (two_hex a); reflexivity|]. destruct (unreserved c); reflexivity.
Qed.

Lemma before_fragment_none s : contains_byte "#" s = false -> before_fragment s = s.
Proof. induction s as [|c s IH]; [reflexivity|]. cbn. intros H. apply orb_false_iff in H as [-> B]. rewrite IH by exact B. reflexivity. Qed.
Lemma before_fragment_app a b : contains_byte "#" a = false -> before_fragment (a ++ String "#" b) = a.
Proof. induction a as [|c a IH]; [reflexivity|]. cbn. intros H. apply orb_false_iff in H as [-> B]. rewrite IH by exact B. reflexivity. Qed.

(** ** Query strings made of pieces *)
(** the piece [w] is read as the pair [p] *)
Definition reads (w : string) (p : string * string) : Prop :=
  contains_byte "&" w = false /\ forall m, parse_pair m w = add_pair m p.
Lemma Query_pieces ws ps : ws <> [] -> Forall2 reads ws ps -> Query_of (join_amp ws) = fold_left add_pair ps [].
Proof.
  intros NE H. unfold Query_of. rewrite split_join; [|exact NE|].
  - generalize (@nil (string * list string)). clear NE. induction H as [|w p ws ps [_ H1] H2 IH]; intros m; [reflexivity|]. cbn [fold_left]. rewrite H1. apply IH.
  - clear NE. induction H as [|w p ws ps [H1 _] H2 IH]; constructor; assumption.
Qed.
Lemma reads_pair k v t : contains_byte "&" k = false -> contains_byte ";" k = false -> contains_byte "=" k = false -> QueryUnescape k = Some k ->
  contains_byte "&" t = false -> contains_byte ";" t = false -> QueryUnescape t = Some v -> reads (k ++ "=" ++ t) (k, v).
Proof.
  intros K1 K2 K3 K4 T1 T2 T3. split.
  - rewrite contains_app. cbn. rewrite K1, T1. reflexivity.
  - intros m. unfold parse_pair. rewrite contains_app. cbn [append contains_byte Ascii.eqb Bool.eqb orb]. rewrite K2, T2. cbn [orb].
    destruct (String.eqb_spec (k ++ String "=" t) "") as [C|_]; [destruct k; discriminate|].
    rewrite CutByte_app by exact K3. rewrite K4, T3. reflexivity.
Qed.
Lemma reads_normal k v : contains_byte "&" k = false -> contains_byte ";" k = false -> contains_byte "=" k = false -> QueryUnescape k = Some k ->
  link_text v -> reads (k ++ "=" ++ process_url true v) (k, v).
Proof.
  intros K1 K2 K3 K4 H. apply reads_pair; auto; [| |apply unescape_normal; exact H]; rewrite normal_contains by (cbn; tauto); apply link_text_contains; auto; cbn; tauto.
Qed.
Lemma reads_escaped k v : contains_byte "&" k = false -> contains_byte ";" k = false -> contains_byte "=" k = false -> QueryUnescape k = Some k ->
  reads (k ++ "=" ++ process_url false v) (k, v).
Proof. intros K1 K2 K3 K4. apply reads_pair; auto; [apply escaped_no_delim; cbn; tauto..|apply unescape_escaped]. Qed.

Lemma values_pairs ps k : values (fold_left add_pair ps []) k = map snd (filter (fun p => String.eqb k (fst p)) ps).
Proof. rewrite values_adds. reflexivity. Qed.
Lemma good_pairs ps m : good m -> good (fold_left add_pair ps m).
Proof. revert m; induction ps as [|p ps IH]; intros m H; [exact H|]. cbn [fold_left]. apply IH. apply good_vAdd. exact H. Qed.
Lemma filter_keyed k k' (l : list string) : map snd (filter (fun p => String.eqb k (fst p)) (map (pair k') l)) = if String.eqb k k' then l else [].
Proof.
  induction l as [|x l IH]; cbn [map filter fst]; [destruct (String.eqb k k'); reflexivity|].
  destruct (String.eqb k k') eqn:E; cbn [map snd]; rewrite IH; reflexivity.
Qed.

(** ** The bytes of a duration *)
Definition duration_byte (c : ascii) : bool :=
  is_digit c || existsb (Ascii.eqb c) ["-"; "."; "n"; "s"; "m"; "h"; "194"; "181"]%char.
Fixpoint all_of (P : ascii -> bool) (s : string) : bool :=
  match s with EmptyString => true | String c s => P c && all_of P s end.
Lemma all_app P a b : all_of P (a ++ b) = all_of P a && all_of P b.
Proof. induction a as [|c a IH]; [reflexivity|]. cbn. rewrite IH, andb_assoc. reflexivity. Qed.
Lemma all_uint u : all_of duration_byte (NilEmpty.string_of_uint u) = true.
Proof. induction u; cbn; auto. Qed.
Lemma all_itoa n : all_of duration_byte (itoa n) = true.
Proof.
  destruct (Z.leb_spec 0 n) as [H|H].
  - destruct (itoa_nonneg n H) as (-> & _ & _). apply all_uint.
  - destruct n as [|p|p]; try lia. rewrite itoa_neg. cbn [all_of]. destruct (itoa_nonneg (Zpos p) ltac:(lia)) as (-> & _ & _). rewrite all_uint. reflexivity.
Qed.
Lemma all_fmtFrac prec v print buf : 0 <= v -> all_of duration_byte buf = true -> all_of duration_byte (fst (fmtFrac prec v print buf)) = true.
Proof.
  revert v print buf. induction prec as [|prec IH]; intros v print buf Hv H; cbn [fmtFrac fst].
  - destruct print; [cbn; exact H|exact H].
  - apply IH; [apply Z.div_pos; lia|]. destruct (print || negb (v mod 10 =? 0)); [|exact H]. cbn [all_of]. rewrite H, andb_true_r.
    unfold duration_byte. pose proof (Z.mod_pos_bound v 10 ltac:(lia)). rewrite (proj2 (digit_char_digit (v mod 10) ltac:(lia))). reflexivity.
Qed.
Lemma duration_bytes d : all_of duration_byte (DurationString d) = true.
Proof.
  rewrite DurationString_eq. assert (M : all_of duration_byte (magnitude (Z.abs d)) = true); [|destruct (d <? 0); [cbn; exact M|exact M]].
  unfold magnitude. pose proof (Z.abs_nonneg d) as Hu. set (u := Z.abs d) in *.
  assert (F : forall prec buf, all_of duration_byte buf = true -> all_of duration_byte (let '(b, n) := fmtFrac prec u false buf in itoa n ++ b) = true).
  { intros prec buf H. pose proof (all_fmtFrac prec u false buf Hu H) as K. destruct (fmtFrac prec u false buf) as [b n]. cbn [fst] in K. rewrite all_app, all_itoa, K. reflexivity. }
  destruct (u <? Second).
  - destruct (u =? 0); [reflexivity|]. destruct (u <? Microsecond); [apply F; reflexivity|]. destruct (u <? Millisecond); apply F; reflexivity.
  - pose proof (all_fmtFrac 9 u false "s" Hu eq_refl) as K. destruct (fmtFrac 9 u false "s") as [b n]. cbn [fst] in K.
    destruct (0 <? n / 60); [destruct (0 <? n / 60 / 60)|]; repeat (rewrite all_app || rewrite all_itoa || cbn [append]); cbn; rewrite ?all_app, ?all_itoa, ?K; reflexivity.
Qed.
Lemma duration_byte_ok c : duration_byte c = true -> c <> "&"%char /\ c <> "+"%char /\ c <> "#"%char /\ c <> ";"%char /\ c <> "%"%char.
Proof. intros H. repeat split; intros ->; discriminate. Qed.
Lemma all_link_text s : all_of duration_byte s = true -> link_text s.
Proof.
  induction s as [|c s IH]; [intros _; apply link_text_nil|]. cbn [all_of]. intros H. apply andb_true_iff in H as [A B].
  destruct (duration_byte_ok c A) as (N1 & N2 & N3 & N4 & N5). apply link_text_cons. split; [tauto|]. split; [intros E; contradiction|]. apply IH; exact B.
Qed.
Lemma duration_link_text d : link_text (DurationString d).
Proof. apply all_link_text, duration_bytes. Qed.
Lemma itoa_link_text n : link_text (itoa n).
Proof. apply all_link_text, all_itoa. Qed.
Lemma all_link_text_overall : link_text "overall".
Proof. repeat (apply link_text_cons; split; [repeat split; discriminate|split; [discriminate|]]). apply link_text_nil. Qed.

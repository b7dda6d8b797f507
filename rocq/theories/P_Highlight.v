(** C83: what is selected is highlighted in the summary table of the search page. *)
From Verif Require Import Go M_Strings M_Types M_Stats M_Filter M_Search M_Text M_Humanize L_Strings L_Text L_Url P_Url M_Url M_Page S_Page P_Page M_Highlight S_Highlight L_Highlight.
Open Scope string_scope.
Open Scope list_scope.
Open Scope Z_scope.

Section Highlight.
Context {RE : Type}.
Notation SearchRequest := (@SearchRequest RE).
Notation Filter := (@Filter RE).
Variable H : string -> string.
Hypothesis HEX : forall s, all_bytes_are lower_hex (H s) = true.

Lemma DurationString_inj d d' : int64 d -> int64 d' -> DurationString d = DurationString d' -> d = d'.
Proof.
  intros I I' E. pose proof (ParseDuration_String _ exact_part_ok d I) as A. pose proof (ParseDuration_String _ exact_part_ok d' I') as B.
  rewrite E, B in A. injection A as A. symmetry. exact A.
Qed.

(** ** The classes of the cells *)
Definition cell_ok (l : table_line) (col : column) (e : element) : Prop :=
  e_name e = (match l_category l with None => "th" | Some _ => "td" end) /\
  (In "active" (e_classes e) <-> col = ActiveColumn) /\
  (In "errored" (e_classes e) <-> col = ErroredColumn) /\
  (forall d, int64 d -> In ("min-" ++ DurationString d)%string (e_classes e) <-> col = MinColumn d) /\
  (forall k, In (categoryClass H k) (e_classes e) <-> exists n, l_category l = Some n /\ H n = H k) /\
  ~ In "ZgotmplZ" (e_classes e).

Lemma append_inj a s t : (a ++ s)%string = (a ++ t)%string -> s = t.
Proof. induction a as [|c a IH]; cbn; [auto|]. intros E. injection E as E. auto. Qed.

Ltac tokens := repeat match goal with
  | X : _ \/ _ |- _ => destruct X as [X|X]
  | X : False |- _ => destruct X
  | X : ?a = ?b |- _ => discriminate X
  end.

Ltac one := first [split; [let X := fresh in intros X; cbn in X; tokens; fail|discriminate]|split; [intros _; reflexivity|intros _; left; reflexivity]].
Ltac header_cell := split; [reflexivity|]; split; [one|]; split; [one|]; split;
  [let d := fresh in let D := fresh in intros d D; generalize (DurationString d); let t := fresh in intros t; split; [let X := fresh in intros X; cbn in X; tokens|discriminate]|];
  split; [let k := fresh in intros k; split; [let X := fresh in intros X; cbn in X; tokens|let X := fresh in intros (? & X & _); discriminate X]|];
  let X := fresh in intros X; cbn in X; tokens.

Ltac cats := let k := fresh in let X := fresh in intros k X; unfold categoryClass in X; cbn in X; tokens; fail.
Ltac zz := let X := fresh in intros X; cbn in X; tokens; fail.
Ltac mins := let d := fresh in let D := fresh in intros d D; generalize (DurationString d); let t := fresh in intros t; split; [let X := fresh in intros X; cbn in X; tokens|discriminate].

Lemma header_ok b col e : (forall d, In d b -> int64 d) -> In (col, e) (l_cells (header_line b)) -> cell_ok (header_line b) col e.
Proof.
  intros B I. cbn [header_line l_cells] in I. apply in_app_or in I as [I|I]; [|apply in_app_or in I as [I|I]].
  - unfold cell_ok, categoryClass. cbn [header_line l_category]. destruct I as [I|[I|[]]]; injection I as <- <-; cbn [e_name e_classes]; header_cell.
  - apply in_map_iff in I as (d & I & D). injection I as <- <-. unfold cell_ok, categoryClass. cbn [header_line l_category e_name e_classes].
    split; [reflexivity|]. split; [|split; [|split; [|split]]].
    + split; [intros X; cbn in X; tokens|discriminate].
    + split; [intros X; cbn in X; tokens|discriminate].
    + intros d' D'. split; [|intros E; injection E as <-; right; left; reflexivity].
      intros [X|[X|[]]]; [discriminate X|]. apply (append_inj "min-") in X. apply DurationString_inj in X; [subst; reflexivity|auto|auto].
    + intros k. split; [intros X; cbn in X; tokens|intros (n & X & _); discriminate X].
    + intros X. cbn in X. tokens.
  - unfold cell_ok, categoryClass. cbn [header_line l_category]. destruct I as [I|[I|[I|[I|[I|[I|[]]]]]]]; injection I as <- <-; cbn [e_name e_classes]; header_cell.
Qed.

Lemma bucket_elements_in class b counts cells col e : bucket_elements class b counts = Some cells -> In (col, e) cells ->
  exists d, In d b /\ col = MinColumn d /\ e = MkElement "td" ["bucket"; "count"; "progress"; ("min-" ++ DurationString d)%string; class].
Proof.
  revert b cells; induction counts as [|n counts IH]; intros [|d b] cells E I; cbn in E; try discriminate; try (injection E as <-; destruct I).
  destruct (bucket_elements class b counts) as [l|] eqn:E1; [|discriminate]. injection E as <-. destruct I as [I|I].
  - injection I as <- <-. exists d. split; [left; reflexivity|]. auto.
  - destruct (IH b l E1 I) as (d' & A & B). exists d'. split; [right; exact A|exact B].
Qed.

Lemma category_ok b cs l col e : (forall d, In d b -> int64 d) -> category_line H b cs = Some l -> In (col, e) (l_cells l) -> cell_ok l col e.
Proof.
  intros B E I. unfold category_line in E. destruct (bucket_elements _ b _) as [buckets|] eqn:EB; [|discriminate]. injection E as <-. cbn [l_cells] in I.
  set (n := cs_Category cs) in *.
  assert (CI : forall k, categoryClass H n = categoryClass H k <-> exists m, Some n = Some m /\ H m = H k).
  { intros k. unfold categoryClass. split; [intros X; apply (append_inj "category-") in X; eauto|]. intros (m & Em & X). injection Em as <-. rewrite X. reflexivity. }
  unfold cell_ok. cbn [l_category].
  assert (G : forall e' (fixed : list string), e_name e' = "td" -> e_classes e' = fixed ++ [categoryClass H n] ->
     (forall k, ~ In (categoryClass H k) fixed) -> ~ In "ZgotmplZ" fixed ->
     e_name e' = "td" /\
     (forall k, In (categoryClass H k) (e_classes e') <-> exists m, Some n = Some m /\ H m = H k) /\ ~ In "ZgotmplZ" (e_classes e') /\
     (In "active" (e_classes e') <-> In "active" fixed) /\ (In "errored" (e_classes e') <-> In "errored" fixed) /\
     (forall d, In ("min-" ++ DurationString d)%string (e_classes e') <-> In ("min-" ++ DurationString d)%string fixed)).
  { clear -CI. intros e' fixed N E F1 F2. split; [exact N|]. rewrite E. split; [|split; [|split; [|split]]].
    - intros k. rewrite in_app_iff. split; [intros [X|[X|[]]]; [destruct (F1 k X)|apply CI; exact X]|intros X; right; left; apply CI; exact X].
    - intros X. apply in_app_or in X as [X|[X|[]]]; [exact (F2 X)|discriminate X].
    - rewrite in_app_iff. split; [intros [X|[X|[]]]; [exact X|discriminate X]|auto].
    - rewrite in_app_iff. split; [intros [X|[X|[]]]; [exact X|discriminate X]|auto].
    - intros d. rewrite in_app_iff. split; [intros [X|[X|[]]]; [exact X|discriminate X]|auto]. }
  assert (K : forall e' fixed, e_name e' = "td" -> e_classes e' = fixed ++ [categoryClass H n] ->
     (forall k, ~ In (categoryClass H k) fixed) -> ~ In "ZgotmplZ" fixed ->
     (In "active" fixed <-> col = ActiveColumn) -> (In "errored" fixed <-> col = ErroredColumn) ->
     (forall d, int64 d -> In ("min-" ++ DurationString d)%string fixed <-> col = MinColumn d) -> cell_ok (MkLine (Some n) (MkElement "tr" []) []) col e').
  { intros e' fixed N E F1 F2 A1 A2 A3. destruct (G e' fixed N E F1 F2) as (G1 & G2 & G3 & G4 & G5 & G6). unfold cell_ok. cbn [l_category].
    split; [exact G1|]. split; [rewrite G4; exact A1|]. split; [rewrite G5; exact A2|]. split; [intros d D; rewrite G6; auto|]. split; [exact G2|exact G3]. }
  apply (in_app_or [_; _]) in I as [I|I]; [|apply in_app_or in I as [I|I]].
  - destruct I as [I|[I|[]]]; injection I as <- <-; [apply (K _ ["category"; "text"])|apply (K _ ["active"; "count"; "progress"; "active"])];
      [reflexivity|reflexivity|cats|zz|one|one|mins|reflexivity|reflexivity|cats|zz|one|one|mins].
  - destruct (bucket_elements_in _ _ _ _ _ _ EB I) as (d & D & -> & ->).
    apply (K _ ["bucket"; "count"; "progress"; ("min-" ++ DurationString d)%string]); [reflexivity|reflexivity|cats|zz|one|one|].
    intros d' D'. split; [|intros E; injection E as <-; right; right; right; left; reflexivity].
    intros [X|[X|[X|[X|[]]]]]; try discriminate X. apply (append_inj "min-") in X. apply DurationString_inj in X; [subst; reflexivity|auto|auto].
  - destruct I as [I|[I|[I|[I|[I|[I|[]]]]]]]; injection I as <- <-;
      [apply (K _ ["errored"; "count"; "progress"])|apply (K _ ["total"; "count"])|apply (K _ ["separator"])|apply (K _ ["oldest"])|apply (K _ ["newest"])|apply (K _ ["rate"; "numeric"])].
    all: first [reflexivity|cats|zz|one|mins].
Qed.

Lemma category_lines_in b css ls l : category_lines H b css = Some ls -> In l ls -> exists cs, In cs css /\ category_line H b cs = Some l.
Proof.
  revert ls; induction css as [|cs css IH]; intros ls E I; cbn in E; [injection E as <-; destruct I|].
  destruct (category_line H b cs) as [l1|] eqn:E1; [|discriminate]. destruct (category_lines H b css) as [ls1|]; [|discriminate]. injection E as <-.
  destruct I as [<-|I]; [exists cs; split; [left; reflexivity|exact E1]|]. destruct (IH ls1 eq_refl I) as (c & A & B). exists c. split; [right; exact A|exact B].
Qed.
Lemma category_line_name b cs l : category_line H b cs = Some l -> l_category l = Some (cs_Category cs) /\ l_element l = MkElement "tr" ["category"].
Proof. unfold category_line. destruct (bucket_elements _ _ _); [|discriminate]. intros E. injection E as <-. split; reflexivity. Qed.

(** The bucketings have durations that Go can have. *)
Definition durations_ok (req : SearchRequest) (response_bucketing : list Z) : Prop :=
  forall d, In d (req_Bucketing req) \/ In d response_bucketing -> int64 d.

Lemma line_ok (req : SearchRequest) rb css lines l : durations_ok req rb -> table_lines H req rb css = Some lines -> In l lines ->
  (forall col e, In (col, e) (l_cells l) -> cell_ok l col e) /\
  (e_name (l_element l) = "tr" /\ (e_classes (l_element l) = ["header"] \/ e_classes (l_element l) = ["category"])) /\
  (l = header_line rb \/ exists cs, In cs css /\ l_category l = Some (cs_Category cs)).
Proof.
  intros D E I. unfold table_lines in E. destruct (category_lines H (req_Bucketing req) css) as [ls|] eqn:EL; [|discriminate]. injection E as <-.
  destruct I as [<-|I].
  - split; [intros col e; apply header_ok; intros d Hd; apply D; auto|]. cbn. auto.
  - destruct (category_lines_in _ _ _ _ EL I) as (cs & A & B). destruct (category_line_name _ _ _ B) as [N1 N2].
    split; [intros col e; apply (category_ok (req_Bucketing req) cs); [intros d Hd; apply D; auto|exact B]|]. rewrite N2. cbn. split; [auto|]. right. exists cs. auto.
Qed.

(** ** The rule *)
Lemma category_good k : good_class (categoryClass H k).
Proof. apply (two_part_class "category" (H k)); [reflexivity|reflexivity|]. apply (all_impl lower_hex); [apply plain_hex|apply HEX]. Qed.
Lemma min_good d : whole d -> good_class ("min-" ++ DurationString d).
Proof. intros W. apply (two_part_class "min" (DurationString d)); [reflexivity|reflexivity|]. apply duration_text; [apply W|exact W]. Qed.
Lemma word_good w : In w ["active"; "errored"] -> good_class w.
Proof. intros [<-|[<-|[]]]; repeat split. Qed.

Lemma classes_good (f : Filter) : (forall d, MinDuration f = Some d -> whole d) -> Forall good_class (highlightClasses H f).
Proof.
  intros W. unfold highlightClasses. destruct (IDs f); [|constructor]. apply Forall_app. split; [|apply Forall_app; split; [|apply Forall_app; split]].
  - destruct (String.eqb _ _); constructor; [apply category_good|constructor].
  - destruct (IsActive f); constructor; [apply word_good; cbn; auto|constructor].
  - destruct (MinDuration f) as [d|]; constructor; [apply min_good; auto|constructor].
  - destruct (IsErrored f); constructor; [apply word_good; cbn; auto|constructor].
Qed.
Lemma classes_nil (f : Filter) : IDs f = [] -> (highlightClasses H f = [] <-> ~ selects_some f).
Proof.
  intros E. unfold highlightClasses, selects_some. rewrite E. destruct (String.eqb_spec (FCategory f) "") as [C|C].
  - destruct (IsActive f) eqn:EA; [cbn; split; [discriminate|intros X; destruct X; auto]|]. destruct (MinDuration f) as [d|]; [split; [discriminate|intros X; destruct X; right; right; left; discriminate]|].
    destruct (IsErrored f); [split; [discriminate|intros X; destruct X; auto]|]. cbn. split; [|reflexivity]. intros _ [X|[X|[X|X]]]; congruence.
  - cbn. split; [discriminate|intros X; destruct X; auto].
Qed.
(** the classes are those of the selection *)
Lemma classes_in (f : Filter) (P : string -> Prop) : IDs f = [] ->
  ((forall c, In c (highlightClasses H f) -> P c) <->
   (FCategory f <> "" -> P (categoryClass H (FCategory f))) /\ (IsActive f = true -> P "active") /\
   (forall d, MinDuration f = Some d -> P ("min-" ++ DurationString d)%string) /\ (IsErrored f = true -> P "errored")).
Proof.
  intros E. unfold highlightClasses. rewrite E. split.
  - intros A. split; [|split; [|split]].
    + intros N. apply A. apply String.eqb_neq in N. rewrite N. left. reflexivity.
    + intros X. apply A. rewrite X. apply in_or_app. right. left. reflexivity.
    + intros d X. apply A. rewrite X. apply in_or_app. right. apply in_or_app. right. left. reflexivity.
    + intros X. apply A. rewrite X. do 3 (apply in_or_app; right). left. reflexivity.
  - intros (A1 & A2 & A3 & A4) c I. apply in_app_or in I as [I|I]; [|apply in_app_or in I as [I|I]; [|apply in_app_or in I as [I|I]]].
    + destruct (String.eqb_spec (FCategory f) "") as [|N]; [destruct I|]. destruct I as [<-|[]]. auto.
    + destruct (IsActive f); [|destruct I]. destruct I as [<-|[]]. auto.
    + destruct (MinDuration f) as [d|]; [|destruct I]. destruct I as [<-|[]]. auto.
    + destruct (IsErrored f); [|destruct I]. destruct I as [<-|[]]. auto.
Qed.

Lemma applies_good cs e : Forall good_class cs ->
  (applies (map (fun n => selector n cs) ["th"; "td"; "tr"]) e <-> In (e_name e) ["th"; "td"; "tr"] /\ forall c, In c cs -> In c (e_classes e)).
Proof.
  intros G.
  assert (R : forall n, In n ["th"; "td"; "tr"] -> read_selector (selector n cs) = Some (n, cs)) by (intros n [<-|[<-|[<-|[]]]]; apply read_good; auto).
  unfold applies. split.
  - intros (_ & s & sel & I & E & S1 & S2). apply in_map_iff in I as (n & <- & I). rewrite (R n I) in E. injection E as <-. cbn [fst snd] in *. subst. auto.
  - intros (I & S). split; [intros s J; apply in_map_iff in J as (n & <- & J); rewrite (R n J); discriminate|].
    exists (selector (e_name e) cs), (e_name e, cs). split; [apply (in_map (fun n => selector n cs)); exact I|]. split; [apply R, I|]. split; [reflexivity|exact S].
Qed.

(** A cell is highlighted exactly if it belongs to what the search selects: the row of the
    category, the column of the flag or the duration, their intersection; the last row if
    nothing of this is selected; nothing on a page for given ids. *)
Theorem C83_highlighted :
  forall (req : SearchRequest) response_bucketing css lines,
  let f := req_Filter req in
  durations_ok req response_bucketing -> (forall d, MinDuration f = Some d -> int64 d) ->
  (forall cs, In cs css -> H (cs_Category cs) = H (FCategory f) -> cs_Category cs = FCategory f) ->
  (forall d, MinDuration f = Some d -> whole d) ->
  css <> [] -> table_lines H req response_bucketing css = Some lines ->
  forall above l below col e, lines = above ++ l :: below -> In (col, e) (l_cells l) ->
  (highlighted (page_style H f) l below e <->
   IDs f = [] /\ (selects_some f -> in_selection f (l_category l) col) /\ (~ selects_some f -> below = [])).
Proof.
  intros req rb css lines f D DM COL W NE E above l below col e EL I.
  assert (IL : In l lines) by (rewrite EL; apply in_or_app; right; left; reflexivity).
  destruct (line_ok req rb css lines l D E IL) as (OK & (TR1 & TR2) & WH). specialize (OK col e I).
  destruct OK as (O1 & O2 & O3 & O4 & O5 & _).
  destruct (IDs f) as [|id ids] eqn:EI.
  2:{ assert (S : page_style H f = NoRule) by (unfold page_style, highlightClasses; rewrite EI; reflexivity). rewrite S. cbn. split; [intros []|intros [X _]; discriminate X]. }
  assert (IN : In (e_name e) ["th"; "td"; "tr"]) by (rewrite O1; destruct (l_category l); cbn; auto).
  pose proof (classes_nil f EI) as CN.
  destruct (highlightClasses H f) as [|c cs] eqn:EC.
  - assert (S : page_style H f = LastRow) by (unfold page_style; rewrite EC, EI; reflexivity). rewrite S. cbn [highlighted].
    assert (NS : ~ selects_some f) by (apply CN; reflexivity).
    split; [intros [-> _]; split; [reflexivity|split; [intros X; destruct (NS X)|reflexivity]]|]. intros (_ & _ & B). specialize (B NS). split; [exact B|].
    rewrite O1. destruct WH as [WH|(cs & _ & ->)]; [|reflexivity]. exfalso.
    (* the header is not the last line *)
    unfold table_lines in E. destruct (category_lines H (req_Bucketing req) css) as [ls|] eqn:EL1; [|discriminate]. injection E as <-.
    subst below l. destruct above as [|a above]; cbn in EL.
    + injection EL as ->. destruct css as [|cs css]; [contradiction|]. cbn in EL1. destruct (category_line H (req_Bucketing req) cs); [|discriminate]. destruct (category_lines H _ css); discriminate.
    + injection EL as _ ->. assert (J : In (header_line rb) (above ++ [header_line rb])) by (apply in_or_app; right; left; reflexivity).
      destruct (category_lines_in _ _ _ _ EL1 J) as (cs & _ & B2). destruct (category_line_name _ _ _ B2) as [X _]. discriminate X.
  - assert (SS : selects_some f).
    { destruct (String.eqb_spec (FCategory f) "") as [C|C]; [|left; exact C]. right. destruct (IsActive f) eqn:EA; [left; reflexivity|]. right.
      destruct (MinDuration f) as [d|] eqn:ED; [left; discriminate|]. right. destruct (IsErrored f) eqn:EE; [reflexivity|].
      exfalso. unfold highlightClasses in EC. rewrite EI, C, EA, ED, EE in EC. discriminate EC. }
    assert (S : page_style H f = Rule (map (fun n => selector n (highlightClasses H f)) ["th"; "td"; "tr"])) by (unfold page_style; rewrite EC; reflexivity).
    rewrite S. cbn [highlighted]. rewrite !(applies_good (highlightClasses H f)) by (apply classes_good; exact W).
    rewrite (classes_in f (fun c => In c (e_classes e)) EI), (classes_in f (fun c => In c (e_classes (l_element l))) EI).
    assert (TRN : ~ ((FCategory f <> "" -> In (categoryClass H (FCategory f)) (e_classes (l_element l))) /\ (IsActive f = true -> In "active" (e_classes (l_element l))) /\
       (forall d, MinDuration f = Some d -> In ("min-" ++ DurationString d)%string (e_classes (l_element l))) /\ (IsErrored f = true -> In "errored" (e_classes (l_element l))))).
    { intros (A1 & A2 & A3 & A4). destruct SS as [SS|[SS|[SS|SS]]].
      - specialize (A1 SS). destruct TR2 as [TR2|TR2]; rewrite TR2 in A1; destruct A1 as [A1|[]]; unfold categoryClass in A1; discriminate A1.
      - specialize (A2 SS). destruct TR2 as [TR2|TR2]; rewrite TR2 in A2; destruct A2 as [A2|[]]; discriminate A2.
      - destruct (MinDuration f) as [d|]; [|congruence]. specialize (A3 d eq_refl). destruct TR2 as [TR2|TR2]; rewrite TR2 in A3; destruct A3 as [A3|[]]; discriminate A3.
      - specialize (A4 SS). destruct TR2 as [TR2|TR2]; rewrite TR2 in A4; destruct A4 as [A4|[]]; discriminate A4. }
    assert (CAT : (FCategory f <> "" -> In (categoryClass H (FCategory f)) (e_classes e)) <-> (FCategory f <> "" -> l_category l = Some (FCategory f))).
    { split; intros X N; specialize (X N).
      - apply O5 in X as (n & X & HN). rewrite X. f_equal. destruct WH as [->|(cs1 & A & B)]; [discriminate X|]. rewrite B in X. injection X as <-. apply COL; assumption.
      - apply O5. exists (FCategory f). auto. }
    unfold in_selection. rewrite CAT, O2, O3.
    assert (MIN : (forall d, MinDuration f = Some d -> In ("min-" ++ DurationString d)%string (e_classes e)) <-> (forall d, MinDuration f = Some d -> col = MinColumn d)).
    { split; intros X d Hd; apply (O4 d (DM d Hd)), X, Hd. }
    rewrite MIN. split.
    + intros [(_ & X)|(_ & X)]; [|destruct (TRN X)]. split; [reflexivity|]. split; [intros _; exact X|intros N; destruct (N SS)].
    + intros (_ & X & _). left. split; [exact IN|exact (X SS)].
Qed.

(** A minimum duration that is not a whole number of its unit (1.5s), or negative, leaves
    the whole table without a highlight. *)
Theorem C83_fractions_are_not_shown_refuted :
  forall (req : SearchRequest) response_bucketing css lines d,
  let f := req_Filter req in
  durations_ok req response_bucketing -> MinDuration f = Some d -> ~ whole d -> table_lines H req response_bucketing css = Some lines ->
  forall above l below col e, lines = above ++ l :: below -> In (col, e) (l_cells l) -> ~ highlighted (page_style H f) l below e.
Proof.
  intros req rb css lines d f D ED NW E above l below col e EL I.
  assert (IL : In l lines) by (rewrite EL; apply in_or_app; right; left; reflexivity).
  destruct (line_ok req rb css lines l D E IL) as (OK & (TR1 & TR2) & _). specialize (OK col e I). destruct OK as (_ & _ & _ & _ & _ & ZZ).
  destruct (IDs f) as [|id ids] eqn:EI.
  2:{ unfold page_style, highlightClasses. rewrite EI. intros []. }
  assert (IM : In ("min-" ++ DurationString d)%string (highlightClasses H f)).
  { unfold highlightClasses. rewrite EI, ED. apply in_or_app. right. apply in_or_app. right. left. reflexivity. }
  assert (S : page_style H f = Rule (map (fun n => selector n (highlightClasses H f)) ["th"; "td"; "tr"])) by (unfold page_style; destruct (highlightClasses H f); [destruct IM|reflexivity]).
  rewrite S. cbn [highlighted].
  assert (Z : ~ In "ZgotmplZ" (e_classes (l_element l))) by (destruct TR2 as [TR2|TR2]; rewrite TR2; intros [X|[]]; discriminate X).
  assert (NO : forall x, ~ In "ZgotmplZ" (e_classes x) -> ~ applies (map (fun n => selector n (highlightClasses H f)) ["th"; "td"; "tr"]) x).
  { intros x NX (A & s & [el cls] & J & R & S1 & S2). apply in_map_iff in J as (n & <- & J). cbn [snd] in S2.
    assert (NN : css_name n = true /\ pieces n = [n]) by (destruct J as [<-|[<-|[<-|[]]]]; split; reflexivity).
    assert (CF : cssValueFilter ("min-" ++ DurationString d) = "ZgotmplZ" \/ cssValueFilter ("min-" ++ DurationString d) = ("min-" ++ DurationString d)%string /\ 0 <= d).
    { destruct (Z.ltb_spec d 0) as [LT|GE].
      - left. rewrite DurationString_eq. destruct (Z.ltb_spec d 0); [|lia]. unfold cssValueFilter. replace (css_unsafe false _) with true by (cbn; reflexivity). reflexivity.
      - unfold cssValueFilter. destruct (_ || _); [left; reflexivity|right; auto]. }
    destruct CF as [CF|[CF GE]].
    - apply NX. apply S2. pose proof (read_classes n (highlightClasses H f) el cls ("min-" ++ DurationString d) R (proj1 NN) (proj2 NN) IM) as RC. rewrite CF in RC. apply RC. reflexivity.
    - apply in_split in IM as (a & b & IM). rewrite IM in R. rewrite (dotted_unreadable n a b) in R; [discriminate R| |exact CF].
      apply dotted_app. apply duration_text; assumption. }
  intros [X|X]; [exact (NO e ZZ X)|exact (NO _ Z X)].
Qed.
End Highlight.

(** ** The page a link leads to *)
Section Links.
Context {RE : Type}.
Notation SearchRequest := (@SearchRequest RE).
Variable H : string -> string.
Hypothesis HEX : forall s, all_bytes_are lower_hex (H s) = true.
Variable fl : Z -> Z -> Z -> Z.
Hypothesis Hfl : float_exact fl.

(** On the page for [req], whatever the response is (without a collision of the hash of the
    selected category), a cell is highlighted exactly if [P] holds of its line, the lines
    below that, and its column. *)
Definition page_highlights (req : SearchRequest) (P : table_line -> list table_line -> column -> Prop) : Prop :=
  forall response_bucketing css lines,
  (forall d, In d response_bucketing -> - 2 ^ 63 <= d < 2 ^ 63) ->
  (forall cs, In cs css -> H (cs_Category cs) = H (FCategory (req_Filter req)) -> cs_Category cs = FCategory (req_Filter req)) ->
  css <> [] -> table_lines H req response_bucketing css = Some lines ->
  forall above l below col e, lines = above ++ l :: below -> In (col, e) (l_cells l) ->
  (highlighted (page_style H (req_Filter req)) l below e <-> P l below col).

Lemma selection_highlights (req : SearchRequest) cat a er m : page_request req -> (forall d, m = Some d -> - 2 ^ 63 <= d < 2 ^ 63 /\ whole d) ->
  page_highlights (selection req cat a er m)
    (fun l below col => let f := req_Filter (selection req cat a er m) in (selects_some f -> in_selection f (l_category l) col) /\ (~ selects_some f -> below = [])).
Proof.
  intros P M rb css lines RB COL NE E above l below col e EL I.
  rewrite (C83_highlighted H HEX (selection req cat a er m) rb css lines); try eassumption.
  - cbn [selection req_Filter IDs]. tauto.
  - intros d [D|D]; [|apply RB, D]. destruct P as (_ & _ & _ & P). apply P, D.
  - intros d D. apply M. exact D.
  - intros d D. apply M. exact D.
Qed.
Lemma page_highlights_iff req (P Q : table_line -> list table_line -> column -> Prop) : (forall l b c, P l b c <-> Q l b c) -> page_highlights req P -> page_highlights req Q.
Proof. intros PQ A rb css lines B1 B2 B3 B4 above l below col e C1 C2. rewrite (A rb css lines B1 B2 B3 B4 above l below col e C1 C2). apply PQ. Qed.

(** A link of the table leads to a page that highlights the cells the link stands for: the
    row, or the one place that was clicked. *)
Theorem C83_links_highlight :
  forall (req : SearchRequest) cat d, page_request req -> - 2 ^ 63 <= d < 2 ^ 63 -> whole d -> cat <> "overall" -> cat <> "" ->
  link_text (Query (req_Filter req)) -> Forall link_text (Sources (req_Filter req)) -> link_text cat ->
  let page href := with_bucketing (@search_request RE fl (follow href)) in
  page_highlights (page (href_category req cat)) (fun l below col => l_category l = Some cat) /\
  page_highlights (page (href_active req cat)) (fun l below col => l_category l = Some cat /\ col = ActiveColumn) /\
  page_highlights (page (href_errored req cat)) (fun l below col => l_category l = Some cat /\ col = ErroredColumn) /\
  page_highlights (page (href_min req cat d)) (fun l below col => l_category l = Some cat /\ col = MinColumn d).
Proof.
  intros req cat d P D W C1 C2 Q S LC page. unfold page. destruct (C69_links_select fl Hfl req cat d P D C1 Q S LC) as (E1 & E2 & E3 & E4).
  rewrite E1, E2, E3, E4. unfold page_request in P.
  assert (SS : forall a er m, selects_some (req_Filter (selection req cat a er m))) by (intros; left; exact C2).
  split; [|split; [|split]].
  - eapply page_highlights_iff; [|apply selection_highlights; [exact P|discriminate]]. intros l b c. cbv beta zeta. specialize (SS false false None).
    unfold in_selection. cbn [selection req_Filter FCategory IsActive IsErrored MinDuration] in *. split.
    + intros (A & _). apply A; [exact SS|exact C2].
    + intros A. split; [|intros N; destruct (N SS)]. intros _. split; [auto|]. split; [discriminate|]. split; discriminate.
  - eapply page_highlights_iff; [|apply selection_highlights; [exact P|discriminate]]. intros l b c. cbv beta zeta. specialize (SS true false None).
    unfold in_selection. cbn [selection req_Filter FCategory IsActive IsErrored MinDuration] in *. split.
    + intros (A & _). destruct (A SS) as (A1 & A2 & _). auto.
    + intros [A B]. split; [|intros N; destruct (N SS)]. intros _. split; [auto|]. split; [auto|]. split; discriminate.
  - eapply page_highlights_iff; [|apply selection_highlights; [exact P|discriminate]]. intros l b c. cbv beta zeta. specialize (SS false true None).
    unfold in_selection. cbn [selection req_Filter FCategory IsActive IsErrored MinDuration] in *. split.
    + intros (A & _). destruct (A SS) as (A1 & _ & _ & A2). auto.
    + intros [A B]. split; [|intros N; destruct (N SS)]. intros _. split; [auto|]. split; [discriminate|]. split; [discriminate|auto].
  - eapply page_highlights_iff; [|apply selection_highlights; [exact P|intros x X; injection X as <-; auto]]. intros l b c. cbv beta zeta. specialize (SS false false (Some d)).
    unfold in_selection. cbn [selection req_Filter FCategory IsActive IsErrored MinDuration] in *. split.
    + intros (A & _). destruct (A SS) as (A1 & _ & A2 & _). auto.
    + intros [A B]. split; [|intros N; destruct (N SS)]. intros _. split; [auto|]. split; [discriminate|]. split; [intros x X; injection X as <-; exact B|discriminate].
Qed.

(** The links of the last row, and of the header, highlight the last row, or a column. *)
Theorem C83_overall_links_highlight :
  forall (req : SearchRequest) d, page_request req -> - 2 ^ 63 <= d < 2 ^ 63 -> whole d ->
  link_text (Query (req_Filter req)) -> Forall link_text (Sources (req_Filter req)) ->
  let page href := with_bucketing (@search_request RE fl (follow href)) in
  page_highlights (page (href_category req "overall")) (fun l below col => below = []) /\
  page_highlights (page (href_active req "overall")) (fun l below col => col = ActiveColumn) /\
  page_highlights (page (href_errored req "overall")) (fun l below col => col = ErroredColumn) /\
  page_highlights (page (href_min req "overall" d)) (fun l below col => col = MinColumn d).
Proof.
  intros req d P D W Q S page. unfold page. destruct (C69_overall_links_select fl Hfl req d P D Q S) as (E1 & E2 & E3 & E4).
  rewrite E1, E2, E3, E4. unfold page_request in P. split; [|split; [|split]].
  - eapply page_highlights_iff; [|apply selection_highlights; [exact P|discriminate]]. intros l b c. cbv beta zeta.
    assert (NS : ~ selects_some (req_Filter (selection req "" false false None))) by (intros [X|[X|[X|X]]]; cbn in X; congruence).
    split; [intros (_ & A); exact (A NS)|]. intros A. split; [intros X; destruct (NS X)|auto].
  - eapply page_highlights_iff; [|apply selection_highlights; [exact P|discriminate]]. intros l b c. cbv beta zeta.
    assert (SS : selects_some (req_Filter (selection req "" true false None))) by (right; left; reflexivity).
    unfold in_selection. cbn [selection req_Filter FCategory IsActive IsErrored MinDuration] in *. split.
    + intros (A & _). destruct (A SS) as (_ & A2 & _). auto.
    + intros B. split; [|intros N; destruct (N SS)]. intros _. split; [congruence|]. split; [auto|]. split; discriminate.
  - eapply page_highlights_iff; [|apply selection_highlights; [exact P|discriminate]]. intros l b c. cbv beta zeta.
    assert (SS : selects_some (req_Filter (selection req "" false true None))) by (right; right; right; reflexivity).
    unfold in_selection. cbn [selection req_Filter FCategory IsActive IsErrored MinDuration] in *. split.
    + intros (A & _). destruct (A SS) as (_ & _ & _ & A2). auto.
    + intros B. split; [|intros N; destruct (N SS)]. intros _. split; [congruence|]. split; [discriminate|]. split; [discriminate|auto].
  - eapply page_highlights_iff; [|apply selection_highlights; [exact P|intros x X; injection X as <-; auto]]. intros l b c. cbv beta zeta.
    assert (SS : selects_some (req_Filter (selection req "" false false (Some d)))) by (right; right; left; discriminate).
    unfold in_selection. cbn [selection req_Filter FCategory IsActive IsErrored MinDuration] in *. split.
    + intros (A & _). destruct (A SS) as (_ & _ & A2 & _). auto.
    + intros B. split; [|intros N; destruct (N SS)]. intros _. split; [congruence|]. split; [discriminate|]. split; [intros x X; injection X as <-; exact B|discriminate].
Qed.
End Links.

(** ** An instance: two categories, with a hash that has no collision between them *)
Definition demo_hash (s : string) : string := if String.eqb s "api" then "a1" else if String.eqb s "db" then "0b" else "ff".
Definition demo_stats (n : string) : CategoryStats := MkCS n 0 0 [0; 0; 0] 0 0 0.
Definition demo_request (cat : string) (a : bool) (m : option Z) : SearchRequest unit :=
  MkReq [0; 100 * Microsecond; 1500 * Millisecond] (MkFilter [] [] cat a false m false false "" None) 10 0.
Definition cell_of (req : SearchRequest unit) (row : nat) (c : nat) : option (table_line * element) :=
  match table_lines demo_hash req (req_Bucketing req) (map demo_stats ["api"; "db"; "overall"]) with
  | Some ls => match nth_error ls row with Some l => match nth_error (l_cells l) c with Some (_, e) => Some (l, e) | None => None end | None => None end
  | None => None
  end.

Example C83_instance :
  (forall s, all_bytes_are lower_hex (demo_hash s) = true) /\
  page_style demo_hash (req_Filter (demo_request "db" true (Some (100 * Microsecond)))) =
    Rule ["th.category-0b.active.min-100" ++ micro ++ "s"; "td.category-0b.active.min-100" ++ micro ++ "s"; "tr.category-0b.active.min-100" ++ micro ++ "s"]%string /\
  read_selector ("td.min-100" ++ micro ++ "s") = Some ("td", [("min-100" ++ micro ++ "s")%string]) /\
  read_selector "td.min-1.5s" = None /\
  option_map (fun c => e_classes (snd c)) (cell_of (demo_request "db" true None) 2 1) = Some ["active"; "count"; "progress"; "active"; "category-0b"] /\
  whole (100 * Microsecond) /\ ~ whole (1500 * Millisecond) /\
  (exists l e, cell_of (demo_request "db" true None) 2 1 = Some (l, e) /\ highlighted (page_style demo_hash (req_Filter (demo_request "db" true None))) l [] e) /\
  (forall l e, cell_of (demo_request "" false (Some (1500 * Millisecond))) 2 4 = Some (l, e) ->
     ~ highlighted (page_style demo_hash (req_Filter (demo_request "" false (Some (1500 * Millisecond))))) l [] e).
Proof.
  split.
  { intros s. unfold demo_hash. destruct (String.eqb s "api"); [reflexivity|]. destruct (String.eqb s "db"); reflexivity. }
  do 4 (split; [vm_compute; reflexivity|]).
  split; [split; [vm_compute; discriminate|right; left; split; vm_compute; reflexivity]|].
  split; [intros (_ & [W|[[W _]|[[W _]|W]]]); vm_compute in W; discriminate W|].
  split.
  - eexists _, _. split; [vm_compute; reflexivity|]. left. split.
    + intros s [<-|[<-|[<-|[]]]]; vm_compute; discriminate.
    + eexists _, _. split; [right; left; reflexivity|]. split; [vm_compute; reflexivity|]. split; [reflexivity|].
      cbn [snd e_classes]. intros c [<-|[<-|[]]]; cbn; auto 10.
  - intros l e C. vm_compute in C. injection C as <- <-. cbn [highlighted page_style]. intros [(A & _)|(A & _)]; apply (A "th.min-1.5s"); vm_compute; auto.
Qed.
Print Assumptions C83_highlighted.
Print Assumptions C83_fractions_are_not_shown_refuted.
Print Assumptions C83_links_highlight.
Print Assumptions C83_overall_links_highlight.

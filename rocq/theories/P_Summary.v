(** C74: the summary table of the search page. *)
From Verif Require Import Go M_Types M_Stats M_Filter S_Order L_Order M_Humanize M_Text M_Search M_Url M_Page M_Summary
  S_Filter S_Stats S_StatsView S_Page S_Summary L_Stats L_Search L_Url L_Page P_Filter P_Stats P_Url P_Page.
From Coq Require Import Sorted.
Open Scope string_scope.
Open Scope list_scope.
Open Scope Z_scope.

Lemma name_less_weak : strict_weak name_less.
Proof.
  unfold name_less. split; [|split].
  - intros x. apply str_lt_irrefl.
  - intros x y z. apply str_lt_trans.
  - intros x y z H. destruct (str_lt_total (cs_Category x) (cs_Category y)) as [E|[E|E]]; [left; exact E| |].
    + right. rewrite <- E. exact H.
    + right. eapply str_lt_trans; eassumption.
Qed.

Lemma category_values_map names cats : (forall n, In n names -> map_get n cats <> None) ->
  (forall n cs, map_get n cats = Some cs -> cs_Category cs = n) ->
  map cs_Category (category_values names cats) = names /\
  (forall cs, In cs (category_values names cats) -> map_get (cs_Category cs) cats = Some cs).
Proof.
  intros H K. induction names as [|n names IH]; [split; [reflexivity|intros cs []]|].
  destruct IH as [I1 I2]; [intros m Hm; apply H; right; exact Hm|]. cbn [category_values].
  destruct (map_get n cats) as [cs|] eqn:E; [|exfalso; apply (H n); [left; reflexivity|exact E]].
  cbn [map]. rewrite (K n cs E). split; [rewrite I1; reflexivity|].
  intros x [<-|Hx]; [rewrite (K n cs E); exact E|apply I2; exact Hx].
Qed.

Section Rows.
Context {RE : Type}.
Variable odd : Z -> Z.
Notation SearchRequest := (@SearchRequest RE).

Lemma bucket_cells_total (req : SearchRequest) cat total : forall counts b, length counts = length b ->
  exists l, bucket_cells odd req cat total b counts = Some l /\
    map c_count l = counts /\ map c_href l = map (href_min req cat) b /\ forall c, In c l -> c_percent c = PercentInt odd (c_count c) total.
Proof.
  induction counts as [|n counts IH]; intros [|d b]; cbn [length]; try discriminate; intros H; cbn [bucket_cells].
  - exists []. split; [reflexivity|]. split; [reflexivity|]. split; [reflexivity|]. intros c [].
  - destruct (IH b) as (l & -> & A & B & C); [lia|]. eexists. split; [reflexivity|]. cbn [map c_count c_href]. rewrite A, B.
    split; [reflexivity|]. split; [reflexivity|]. intros c [<-|Hc]; [reflexivity|apply C; exact Hc].
Qed.
End Rows.

Lemma count_le {A} (p q : A -> bool) l : (forall x, In x l -> p x = true -> q x = true) -> count p l <= count q l.
Proof.
  unfold count, zlen. induction l as [|x l IH]; intros H; [cbn; lia|]. cbn [filter].
  assert (I : Z.of_nat (length (filter p l)) <= Z.of_nat (length (filter q l))) by (apply IH; intros y Hy; apply H; right; exact Hy).
  specialize (H x (or_introl eq_refl)). destruct (p x), (q x); cbn [length]; try lia.
Qed.
Lemma count_all {A} (p : A -> bool) l : (forall x, In x l -> p x = true) -> count p l = zlen l.
Proof. intros H. unfold count. f_equal. induction l as [|x l IH]; [reflexivity|]. cbn. rewrite H by (left; reflexivity). f_equal. apply IH. intros y Hy. apply H. right. exact Hy. Qed.
Lemma count_nonneg {A} (p : A -> bool) l : 0 <= count p l. Proof. unfold count, zlen. lia. Qed.
Lemma count_le_len {A} (p : A -> bool) l : count p l <= zlen l.
Proof. rewrite <- (count_all (fun _ => true) l) by reflexivity. apply count_le. reflexivity. Qed.

Lemma nth_error_ext' {A} (l : list A) : forall l', (forall i, nth_error l i = nth_error l' i) -> l = l'.
Proof.
  induction l as [|x l IH]; intros [|y l'] H; [reflexivity|specialize (H 0%nat); discriminate|specialize (H 0%nat); discriminate|].
  pose proof (H 0%nat) as H0. injection H0 as ->. f_equal. apply IH. intros i. exact (H (S i)).
Qed.

Lemma percent_ok odd n total : 0 < total -> 0 <= n <= total ->
  0 <= PercentInt odd n total <= 100 /\ is_percent (PercentInt odd n total) n total.
Proof.
  intros Ht Hn. unfold PercentInt, is_percent. destruct (Z.eqb_spec total 0); [lia|]. rewrite Z.quot_div_nonneg by lia.
  pose proof (Z.div_mod (100 * n) total ltac:(lia)) as D. pose proof (Z.mod_pos_bound (100 * n) total Ht) as M.
  split; [split; [apply Z.div_pos; lia|apply Z.div_le_upper_bound; lia]|nia].
Qed.

Section Table.
Context {RE : Type}.
Variable odd : Z -> Z.
Notation SearchRequest := (@SearchRequest RE).

Lemma page_ascending (req : SearchRequest) : page_request req -> ascending (req_Bucketing req).
Proof.
  intros (_ & _ & H & _). revert H. generalize (req_Bucketing req) as b. induction b as [|x b IH]; [reflexivity|]. intros H. destruct b as [|y b]; [exact I|].
  split; [apply (H 0%nat 1%nat); cbn; lia|]. apply IH. intros i j Hij. apply (H (S i) (S j)). cbn [length] in *. lia.
Qed.

Lemma table_row_shows (req : SearchRequest) cs mine : page_request req ->
  (forall tr, In tr mine -> succeeded tr = true -> 0 <= TraceDuration tr) ->
  counts_exactly (req_Bucketing req) cs mine ->
  exists r, table_row odd req cs = Some r /\ row_name r = cs_Category cs /\ row_shows (req_Bucketing req) r mine /\
    row_href r = href_category req (cs_Category cs) /\ c_href (row_active r) = href_active req (cs_Category cs) /\
    c_href (row_errored r) = href_errored req (cs_Category cs) /\
    map c_href (row_buckets r) = map (href_min req (cs_Category cs)) (req_Bucketing req).
Proof.
  intros P Hd C. pose proof (page_ascending req P) as As. destruct P as (_ & (b0 & Eb) & _). 
  assert (T : TotalCount cs = zlen mine).
  { apply (C26_total_is_number_of_traces 0 b0); [rewrite <- Eb; exact C|exact Hd]. }
  pose proof C as (C1 & C2 & C3 & C4 & C5 & C6). unfold table_row.
  destruct (bucket_cells_total odd req (cs_Category cs) (TotalCount cs) (BucketCounts cs) (req_Bucketing req) C3) as (l & -> & L1 & L2 & L3).
  eexists. split; [reflexivity|]. cbn [row_name row_href row_active row_buckets row_errored c_href]. split; [reflexivity|]. split; [|repeat split; exact L2].
  assert (B : BucketCounts cs = map (fun d => count (fun tr => succeeded tr && (d <=? TraceDuration tr)) mine) (req_Bucketing req)).
  { apply nth_error_ext'. intros i. rewrite nth_error_map. destruct (nth_error (req_Bucketing req) i) as [d|] eqn:E; cbn [option_map].
    - eapply C26_bucket_is_minimum_duration; eassumption.
    - apply nth_error_None in E. apply nth_error_None. lia. }
  unfold row_shows. cbn [row_name row_href row_active row_buckets row_errored c_count row_total row_oldest row_newest]. rewrite C1, C2, L1, B, C5, C6, T.
  do 4 (split; [reflexivity|]). split; [|split; reflexivity].
  intros H c H0. destruct mine as [|m mine']; [contradiction|]. set (mine := m :: mine') in *.
  assert (Pos : 0 < zlen mine) by (unfold mine, zlen; cbn [length]; lia).
  assert (K : forall p, c_percent c = PercentInt odd (c_count c) (zlen mine) -> c_count c = count p mine -> 0 <= c_percent c <= 100 /\ is_percent (c_percent c) (c_count c) (zlen mine)).
  { intros p E1 E2. rewrite E1. apply percent_ok; [exact Pos|]. rewrite E2. split; [apply count_nonneg|apply count_le_len]. }
  destruct H0 as [<-|[<-|Hc]]; cbn [row_active row_errored row_buckets cells] in *.
  - apply (K active); reflexivity.
  - apply (K failed); reflexivity.
  - assert (In (c_count c) (BucketCounts cs)) as Hin by (rewrite <- L1; apply in_map; exact Hc).
    rewrite B in Hin. apply in_map_iff in Hin as (d & E & _). apply (K (fun tr => succeeded tr && (d <=? TraceDuration tr))); [rewrite (L3 c Hc), T; reflexivity|symmetry; exact E].
Qed.
End Table.

Section Page.
Context {RE : Type}.
Variable odd : Z -> Z.
Notation SearchRequest := (@SearchRequest RE).
Variables (sort : list CategoryStats -> list CategoryStats) (order order' : list string -> list string).
Hypotheses (Hsort : is_sort name_less sort) (Ho : is_order order) (Ho' : is_order order').

Lemma table_rows_spec (req : SearchRequest) (mine : string -> list StaticTrace) : page_request req -> forall css,
  (forall cs, In cs css -> counts_exactly (req_Bucketing req) cs (mine (cs_Category cs)) /\
     forall tr, In tr (mine (cs_Category cs)) -> succeeded tr = true -> 0 <= TraceDuration tr) ->
  exists rs, table_rows odd req css = Some rs /\ map row_name rs = map cs_Category css /\
    forall r, In r rs -> row_shows (req_Bucketing req) r (mine (row_name r)) /\ links_of req r.
Proof.
  intros P. induction css as [|cs css IH]; intros H; [exists []; split; [reflexivity|]; split; [reflexivity|intros r []]|].
  destruct IH as (rs & E & N & A); [intros c Hc; apply H; right; exact Hc|].
  destruct (H cs (or_introl eq_refl)) as [H1 H2].
  destruct (table_row_shows odd req cs (mine (cs_Category cs)) P H2 H1) as (r & Er & Nr & Sr & L).
  exists (r :: rs). cbn [table_rows map]. rewrite Er, E, N, Nr. split; [reflexivity|]. split; [reflexivity|].
  intros x [<-|Hx]; [|apply A; exact Hx]. unfold links_of. rewrite Nr. split; [exact Sr|exact L].
Qed.

Lemma table_rows_app (req : SearchRequest) a b ra rb : table_rows odd req a = Some ra -> table_rows odd req b = Some rb ->
  table_rows odd req (a ++ b) = Some (ra ++ rb).
Proof.
  revert ra. induction a as [|x a IH]; intros ra A B; cbn [table_rows app] in *; [injection A as <-; exact B|].
  destruct (table_row odd req x) as [r|]; [|discriminate]. destruct (table_rows odd req a) as [rs|]; [|discriminate].
  injection A as <-. rewrite (IH rs eq_refl B). reflexivity.
Qed.

(** The statistics of a page are those of the traces [trs]: the table is
    - one row for each category that has a trace, in alphabetical order,
    - then one row, called overall, for all traces,
    and each row shows the numbers of its traces, in as many columns as the header has. *)
Theorem C74_table :
  forall (req : SearchRequest) ss trs,
  page_request req -> describes (req_Bucketing req) ss trs ->
  (forall tr, In tr trs -> succeeded tr = true -> 0 <= TraceDuration tr) ->
  exists rows overall,
    summary_table odd sort order order' req ss = Ok (Some (rows ++ [overall])) /\
    StronglySorted (fun a b => String.ltb a b = true) (map row_name rows) /\
    (forall c, In c (map row_name rows) <-> exists tr, In tr trs /\ TraceCategory tr = c) /\
    (forall r, In r rows -> row_shows (req_Bucketing req) r (of_category (row_name r) trs)) /\
    row_name overall = "overall" /\ row_shows (req_Bucketing req) overall trs /\
    (forall r, In r (rows ++ [overall]) -> links_of req r).
Proof.
  intros req ss trs P (D1 & D2 & D3) Hd. unfold summary_table, AllCategories.
  assert (R : represents (req_Bucketing req) ss trs).
  { split; [exact D1|]. split; [exact D2|]. intros c. specialize (D3 c). destruct (map_get c (Categories ss)) as [cs|]; [|exact D3].
    destruct D3 as (A & B & C). split; [exact A|]. split; [exact B|]. apply counts_exactly_spec. exact C. }
  destruct (Overall_spec _ order' ss trs Ho' R) as (o & Eo & O1 & O2 & O3). rewrite Eo.
  set (names := order (map_keys (Categories ss))).
  assert (Hkeys : forall n, In n names <-> In n (map_keys (Categories ss))) by (intros n; split; apply Permutation_in; [apply Ho|symmetry; apply Ho]).
  destruct (category_values_map names (Categories ss)) as [V1 V2].
  { intros n Hn. apply Hkeys, map_get_in in Hn. exact Hn. }
  { intros n cs E. specialize (D3 n). rewrite E in D3. apply D3. }
  set (vals := category_values names (Categories ss)) in *.
  destruct (Hsort vals) as [Sp So].
  assert (Hval : forall cs, In cs (sort vals) -> map_get (cs_Category cs) (Categories ss) = Some cs).
  { intros cs Hcs. apply V2. eapply Permutation_in; eassumption. }
  destruct (table_rows_spec req (fun c => of_category c trs) P (sort vals)) as (rs & E & N & A).
  { intros cs Hcs. specialize (D3 (cs_Category cs)). rewrite (Hval cs Hcs) in D3. split; [apply D3|].
    intros tr Htr. apply filter_In in Htr as [Htr _]. apply Hd. exact Htr. }
  destruct (table_row_shows odd req o trs P Hd (proj1 (counts_exactly_spec _ _ _) O3)) as (r & Er & Nr & Sr & L).
  exists rs, r. 
  assert (Nd : NoDup (map cs_Category (sort vals))).
  { eapply Permutation_NoDup; [symmetry; apply Permutation_map; exact Sp|]. rewrite V1. eapply Permutation_NoDup; [symmetry; apply Ho|exact D2]. }
  split; [cbn; f_equal; apply table_rows_app; [exact E|cbn [table_rows]; rewrite Er; reflexivity]|].
  split; [|split; [|split; [|split; [|split]]]].
  - rewrite N. clear - So Nd. induction (sort vals) as [|x l IH]; [constructor|]. inversion So as [|? ? S1 S2]; subst. inversion Nd as [|? ? N1 N2]; subst.
    cbn [map]. constructor; [apply IH; assumption|]. rewrite Forall_forall in *. intros c Hc. pose proof Hc as Hc'. apply in_map_iff in Hc as (y & <- & Hy). 
    specialize (S2 y Hy). unfold name_less in S2. destruct (str_lt_total (cs_Category x) (cs_Category y)) as [T|[T|T]]; [exact T| |congruence].
    exfalso. apply N1. rewrite T. exact Hc'.
  - intros c. rewrite N. assert (X : In c (map cs_Category (sort vals)) <-> In c (map_keys (Categories ss))).
    { rewrite <- Hkeys, <- V1. split; apply Permutation_in; apply Permutation_map; [exact Sp|symmetry; exact Sp]. }
    rewrite X, <- map_get_in. specialize (D3 c). destruct (map_get c (Categories ss)) as [cs|].
    + split; [|discriminate]. intros _. destruct D3 as (D3 & _). destruct (of_category c trs) as [|t l] eqn:T; [contradiction|].
      assert (In t (of_category c trs)) as Ht by (rewrite T; left; reflexivity). apply filter_In in Ht as [Ht Ht']. exists t. split; [exact Ht|]. apply String.eqb_eq. exact Ht'.
    + split; [congruence|]. intros (t & Ht & Ec). exfalso. assert (In t (of_category c trs)) as Hin by (apply filter_In; split; [exact Ht|apply String.eqb_eq; exact Ec]).
      rewrite D3 in Hin. destruct Hin.
  - intros x Hx. apply A. exact Hx.
  - rewrite Nr. exact O1.
  - exact Sr.
  - intros x Hx. apply in_app_iff in Hx as [Hx|[<-|[]]]; [apply A; exact Hx|]. unfold links_of. rewrite Nr. exact L.
Qed.

(** ** The numbers and the searches behind them *)
Variable fl : Z -> Z -> Z -> Z.
Hypothesis Hfl : float_exact fl.
Variables (Compile : string -> RE + string) (MatchString : RE -> string -> bool).

(** the traces the search behind a link finds *)
Definition found (href : string) (trs : list StaticTrace) : list StaticTrace :=
  filter (fun tr => snd (Allow Compile MatchString (req_Filter (search_request fl (follow href))) tr)) trs.

Lemma with_bucketing_filter (r : SearchRequest) : req_Filter (with_bucketing r) = req_Filter r. Proof. destruct r. reflexivity. Qed.

Lemma found_selection (req : SearchRequest) href cat act err min trs :
  Sources (req_Filter req) = [] -> Query (req_Filter req) = "" ->
  with_bucketing (search_request fl (follow href)) = selection req cat act err min ->
  found href trs = filter (fun tr => (String.eqb cat "" || String.eqb (TraceCategory tr) cat) && (negb act || negb (TraceFinished tr)) && (negb err || TraceErrored tr) &&
                      match min with Some d => TraceFinished tr && (d <=? TraceDuration tr) | None => true end) trs.
Proof.
  intros S Q E. apply (f_equal req_Filter) in E. rewrite with_bucketing_filter in E. unfold found. rewrite E. apply filter_ext. intros tr.
  unfold selection. cbn [req_Filter]. rewrite S, Q. unfold Allow, initializeQueryRegexp. cbn [Sources IDs FCategory IsActive IsFinished MinDuration IsSuccess IsErrored Query f_regexp].
  cbn [zlen length Z.of_nat Z.ltb Z.compare andb String.eqb].
  destruct (String.eqb cat ""); cbn [negb andb orb]; [|destruct (String.eqb (TraceCategory tr) cat); cbn [negb andb orb snd]; [|reflexivity]];
  (destruct act, (TraceFinished tr) eqn:F; cbn [negb andb orb snd]; try reflexivity;
   destruct min as [d|]; cbn [andb snd]; rewrite ?andb_false_r, ?andb_true_r; try reflexivity; 
   try (rewrite Z.leb_antisym; destruct (TraceDuration tr <? d); cbn [negb snd]; rewrite ?andb_false_r, ?andb_true_r; try reflexivity);
   destruct err, (TraceErrored tr); reflexivity).
Qed.

Lemma filter_filter' {A} (p q : A -> bool) l : filter p (filter q l) = filter (fun x => q x && p x) l.
Proof. induction l as [|x l IH]; [reflexivity|]. cbn [filter]. destruct (q x); cbn [filter andb]; [destruct (p x); rewrite IH; reflexivity|exact IH]. Qed.
Lemma count_split {A} (p q r : A -> bool) l : (forall x, p x = q x || r x) -> (forall x, q x && r x = false) -> count p l = count q l + count r l.
Proof.
  intros H D. unfold count, zlen. induction l as [|x l IH]; [reflexivity|]. cbn [filter]. rewrite H. specialize (D x).
  destruct (q x), (r x); cbn [orb length] in *; try discriminate; lia.
Qed.

(** what the links of a row find, [own] being the traces its links search among *)
Definition finds (req : SearchRequest) (r : row) (own trs : list StaticTrace) : Prop :=
  found (row_href r) trs = own /\
  zlen (found (c_href (row_active r)) trs) = count active own /\
  zlen (found (c_href (row_errored r)) trs) = count failed own + count (fun tr => active tr && TraceErrored tr) own /\
  forall i d c, nth_error (req_Bucketing req) i = Some d -> nth_error (row_buckets r) i = Some c ->
    zlen (found (c_href c) trs) =
    count (fun tr => succeeded tr && (d <=? TraceDuration tr)) own + count (fun tr => failed tr && (d <=? TraceDuration tr)) own.

Lemma links_find (req : SearchRequest) r trs : page_request req -> Sources (req_Filter req) = [] -> Query (req_Filter req) = "" ->
  links_of req r -> link_text (row_name r) -> finds req r (link_scope (row_name r) trs) trs.
Proof.
  intros P S Q (L1 & L2 & L3 & L4) LT. set (sel := if String.eqb (row_name r) "overall" then "" else row_name r).
  assert (QT : link_text (Query (req_Filter req))) by (rewrite Q; apply link_text_nil).
  assert (ST : Forall link_text (Sources (req_Filter req))) by (rewrite S; constructor).
  assert (Sel : forall d, - 2 ^ 63 <= d < 2 ^ 63 ->
    with_bucketing (search_request fl (follow (href_category req (row_name r)))) = selection req sel false false None /\
    with_bucketing (search_request fl (follow (href_active req (row_name r)))) = selection req sel true false None /\
    with_bucketing (search_request fl (follow (href_errored req (row_name r)))) = selection req sel false true None /\
    with_bucketing (search_request fl (follow (href_min req (row_name r) d))) = selection req sel false false (Some d)).
  { intros d Hd. unfold sel. destruct (String.eqb_spec (row_name r) "overall") as [->|Ne].
    - apply C69_overall_links_select; assumption.
    - apply C69_links_select; assumption. }
  assert (Scope : forall p, filter (fun tr => (String.eqb sel "" || String.eqb (TraceCategory tr) sel) && p tr) trs = filter p (link_scope (row_name r) trs)).
  { intros p. unfold link_scope, of_category, sel. destruct (String.eqb (row_name r) "overall"); cbn [orb]; [reflexivity|].
    destruct (String.eqb (row_name r) ""); cbn [orb]; [reflexivity|]. rewrite filter_filter'. reflexivity. }
  assert (Z0 : - 2 ^ 63 <= 0 < 2 ^ 63) by lia.
  destruct (Sel 0 Z0) as (E1 & E2 & E3 & _). unfold finds. rewrite L1, L2, L3.
  split; [|split; [|split]].
  - rewrite (found_selection _ _ _ _ _ _ _ S Q E1). transitivity (filter (fun _ => true) (link_scope (row_name r) trs)).
    + rewrite <- (Scope (fun _ => true)). apply filter_ext. intros tr. cbn [negb orb]. rewrite !andb_true_r. reflexivity.
    + clear. induction (link_scope (row_name r) trs) as [|x l IH]; [reflexivity|]. cbn [filter]. f_equal. exact IH.
  - rewrite (found_selection _ _ _ _ _ _ _ S Q E2). unfold count. f_equal. rewrite <- (Scope active). apply filter_ext. intros tr. unfold active. cbn [negb orb].
    rewrite !andb_true_r. reflexivity.
  - rewrite (found_selection _ _ _ _ _ _ _ S Q E3). rewrite <- (count_split TraceErrored).
    + unfold count. f_equal. rewrite <- (Scope TraceErrored). apply filter_ext. intros tr. cbn [negb orb]. rewrite !andb_true_r. reflexivity.
    + intros tr. unfold failed, active. destruct (TraceFinished tr), (TraceErrored tr); reflexivity.
    + intros tr. unfold failed, active. destruct (TraceFinished tr), (TraceErrored tr); reflexivity.
  - intros i d c Hd Hc. assert (Hr : - 2 ^ 63 <= d < 2 ^ 63) by (apply P; eapply nth_error_In; exact Hd).
    destruct (Sel d Hr) as (_ & _ & _ & E4).
    assert (EH : c_href c = href_min req (row_name r) d).
    { pose proof (f_equal (fun l => nth_error l i) L4) as X. cbn beta in X. rewrite !nth_error_map, Hc, Hd in X. cbn [option_map] in X. congruence. }
    rewrite EH, (found_selection _ _ _ _ _ _ _ S Q E4). rewrite <- (count_split (fun tr => TraceFinished tr && (d <=? TraceDuration tr))).
    + unfold count. f_equal. rewrite <- Scope. apply filter_ext. intros tr. cbn [negb orb]. rewrite !andb_true_r. reflexivity.
    + intros tr. unfold failed, succeeded. destruct (TraceFinished tr), (TraceErrored tr), (d <=? TraceDuration tr); reflexivity.
    + intros tr. unfold failed, succeeded. destruct (TraceFinished tr), (TraceErrored tr), (d <=? TraceDuration tr); reflexivity.
Qed.

(** On a page without a query and sources, the links of a row find
    - all the traces the row counts,
    - exactly the number shown as active,
    - the number shown as errored and, besides, the active traces that have an error,
    - the number shown under a duration and, besides, the failed traces that took that long,
    if the row is the last one, or that of a category that has a name other than overall. *)
Theorem C74_links_find :
  forall (req : SearchRequest) ss trs rows overall,
  page_request req -> describes (req_Bucketing req) ss trs ->
  (forall tr, In tr trs -> succeeded tr = true -> 0 <= TraceDuration tr) ->
  Sources (req_Filter req) = [] -> Query (req_Filter req) = "" ->
  summary_table odd sort order order' req ss = Ok (Some (rows ++ [overall])) ->
  (forall r, In r rows -> row_name r <> "overall" -> row_name r <> "" -> link_text (row_name r) ->
     let mine := of_category (row_name r) trs in
     found (row_href r) trs = mine /\ row_total r = zlen mine /\
     zlen (found (c_href (row_active r)) trs) = c_count (row_active r) /\
     zlen (found (c_href (row_errored r)) trs) = c_count (row_errored r) + count (fun tr => active tr && TraceErrored tr) mine /\
     forall i d c, nth_error (req_Bucketing req) i = Some d -> nth_error (row_buckets r) i = Some c ->
       zlen (found (c_href c) trs) = c_count c + count (fun tr => failed tr && (d <=? TraceDuration tr)) mine) /\
  found (row_href overall) trs = trs /\ row_total overall = zlen trs /\
  zlen (found (c_href (row_active overall)) trs) = c_count (row_active overall) /\
  zlen (found (c_href (row_errored overall)) trs) = c_count (row_errored overall) + count (fun tr => active tr && TraceErrored tr) trs /\
  forall i d c, nth_error (req_Bucketing req) i = Some d -> nth_error (row_buckets overall) i = Some c ->
    zlen (found (c_href c) trs) = c_count c + count (fun tr => failed tr && (d <=? TraceDuration tr)) trs.
Proof.
  intros req ss trs rows overall P D Hd S Q E.
  destruct (C74_table req ss trs P D Hd) as (rows' & overall' & E' & _ & _ & A & N & O & L).
  rewrite E in E'. injection E' as E'. apply app_inj_tail in E' as [<- <-].
  assert (G : forall r mine, link_text (row_name r) -> In r (rows ++ [overall]) -> link_scope (row_name r) trs = mine -> row_shows (req_Bucketing req) r mine ->
     found (row_href r) trs = mine /\ row_total r = zlen mine /\
     zlen (found (c_href (row_active r)) trs) = c_count (row_active r) /\
     zlen (found (c_href (row_errored r)) trs) = c_count (row_errored r) + count (fun tr => active tr && TraceErrored tr) mine /\
     forall i d c, nth_error (req_Bucketing req) i = Some d -> nth_error (row_buckets r) i = Some c ->
       zlen (found (c_href c) trs) = c_count c + count (fun tr => failed tr && (d <=? TraceDuration tr)) mine).
  { intros r mine LT Hr Hs (S1 & S2 & S3 & S4 & _). destruct (links_find req r trs P S Q (L r Hr) LT) as (F1 & F2 & F3 & F4). rewrite Hs in *.
    split; [exact F1|]. split; [exact S4|]. split; [rewrite F2, S1; reflexivity|]. split; [rewrite F3, S2; reflexivity|].
    intros i d c Hi Hc. rewrite (F4 i d c Hi Hc). f_equal.
    pose proof (f_equal (fun l => nth_error l i) S3) as X. cbn beta in X. rewrite !nth_error_map, Hi, Hc in X. cbn [option_map] in X. congruence. }
  split.
  - intros r Hr N1 N2 LT. apply G; [exact LT|apply in_app_iff; left; exact Hr| |apply A; exact Hr].
    unfold link_scope. rewrite (proj2 (String.eqb_neq _ _) N1), (proj2 (String.eqb_neq _ _) N2). reflexivity.
  - apply G; [|apply in_app_iff; right; left; reflexivity| |exact O].
    + rewrite N. apply link_text_cons. repeat (split; [repeat split; discriminate|]).
      repeat (apply link_text_cons; split; [repeat split; discriminate|split; [discriminate|]]). apply link_text_nil.
    + unfold link_scope. rewrite N. reflexivity.
Qed.

(** Finding: the links of a category called overall, and of the empty category, find the
    traces of all categories. *)
Theorem C74_category_overall_refuted :
  forall (req : SearchRequest) ss trs rows overall r other,
  page_request req -> describes (req_Bucketing req) ss trs ->
  (forall tr, In tr trs -> succeeded tr = true -> 0 <= TraceDuration tr) ->
  Sources (req_Filter req) = [] -> Query (req_Filter req) = "" ->
  summary_table odd sort order order' req ss = Ok (Some (rows ++ [overall])) ->
  In r rows -> row_name r = "overall" \/ row_name r = "" -> In other trs -> TraceCategory other <> row_name r ->
  In other (found (row_href r) trs) /\ row_total r < zlen (found (row_href r) trs).
Proof.
  intros req ss trs rows overall r other P D Hd S Q E Hr N Ho1 Ho2.
  destruct (C74_table req ss trs P D Hd) as (rows' & overall' & E' & _ & _ & A & NO & O & L).
  rewrite E in E'. injection E' as E'. apply app_inj_tail in E' as [<- <-].
  assert (LT : link_text (row_name r)).
  { destruct N as [->| ->]; [|apply link_text_nil]. destruct (L overall) as (L' & _); [apply in_app_iff; right; left; reflexivity|].
    apply link_text_cons. repeat (split; [repeat split; discriminate|]).
    repeat (apply link_text_cons; split; [repeat split; discriminate|split; [discriminate|]]). apply link_text_nil. }
  destruct (links_find req r trs P S Q (L r (proj2 (in_app_iff _ _ _) (or_introl Hr))) LT) as (F1 & _).
  assert (Sc : link_scope (row_name r) trs = trs) by (unfold link_scope; destruct N as [->| ->]; reflexivity).
  rewrite F1, Sc. split; [exact Ho1|]. destruct (A r Hr) as (_ & _ & _ & -> & _).
  clear - Ho1 Ho2. unfold of_category, zlen. induction trs as [|x l IH]; [destruct Ho1|]. cbn [filter length].
  assert (G : (length (filter (fun tr => String.eqb (TraceCategory tr) (row_name r)) l) <= length l)%nat).
  { clear. induction l as [|y l IH]; [cbn; lia|]. cbn [filter]. destruct (String.eqb _ _); cbn [length]; lia. }
  destruct Ho1 as [->|Hin].
  - rewrite (proj2 (String.eqb_neq _ _) Ho2). lia.
  - specialize (IH Hin). destruct (String.eqb _ _); cbn [length]; lia.
Qed.
End Page.

(** Finding: where nothing has been collected, the percentages of the only row come from
    the conversion of a NaN, which Go leaves open. *)
Theorem C74_empty_refuted :
  forall RE odd sort order order' (req : @SearchRequest RE) ss,
  is_sort name_less sort -> is_order order -> is_order order' ->
  page_request req -> describes (req_Bucketing req) ss [] ->
  exists r, summary_table odd sort order order' req ss = Ok (Some [r]) /\ row_name r = "overall" /\ row_total r = 0 /\
    forall c, In c (cells r) -> c_percent c = odd 0.
Proof.
  intros RE odd sort order order' req ss Hs Ho Ho' P D.
  destruct (C74_table odd sort order order' Hs Ho Ho' req ss [] P D) as (rows & o & E & _ & R & _ & N & O & L); [intros tr []|].
  assert (rows = []) as ->.
  { destruct rows as [|r rows]; [reflexivity|]. destruct (proj1 (R (row_name r))) as (t & [] & _). left. reflexivity. }
  exists o. cbn [app] in E. split; [exact E|]. split; [exact N|]. destruct O as (O1 & O2 & O3 & O4 & _). split; [exact O4|].
  unfold summary_table in E. destruct (AllCategories sort order order' ss) as [css|]; [|discriminate]. cbn [bind] in E.
  injection E as E. destruct css as [|cs css]; [discriminate|]. cbn [table_rows] in E. destruct (table_row odd req cs) as [r|] eqn:ER; [|discriminate].
  destruct (table_rows odd req css); [|discriminate]. injection E as -> _. unfold table_row in ER.
  destruct (bucket_cells odd req (cs_Category cs) (TotalCount cs) (req_Bucketing req) (BucketCounts cs)) as [bs|] eqn:EB; [|discriminate].
  injection ER as <-. cbn [row_total row_active row_errored row_buckets c_count c_percent cells] in *. unfold zlen in O4. cbn in O4, O1, O2. rewrite O4, O1, O2 in *.
  intros c [<-|[<-|Hc]]; try reflexivity.
  assert (Z0 : Forall (fun n => n = 0) (map c_count bs)).
  { rewrite O3. apply Forall_forall. intros n Hn. apply in_map_iff in Hn as (d & <- & _). reflexivity. }
  clear - EB Hc Z0. revert bs EB Hc Z0. generalize (req_Bucketing req) as b. induction (BucketCounts cs) as [|n l IH]; intros b bs EB Hc Z0.
  - destruct b; injection EB as <-; destruct Hc.
  - destruct b as [|d b]; [discriminate|]. cbn [bucket_cells] in EB. destruct (bucket_cells odd req (cs_Category cs) 0 b l) as [bs'|] eqn:E'; [|discriminate].
    injection EB as <-. inversion Z0; subst. destruct Hc as [<-|Hc]; [|eapply IH; eassumption]. cbn [c_count c_percent] in *. subst. reflexivity.
Qed.

(** A page over five traces in three categories, one of them called overall. *)
Definition demo_table_page : @SearchRequest unit :=
  MkReq [0; Millisecond; Second] (MkFilter [] [] "" false false None false false "" None) 25 0.
Definition demo_traces : list StaticTrace :=
  [demo_st "b" 7 Second true false 2; demo_st "overall" 3 1 false false 1; demo_st "a" 9 12 true false 1;
   demo_st "a" 4 (2 * Second) true true 1; demo_st "a" 5 1 false true 1].
Definition demo_rows : option (list row) :=
  match Observe (NewSearchStats [0; Millisecond; Second]) demo_traces with
  | Ok ss => match summary_table (fun _ => -7) (isort name_less) (@rev string) id_order demo_table_page ss with Ok t => t | Panic => None end
  | Panic => None
  end.
Definition demo_found (href : string) : list StaticTrace :=
  found exact_part (fun _ => inl tt) (fun _ _ => true) href demo_traces.
Example C74_instance :
  page_request demo_table_page /\ is_sort name_less (isort name_less) /\ is_order (@rev string) /\ is_order id_order /\
  (exists ss, Observe (NewSearchStats [0; Millisecond; Second]) demo_traces = Ok ss /\ describes [0; Millisecond; Second] ss demo_traces) /\
  link_text "a" /\
  exists a b o overall, demo_rows = Some [a; b; o; overall] /\
  map row_name [a; b; o; overall] = ["a"; "b"; "overall"; "overall"] /\
  map (fun r => (c_count (row_active r), map c_count (row_buckets r), c_count (row_errored r), row_total r)) [a; b; o; overall] =
    [(1, [1; 0; 0], 1, 3); (0, [1; 1; 1], 0, 1); (1, [0; 0; 0], 0, 1); (2, [2; 1; 1], 1, 5)] /\
  map (fun c => c_percent c) (cells a) = [33; 33; 33; 0; 0] /\
  c_href (row_errored a) = "?n=25&b=0s&b=1ms&b=1s&category=a&errored" /\
  zlen (demo_found (c_href (row_active a))) = 1 /\
  zlen (demo_found (row_href o)) = 5.
Proof.
  split.
  { split; [cbn; lia|]. split; [exists [Millisecond; Second]; reflexivity|]. split.
    - intros i j H. cbn [length req_Bucketing demo_table_page] in *. destruct i as [|[|[|]]], j as [|[|[|]]]; cbn; try lia; unfold Millisecond, Second; lia.
    - intros d H. cbn in H. unfold Second, Millisecond in H. lia. }
  split; [apply isort_is_sort, name_less_weak|]. split; [intros l; symmetry; apply Permutation_rev|]. split; [intros l; apply Permutation_refl|].
  split.
  { destruct (observe_new [0; Millisecond; Second] demo_traces) as (ss & E & (R1 & R2 & R3) & _). exists ss. split; [exact E|]. split; [exact R1|]. split; [exact R2|].
    intros c. specialize (R3 c). destruct (map_get c (Categories ss)); [|exact R3]. destruct R3 as (A & B & C). split; [exact A|]. split; [exact B|]. apply counts_exactly_spec. exact C. }
  split; [apply link_text_cons; split; [repeat split; discriminate|]; split; [discriminate|apply link_text_nil]|].
  do 4 eexists. split; [vm_compute; reflexivity|]. do 4 (split; [vm_compute; reflexivity|]). split; vm_compute; reflexivity.
Qed.
(** Findings: a link may find more traces than the number it is under. *)
Theorem C74_errored_link_refuted :
  exists r rows c, demo_rows = Some (r :: rows) /\ row_name r = "a" /\
    c = row_errored r /\ c_count c = 1 /\ zlen (demo_found (c_href c)) = 2.
Proof. do 3 eexists. split; [vm_compute; reflexivity|]. split; [reflexivity|]. split; [reflexivity|]. split; [reflexivity|vm_compute; reflexivity]. Qed.
Theorem C74_duration_link_refuted :
  exists r rows c, demo_rows = Some (r :: rows) /\ row_name r = "a" /\
    nth_error (row_buckets r) 2 = Some c /\ c_count c = 0 /\ zlen (demo_found (c_href c)) = 1.
Proof. do 3 eexists. split; [vm_compute; reflexivity|]. split; [reflexivity|]. split; [reflexivity|]. split; [reflexivity|vm_compute; reflexivity]. Qed.
Print Assumptions C74_table.
Print Assumptions C74_links_find.
Print Assumptions C74_category_overall_refuted.
Print Assumptions C74_empty_refuted.
Print Assumptions C74_errored_link_refuted.
Print Assumptions C74_duration_link_refuted.

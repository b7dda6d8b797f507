(** C68, C69, C70: event text, links and the search form of the search page. *)
From Verif Require Import Go M_Strings M_Types M_Frame M_Filter S_Order L_Order M_Humanize M_Text M_Search M_Url M_Page S_Page L_Search L_Strings L_Text L_Url P_Url L_Page.
From Coq Require Import Sorted.
Open Scope string_scope.
Open Scope list_scope.
Open Scope Z_scope.

(** ** C68 *)
(** Whatever the text of an event is, the page shows that text: the only elements are line
    break opportunities, and no reference is left open. *)
Theorem C68_event_text_is_shown :
  forall what, exists l,
  read_html InText (event_html what) = Some l /\ text_content l = showable what /\ forall t, In t (tags l) -> t = "wbr".
Proof.
  intros what. destruct (event_html_read what) as (l & R & T & W). exists l. repeat split; auto.
  intros t H. rewrite Forall_forall in W. symmetry. apply W. exact H.
Qed.
Print Assumptions C68_event_text_is_shown.

Lemma showable_no_nul s : contains_byte "000" s = false -> showable s = s.
Proof. induction s as [|c s IH]; [reflexivity|]. cbn. intros H. apply orb_false_iff in H as [-> B]. rewrite IH by exact B. reflexivity. Qed.
(** Different texts look different. *)
Theorem C68_event_text_is_kept :
  forall a b, ~ In "000"%char (list_ascii_of_string a) -> ~ In "000"%char (list_ascii_of_string b) -> event_html a = event_html b -> a = b.
Proof.
  assert (N : forall s, ~ In "000"%char (list_ascii_of_string s) -> showable s = s).
  { intros s H. apply showable_no_nul. induction s as [|c s IH]; [reflexivity|]. cbn in *. destruct (Ascii.eqb_spec c "000"); [tauto|]. apply IH. tauto. }
  intros a b Ha Hb E. destruct (event_html_read a) as (l & R & T & _). destruct (event_html_read b) as (l' & R' & T' & _).
  rewrite E, R' in R. injection R as ->. rewrite N in T, T' by assumption. congruence.
Qed.
Print Assumptions C68_event_text_is_kept.

(** Highlighting keeps text in which nothing looks like HTML. *)
Theorem C68_highlighting_plain_text :
  forall find what l, (forall s b m a, find s = Some (b, m, a) -> s = (b ++ m ++ a)%string) ->
  ~ In "<"%char (list_ascii_of_string what) -> ~ In "&"%char (list_ascii_of_string what) -> ~ In "000"%char (list_ascii_of_string what) ->
  read_html InText (event_html what) = Some l ->
  exists l', read_html InText (highlight find (event_html what) (text_content l)) = Some l' /\ text_content l' = what.
Proof.
  intros find what l Hf H1 H2 H3 R.
  assert (C : forall x, ~ In x (list_ascii_of_string what) -> contains_byte x what = false).
  { intros x. clear. induction what as [|c s IH]; [reflexivity|]. cbn. intros H. destruct (Ascii.eqb_spec c x); [tauto|]. apply IH. tauto. }
  apply C in H1, H2, H3. destruct (event_html_read what) as (l0 & R0 & T & _). rewrite R in R0. injection R0 as <-.
  rewrite showable_no_nul in T by exact H3. unfold highlight. destruct (find (event_html what)); [|exists l; auto].
  rewrite T, unmark_plain by exact H1. destruct (find what) as [[[b m] a]|] eqn:F.
  - apply Hf in F. clear T R C. subst what. rewrite !contains_app in H1, H2. apply orb_false_iff in H1 as [B1 H1]. apply orb_false_iff in H1 as [M1 A1]. apply orb_false_iff in H2 as [B2 H2]. apply orb_false_iff in H2 as [M2 A2].
    assert (RA : read_html InText a = Some (map Txt (list_ascii_of_string a))).
    { rewrite <- (str_app_nil_r a) at 1. rewrite (read_text_app a "" []) by auto. rewrite app_nil_r. reflexivity. }
    exists (map Txt (list_ascii_of_string b) ++ Tag ("mark class=" ++ quote ++ "highlight" ++ quote) :: map Txt (list_ascii_of_string m) ++ Tag "/mark" :: map Txt (list_ascii_of_string a)).
    split.
    + apply read_text_app; auto. cbn [append mark_open mark_close quote].
      change (read_html InText (String "<" ?s)) with (read_html (InTag "") s).
      etransitivity; [apply (read_tag_app ("mark class=" ++ quote ++ "highlight" ++ quote) "" (m ++ String "<" (String "/" (String "m" (String "a" (String "r" (String "k" (String ">" a)))))))); reflexivity|].
      rewrite (read_text_app m _ (Tag "/mark" :: map Txt (list_ascii_of_string a))); auto.
      change (read_html InText (String "<" ?s)) with (read_html (InTag "") s).
      etransitivity; [apply (read_tag_app "/mark" "" a); reflexivity|]. rewrite RA. reflexivity.
    + rewrite text_app. cbn [text_content]. rewrite text_app. cbn [text_content]. rewrite !text_map. reflexivity.
  - exists (map Txt (list_ascii_of_string what)). split; [|apply text_map].
    rewrite <- (str_app_nil_r what) at 1. rewrite (read_text_app what "" []) by auto. rewrite app_nil_r. reflexivity.
Qed.
Print Assumptions C68_highlighting_plain_text.

(** Finding: when the page has a query, the text of a matching event is put back into the page
    as HTML: the elements written in the text of the event become elements of the page. *)
Theorem C68_highlighting_makes_text_html_refuted :
  forall find what before m after, ~ In "000"%char (list_ascii_of_string what) ->
  find (event_html what) <> None -> find what = Some (before, m, after) -> unmark 0 what = what ->
  forall l, read_html InText (event_html what) = Some l ->
  highlight find (event_html what) (text_content l) = (before ++ mark_open ++ m ++ mark_close ++ after)%string.
Proof.
  intros find what b m a H3 F1 F2 U l R.
  assert (C : contains_byte "000" what = false).
  { clear - H3. induction what as [|c s IH]; [reflexivity|]. cbn in *. destruct (Ascii.eqb_spec c "000"); [tauto|]. apply IH. tauto. }
  destruct (event_html_read what) as (l0 & R0 & T & _). rewrite R in R0. injection R0 as <-. rewrite showable_no_nul in T by exact C.
  unfold highlight. destruct (find (event_html what)); [|congruence]. rewrite T, U, F2. reflexivity.
Qed.
Print Assumptions C68_highlighting_makes_text_html_refuted.

(** the regular expression GET, for texts that begin with it *)
Definition find_get (s : string) : option (string * string * string) :=
  if String.prefix "GET" s then Some ("", "GET", str_skip 3 s) else None.
Example C68_instance :
  event_html "a<b>, ""x"" & 'y';" = "a&lt;<wbr>b&gt;<wbr>,<wbr> &#34;<wbr>x&#34;<wbr> &amp;<wbr> &#39;<wbr>y&#39;<wbr>;<wbr>" /\
  option_map text_content (read_html InText (event_html "a<b>, ""x"" & 'y';")) = Some "a<b>, ""x"" & 'y';" /\
  option_map tags (read_html InText (event_html "GET <img src=x onerror=alert(1)>")) = Some ["wbr"; "wbr"] /\
  (forall s b m a, find_get s = Some (b, m, a) -> s = (b ++ m ++ a)%string) /\
  unmark 0 "x <MARK class=""highlight"">y</mark>" = "x  y " /\
  option_map tags (read_html InText (highlight find_get (event_html "GET <img src=x onerror=alert(1)>") "GET <img src=x onerror=alert(1)>"))
    = Some ["mark class=""highlight"""; "/mark"; "img src=x onerror=alert(1)"].
Proof.
  do 3 (split; [vm_compute; reflexivity|]). split; [|split; vm_compute; reflexivity].
  intros s b m a. unfold find_get. destruct (String.prefix "GET" s) eqn:E; [|discriminate]. intros [= <- <- <-].
  apply prefix_iff in E as [r ->]. change 3%nat with (String.length "GET"). rewrite str_skip_app. reflexivity.
Qed.

(** ** C69 *)
Section Links.
Context {RE : Type}.
Notation SearchRequest := (@SearchRequest RE).
Notation Filter := (@Filter RE).
Variable fl : Z -> Z -> Z -> Z.
Hypothesis Hfl : float_exact fl.
Notation search_request := (@search_request RE fl).

(** the pieces of a link's query string, and the pairs they stand for *)
Definition amp (k : string) (v : string) : string := (k ++ "=" ++ process_url true v)%string.
Definition page_pairs (req : SearchRequest) : list (string * string) :=
  ("n", itoa (req_Limit req)) ::
  (if String.eqb (Query (req_Filter req)) "" then [] else [("q", Query (req_Filter req))]) ++
  map (pair "source") (Sources (req_Filter req)) ++
  (if durations_eqb DefaultBucketing (req_Bucketing req) then [] else map (pair "b") (map DurationString (req_Bucketing req))).
Definition category_pairs (req : SearchRequest) (cat : string) : list (string * string) :=
  page_pairs req ++ (if String.eqb cat "overall" then [] else [("category", cat)]).
Definition raw_text (p : string * string) : string := (fst p ++ "=" ++ snd p)%string.

Lemma join_cons_ne w ws : ws <> [] -> join_amp (w :: ws) = (w ++ String "&" (join_amp ws))%string.
Proof. destruct ws; [congruence|reflexivity]. Qed.
Lemma and_param_join k l v : l <> [] -> and_param k (join_amp (map raw_text l)) v = join_amp (map raw_text (l ++ [(k, v)])).
Proof.
  intros H. rewrite map_app. cbn [map]. rewrite join_app by (destruct l; [congruence|discriminate]). unfold and_param, raw_text. reflexivity.
Qed.
Lemma fold_and_param k vs l : l <> [] -> fold_left (and_param k) vs (join_amp (map raw_text l)) = join_amp (map raw_text (l ++ map (pair k) vs)).
Proof.
  revert l; induction vs as [|v vs IH]; intros l H; cbn [fold_left map]; [rewrite app_nil_r; reflexivity|].
  rewrite and_param_join by exact H. rewrite IH by (destruct l; discriminate). rewrite <- app_assoc. reflexivity.
Qed.
Lemma fold_duration k ds p : fold_left (fun p d => and_param k p (DurationString d)) ds p = fold_left (and_param k) (map DurationString ds) p.
Proof. revert p; induction ds as [|d ds IH]; intros p; [reflexivity|]. cbn. apply IH. Qed.
Lemma query_params_join (req : SearchRequest) : query_params req = join_amp (map raw_text (page_pairs req)).
Proof.
  unfold query_params, page_pairs. change ("n=" ++ itoa (req_Limit req))%string with (join_amp (map raw_text [("n", itoa (req_Limit req))])).
  set (q := Query (req_Filter req)).
  assert (E : (if String.eqb q "" then join_amp (map raw_text [("n", itoa (req_Limit req))]) else and_param "q" (join_amp (map raw_text [("n", itoa (req_Limit req))])) q)
     = join_amp (map raw_text (("n", itoa (req_Limit req)) :: (if String.eqb q "" then [] else [("q", q)])))).
  { destruct (String.eqb q ""); [reflexivity|]. rewrite and_param_join by discriminate. reflexivity. }
  rewrite E. clear E. rewrite fold_and_param by discriminate.
  destruct (durations_eqb DefaultBucketing (req_Bucketing req)).
  - rewrite app_nil_r. reflexivity.
  - rewrite fold_duration, fold_and_param by (destruct (String.eqb q ""); discriminate). f_equal. f_equal. cbn [app]. rewrite <- app_assoc. reflexivity.
Qed.
Lemma category_params_join (req : SearchRequest) cat : category_query_params req cat = join_amp (map raw_text (category_pairs req cat)).
Proof.
  unfold category_query_params, category_pairs. rewrite query_params_join. destruct (String.eqb cat "overall"); [rewrite app_nil_r; reflexivity|].
  apply and_param_join. discriminate.
Qed.

(** keys that stand for themselves *)
Definition page_keys : list string := ["n"; "q"; "source"; "b"; "category"; "id"].
Lemma key_facts k : In k page_keys -> contains_byte "&" k = false /\ contains_byte ";" k = false /\ contains_byte "=" k = false /\ QueryUnescape k = Some k /\
  forall v, process_url true (k ++ "=" ++ v) = (k ++ "=" ++ process_url true v)%string.
Proof. intros H. cbn in H. repeat destruct H as [<-|H]; try contradiction; repeat split. Qed.
Lemma normal_join l : Forall (fun p => In (fst p) page_keys) l ->
  process_url true (join_amp (map raw_text l)) = join_amp (map (fun p => amp (fst p) (snd p)) l).
Proof.
  induction l as [|[k v] l IH]; intros H; [reflexivity|]. inversion H as [|? ? H1 H2]; subst. specialize (IH H2). cbn [fst] in H1.
  destruct (key_facts k H1) as (_ & _ & _ & _ & K). destruct l as [|p l].
  - cbn [map join_amp]. apply K.
  - cbn [map] in *. rewrite (join_cons_ne (raw_text (k, v))) by discriminate. rewrite (join_cons_ne (amp (fst (k, v)) (snd (k, v)))) by discriminate.
    rewrite normal_app by reflexivity. rewrite IH. unfold raw_text at 1. cbn [fst snd]. rewrite K. reflexivity.
Qed.
Lemma reads_amp k v : In k page_keys -> link_text v -> reads (amp k v) (k, v).
Proof. intros H L. destruct (key_facts k H) as (A & B & C & D & _). apply reads_normal; assumption. Qed.

Definition links_ok (req : SearchRequest) (cat : string) : Prop :=
  link_text (Query (req_Filter req)) /\ Forall link_text (Sources (req_Filter req)) /\ link_text cat.
Lemma pairs_ok (req : SearchRequest) cat : links_ok req cat -> Forall (fun p => In (fst p) page_keys /\ link_text (snd p)) (category_pairs req cat).
Proof.
  intros (Q & S & C). unfold category_pairs, page_pairs. apply Forall_app. split.
  - constructor; [split; [cbn; tauto|apply itoa_link_text]|]. apply Forall_app. split.
    + destruct (String.eqb _ ""); constructor; [|constructor]. split; [cbn; tauto|exact Q].
    + apply Forall_app. split.
      * apply Forall_forall. intros p Hp. apply in_map_iff in Hp as (s & <- & Hs). split; [cbn; tauto|]. rewrite Forall_forall in S. apply S. exact Hs.
      * destruct (durations_eqb _ _); constructor || idtac. apply Forall_forall. intros p Hp. apply in_map_iff in Hp as (s & <- & Hs). apply in_map_iff in Hs as (d & <- & _).
        split; [cbn; tauto|apply duration_link_text].
  - destruct (String.eqb cat "overall"); constructor; [|constructor]. split; [cbn; tauto|exact C].
Qed.

(** extra pieces at the end of a link *)
Lemma join_app_all a b : a <> [] -> b <> [] -> join_amp (a ++ b) = (join_amp a ++ String "&" (join_amp b))%string.
Proof.
  induction a as [|w a IH]; intros Ha Hb; [congruence|]. destruct a as [|w' a].
  - cbn [app]. rewrite join_cons_ne by exact Hb. reflexivity.
  - change ((w :: w' :: a) ++ b) with (w :: ((w' :: a) ++ b)). rewrite join_cons_ne by discriminate. rewrite IH by (discriminate || exact Hb).
    rewrite (join_cons_ne w (w' :: a)) by discriminate. rewrite sapp_assoc. reflexivity.
Qed.
Definition tail_text (ws : list string) : string := match ws with [] => "" | _ => String "&" (join_amp ws) end.
Lemma contains_join x ws : Ascii.eqb "&" x = false -> (forall w, In w ws -> contains_byte x w = false) -> contains_byte x (join_amp ws) = false.
Proof.
  intros N H. induction ws as [|w ws IH]; [reflexivity|]. destruct ws as [|w' ws]; [apply H; left; reflexivity|].
  rewrite join_cons_ne by discriminate. rewrite contains_app. cbn [contains_byte]. rewrite N, IH by (intros; apply H; right; assumption). rewrite (H w) by (left; reflexivity). reflexivity.
Qed.
(** [l] are the pairs written into the link, [l'] the pairs they are read as *)
Lemma follow_gen (l l' : list (string * string)) ws ps : l <> [] ->
  Forall2 (fun p p' => In (fst p) page_keys /\ contains_byte "#" (snd p) = false /\ reads (amp (fst p) (snd p)) p') l l' ->
  Forall2 reads ws ps -> (forall w, In w ws -> contains_byte "#" w = false) ->
  Query_of (follow ("?" ++ process_url true (join_amp (map raw_text l)) ++ tail_text ws)) = fold_left add_pair (l' ++ ps) [].
Proof.
  intros NE0 P R F.
  assert (PK : Forall (fun p => In (fst p) page_keys) l) by (clear - P; induction P as [|? ? ? ? H]; constructor; tauto).
  rewrite normal_join by exact PK. set (us := map (fun p => amp (fst p) (snd p)) l).
  assert (NE : us <> []) by (unfold us; destruct l; [congruence|discriminate]).
  assert (E : (join_amp us ++ tail_text ws)%string = join_amp (us ++ ws)).
  { destruct ws as [|w ws]; [cbn [tail_text]; rewrite app_nil_r, str_app_nil_r; reflexivity|]. cbn [tail_text]. rewrite join_app_all by (exact NE || discriminate). reflexivity. }
  cbn [append follow]. rewrite E.
  rewrite before_fragment_none.
  - apply Query_pieces; [destruct us; [congruence|discriminate]|]. apply Forall2_app; [|exact R].
    unfold us. clear - P. induction P as [|[k v] p' l l' (_ & _ & H) P IH]; constructor; [exact H|exact IH].
  - apply contains_join; [reflexivity|]. intros w Hw. apply in_app_or in Hw as [Hw|Hw]; [|apply F; exact Hw].
    unfold us in Hw. apply in_map_iff in Hw as ([k v] & <- & Hin).
    assert (KT : In k page_keys /\ contains_byte "#" v = false).
    { clear - P Hin. induction P as [|[k0 v0] p' l l' (A & B & _) P IH]; [contradiction|]. destruct Hin as [[= -> ->]|Hin]; [split; assumption|apply IH; exact Hin]. }
    destruct KT as [K T]. cbn [fst snd] in *.
    unfold amp. rewrite contains_app. cbn. rewrite normal_contains by (cbn; tauto). rewrite T.
    rewrite orb_false_r. cbn in K. repeat destruct K as [<-|K]; try reflexivity. contradiction.
Qed.
Lemma pairs_read (l : list (string * string)) : Forall (fun p => In (fst p) page_keys /\ link_text (snd p)) l ->
  Forall2 (fun p p' => In (fst p) page_keys /\ contains_byte "#" (snd p) = false /\ reads (amp (fst p) (snd p)) p') l l.
Proof.
  intros P. induction P as [|[k v] l [H1 H2] P IH]; constructor; [|exact IH]. cbn [fst snd] in *. split; [exact H1|]. split; [apply link_text_contains; auto; cbn; tauto|].
  apply reads_amp; assumption.
Qed.
Lemma follow_pieces (req : SearchRequest) cat ws ps : links_ok req cat -> Forall2 reads ws ps -> (forall w, In w ws -> contains_byte "#" w = false) ->
  Query_of (follow ("?" ++ process_url true (category_query_params req cat) ++ tail_text ws)) = fold_left add_pair (category_pairs req cat ++ ps) [].
Proof.
  intros L R F. rewrite category_params_join. apply follow_gen; [discriminate|apply pairs_read, pairs_ok; exact L|exact R|exact F].
Qed.

Lemma sorted_default : sort_durations DefaultBucketing = DefaultBucketing.
Proof. vm_compute. reflexivity. Qed.
Lemma sort_sorted l : (forall i j, (i <= j < length l)%nat -> nth i l 0 <= nth j l 0) -> sort_durations l = l.
Proof.
  induction l as [|x l IH]; intros H; [reflexivity|]. unfold sort_durations in *. cbn [isort]. rewrite IH.
  - destruct l as [|y l]; [reflexivity|]. cbn [insert]. pose proof (H 0%nat 1%nat ltac:(cbn; lia)) as K. cbn in K.
    destruct (Z.ltb_spec y x); [lia|reflexivity].
  - intros i j Hij. apply (H (S i) (S j)). cbn [length]. lia.
Qed.
Lemma parse_all_durations ds : (forall d, In d ds -> int64 d) -> parse_all fl (map DurationString ds) = ds.
Proof.
  induction ds as [|d ds IH]; intros H; [reflexivity|]. cbn [map parse_all]. rewrite (ParseDuration_String _ Hfl d) by (apply H; left; reflexivity).
  rewrite IH by (intros; apply H; right; assumption). reflexivity.
Qed.
Lemma parse_bucketing (req : SearchRequest) : page_request req ->
  match parseBucketing fl (if durations_eqb DefaultBucketing (req_Bucketing req) then [] else map DurationString (req_Bucketing req)) with [] => DefaultBucketing | b => b end
  = req_Bucketing req.
Proof.
  intros (_ & (b & Hb) & Hs & Hr). unfold durations_eqb. destruct (list_eq_dec Z.eq_dec DefaultBucketing (req_Bucketing req)) as [<-|N]; [reflexivity|].
  unfold parseBucketing. rewrite parse_all_durations by exact Hr. rewrite sort_sorted by exact Hs. rewrite Hb. reflexivity.
Qed.

(** what the server reads from pairs *)
Definition keyed (ps : list (string * string)) (k : string) : list string := map snd (filter (fun p => String.eqb k (fst p)) ps).
Lemma values_keyed ps k : values (fold_left add_pair ps []) k = keyed ps k.
Proof. apply values_pairs. Qed.
Lemma keyed_app a b k : keyed (a ++ b) k = keyed a k ++ keyed b k.
Proof. unfold keyed. rewrite filter_app, map_app. reflexivity. Qed.
Lemma category_keyed (req : SearchRequest) cat ps k :
  keyed (category_pairs req cat ++ ps) k =
  (if String.eqb k "n" then [itoa (req_Limit req)] else []) ++
  (if String.eqb k "q" then (if String.eqb (Query (req_Filter req)) "" then [] else [Query (req_Filter req)]) else []) ++
  (if String.eqb k "source" then Sources (req_Filter req) else []) ++
  (if String.eqb k "b" then (if durations_eqb DefaultBucketing (req_Bucketing req) then [] else map DurationString (req_Bucketing req)) else []) ++
  (if String.eqb k "category" then (if String.eqb cat "overall" then [] else [cat]) else []) ++ keyed ps k.
Proof.
  unfold category_pairs, page_pairs. cbn [app]. change (("n", itoa (req_Limit req)) :: ?l) with ([("n", itoa (req_Limit req))] ++ l).
  rewrite !keyed_app. rewrite <- !app_assoc. f_equal; [unfold keyed; cbn; destruct (String.eqb k "n"); reflexivity|].
  f_equal; [destruct (String.eqb (Query (req_Filter req)) ""); unfold keyed; cbn; destruct (String.eqb k "q"); reflexivity|].
  f_equal; [apply filter_keyed|].
  f_equal; [destruct (durations_eqb _ _); [destruct (String.eqb k "b"); reflexivity|apply filter_keyed]|].
  f_equal. destruct (String.eqb cat "overall"); unfold keyed; cbn; destruct (String.eqb k "category"); reflexivity.
Qed.

Lemma category_search (req : SearchRequest) cat sel active errored min ps raw : page_request req -> (if String.eqb cat "overall" then "" else cat) = sel ->
  Query_of raw = fold_left add_pair (category_pairs req cat ++ ps) [] ->
  keyed ps "n" = [] -> keyed ps "q" = [] -> keyed ps "source" = [] -> keyed ps "b" = [] -> keyed ps "category" = [] -> keyed ps "id" = [] ->
  keyed ps "finished" = [] -> keyed ps "success" = [] -> keyed ps "stack" = [] ->
  active = negb (match keyed ps "active" with [] => true | _ => false end) ->
  errored = negb (match keyed ps "errored" with [] => true | _ => false end) ->
  min = parseDefault (match keyed ps "min" with x :: _ => x | [] => "" end) (parseDurationPointer fl) None ->
  with_bucketing (search_request raw) = selection req sel active errored min.
Proof.
  intros P <- E K1 K2 K3 K4 K5 K6 K7 K8 K9 Ha He Hm. unfold with_bucketing, M_Url.search_request, parseFilter, selection, vGet. rewrite E.
  rewrite !(vHas_values _ _ (good_pairs _ _ good_nil)), !values_keyed.
  rewrite !category_keyed. cbn [String.eqb Ascii.eqb Bool.eqb app]. cbn [req_Bucketing req_Filter req_Limit req_StackDepth].
  rewrite ?K1, ?K2, ?K3, ?K4, ?K5, ?K6, ?K7, ?K8, ?K9, ?app_nil_r.
  assert (L : parseRange (itoa (req_Limit req)) Atoi SearchLimitMin SearchLimitDefault SearchLimitMax = req_Limit req).
  { destruct P as (P & _). unfold parseRange. rewrite Atoi_itoa by (unfold int64; change two63 with 9223372036854775808; lia).
    unfold SearchLimitMin, SearchLimitMax. destruct (Z.ltb_spec (req_Limit req) 1); [lia|]. destruct (Z.ltb_spec 250 (req_Limit req)); [lia|reflexivity]. }
  rewrite L, <- Ha, <- He, <- Hm. rewrite (parse_bucketing req P).
  f_equal.
  - f_equal; [destruct (String.eqb cat "overall"); reflexivity|]. destruct (String.eqb_spec (Query (req_Filter req)) "") as [->|]; reflexivity.
Qed.

Lemma atom_reads k : In k ["active"; "errored"] -> reads k (k, "").
Proof. intros H. cbn in H. repeat destruct H as [<-|H]; try contradiction; split; reflexivity. Qed.

(** The links of the table of categories make the search of the page with the selection
    they stand for, if the query, the sources and the category may stand in a link. *)
Theorem C69_links_select :
  forall (req : SearchRequest) cat d, page_request req -> - 2 ^ 63 <= d < 2 ^ 63 -> cat <> "overall" ->
  link_text (Query (req_Filter req)) -> Forall link_text (Sources (req_Filter req)) -> link_text cat ->
  with_bucketing (search_request (follow (href_category req cat))) = selection req cat false false None /\
  with_bucketing (search_request (follow (href_active req cat))) = selection req cat true false None /\
  with_bucketing (search_request (follow (href_errored req cat))) = selection req cat false true None /\
  with_bucketing (search_request (follow (href_min req cat d))) = selection req cat false false (Some d).
Proof.
  intros req cat d P Hd Hc Q S C. assert (L : links_ok req cat) by (split; [|split]; assumption).
  assert (CE : (if String.eqb cat "overall" then "" else cat) = cat) by (rewrite (proj2 (String.eqb_neq _ _) Hc); reflexivity).
  split; [|split; [|split]].
  - apply (category_search req cat cat false false None []); try reflexivity; [exact P|exact CE|].
    rewrite <- (follow_pieces req cat [] [] L); [|constructor|intros w []]. unfold href_category. cbn [tail_text]. rewrite str_app_nil_r. reflexivity.
  - apply (category_search req cat cat true false None [("active", "")]); try reflexivity; [exact P|exact CE|].
    apply (follow_pieces req cat ["active"] _ L); [repeat constructor; apply atom_reads; cbn; tauto|]. intros w [<-|[]]. reflexivity.
  - apply (category_search req cat cat false true None [("errored", "")]); try reflexivity; [exact P|exact CE|].
    apply (follow_pieces req cat ["errored"] _ L); [repeat constructor; apply atom_reads; cbn; tauto|]. intros w [<-|[]]. reflexivity.
  - apply (category_search req cat cat false false (Some d) [("min", DurationString d)]); try reflexivity; [exact P|exact CE| |].
    + apply (follow_pieces req cat [("min=" ++ process_url false (DurationString d))%string] _ L).
      * repeat constructor; apply (reads_escaped "min" (DurationString d)); reflexivity.
      * intros w [<-|[]]. rewrite contains_app. rewrite escaped_no_delim by (cbn; tauto). reflexivity.
    + cbn [keyed map filter String.eqb Ascii.eqb Bool.eqb fst snd]. unfold parseDefault, parseDurationPointer. rewrite (ParseDuration_String _ Hfl d Hd). reflexivity.
Qed.
(** The same for the row of all traces. *)
Theorem C69_overall_links_select :
  forall (req : SearchRequest) d, page_request req -> - 2 ^ 63 <= d < 2 ^ 63 ->
  link_text (Query (req_Filter req)) -> Forall link_text (Sources (req_Filter req)) ->
  with_bucketing (search_request (follow (href_category req "overall"))) = selection req "" false false None /\
  with_bucketing (search_request (follow (href_active req "overall"))) = selection req "" true false None /\
  with_bucketing (search_request (follow (href_errored req "overall"))) = selection req "" false true None /\
  with_bucketing (search_request (follow (href_min req "overall" d))) = selection req "" false false (Some d).
Proof.
  intros req d P Hd Q S. assert (L : links_ok req "overall").
  { split; [|split]; try assumption. apply link_text_cons. repeat (split; [repeat split; discriminate|]).
    repeat (apply link_text_cons; split; [repeat split; discriminate|split; [discriminate|]]). apply link_text_nil. }
  split; [|split; [|split]].
  - apply (category_search req "overall" "" false false None []); try reflexivity; [exact P|].
    rewrite <- (follow_pieces req "overall" [] [] L); [|constructor|intros w []]. unfold href_category. cbn [tail_text]. rewrite str_app_nil_r. reflexivity.
  - apply (category_search req "overall" "" true false None [("active", "")]); try reflexivity; [exact P|].
    apply (follow_pieces req "overall" ["active"] _ L); [repeat constructor; apply atom_reads; cbn; tauto|]. intros w [<-|[]]. reflexivity.
  - apply (category_search req "overall" "" false true None [("errored", "")]); try reflexivity; [exact P|].
    apply (follow_pieces req "overall" ["errored"] _ L); [repeat constructor; apply atom_reads; cbn; tauto|]. intros w [<-|[]]. reflexivity.
  - apply (category_search req "overall" "" false false (Some d) [("min", DurationString d)]); try reflexivity; [exact P| |].
    + apply (follow_pieces req "overall" [("min=" ++ process_url false (DurationString d))%string] _ L).
      * repeat constructor; apply (reads_escaped "min" (DurationString d)); reflexivity.
      * intros w [<-|[]]. rewrite contains_app. rewrite escaped_no_delim by (cbn; tauto). reflexivity.
    + cbn [keyed map filter String.eqb Ascii.eqb Bool.eqb fst snd]. unfold parseDefault, parseDurationPointer. rewrite (ParseDuration_String _ Hfl d Hd). reflexivity.
Qed.

(** The links beside a trace: any source and any category, byte for byte; an id that may
    stand in a link. *)
Lemma follow_one k v w : reads w (k, v) -> contains_byte "#" w = false -> Query_of (follow ("?" ++ w)) = [(k, [v])].
Proof.
  intros [A B] F. cbn [append follow]. rewrite before_fragment_none by exact F. unfold Query_of. rewrite split_none by exact A. cbn [fold_left]. rewrite B. reflexivity.
Qed.
Theorem C69_trace_links :
  forall source category id, link_text id ->
  parseFilter (RE:=RE) fl (follow (href_source source)) = MkFilter [source] [] "" false false None false false "" None /\
  parseFilter (RE:=RE) fl (follow (href_trace_category category)) = MkFilter [] [] category false false None false false "" None /\
  parseFilter (RE:=RE) fl (follow (href_trace id)) = MkFilter [] [id] "" false false None false false "" None.
Proof.
  intros source category id H. unfold parseFilter.
  assert (E : forall k v, contains_byte "#" (k ++ "=" ++ process_url false v) = contains_byte "#" (k ++ "=")).
  { intros k v. rewrite !contains_app. cbn. rewrite escaped_no_delim by (cbn; tauto). reflexivity. }
  split; [|split].
  - unfold href_source. change ("?source=" ++ process_url false source)%string with ("?" ++ ("source" ++ "=" ++ process_url false source))%string.
    rewrite (follow_one "source" source); [reflexivity|apply reads_escaped; reflexivity|rewrite E; reflexivity].
  - unfold href_trace_category. change ("?category=" ++ process_url false category)%string with ("?" ++ ("category" ++ "=" ++ process_url false category))%string.
    rewrite (follow_one "category" category); [reflexivity|apply reads_escaped; reflexivity|rewrite E; reflexivity].
  - unfold href_trace. rewrite (follow_one "id" id); [reflexivity| |].
    + change ("id=" ++ id)%string with ("id" ++ "=" ++ id)%string. destruct (key_facts "id" ltac:(cbn; tauto)) as (_ & _ & _ & _ & K). rewrite K. apply (reads_amp "id" id); [cbn; tauto|exact H].
    + rewrite normal_contains by (cbn; tauto). cbn. apply link_text_contains; [cbn; tauto|exact H].
Qed.

(** Finding: a plus sign in the query is a space once a link is followed. *)
Definition with_query (req : SearchRequest) (q : string) : SearchRequest :=
  let f := req_Filter req in
  MkReq (req_Bucketing req)
        (MkFilter (Sources f) (IDs f) (FCategory f) (IsActive f) (IsFinished f) (MinDuration f) (IsSuccess f) (IsErrored f) q (f_regexp f))
        (req_Limit req) (req_StackDepth req).
Lemma unescape_normal_app a y : link_text a -> QueryUnescape (process_url true a ++ y) = option_map (append a) (QueryUnescape y).
Proof.
  induction a as [|c a IH]; intros H; [cbn; destruct (QueryUnescape y); reflexivity|].
  apply link_text_cons in H as ((N1 & N2 & N3 & N4) & P & H). specialize (IH H).
  assert (X : forall o : option string, option_map (String c) (option_map (append a) o) = option_map (append (String c a)) o) by (intros [?|]; reflexivity).
  assert (PC : QueryUnescape (percent c (process_url true a) ++ y) = option_map (append (String c a)) (QueryUnescape y)).
  { change (percent c (process_url true a) ++ y)%string with (percent c (process_url true a ++ y)). rewrite unescape_percent, IH. apply X. }
  assert (KP : Ascii.eqb c "%" = false -> QueryUnescape (String c (process_url true a) ++ y) = option_map (append (String c a)) (QueryUnescape y)).
  { intros Q. change (String c (process_url true a) ++ y)%string with (String c (process_url true a ++ y)). rewrite unescape_self; [rewrite IH; apply X|exact Q|apply Ascii.eqb_neq; exact N2]. }
  cbn [process_url andb]. destruct (url_reserved c) eqn:E1.
  { apply KP. destruct (Ascii.eqb_spec c "%") as [->|Q]; [discriminate|reflexivity]. }
  destruct (Ascii.eqb_spec c "%") as [->|Q]; [rewrite (P eq_refl); exact PC|]. destruct (unreserved c); [|exact PC]. apply KP. reflexivity.
Qed.
Theorem C69_plus_refuted :
  forall (req : SearchRequest) a b, page_request req -> Query (req_Filter req) = (a ++ "+" ++ b)%string -> link_text a -> link_text b ->
  Forall link_text (Sources (req_Filter req)) ->
  with_bucketing (search_request (follow (href_category req "overall"))) = selection (with_query req (a ++ " " ++ b)) "" false false None.
Proof.
  intros req a b P Q A B S. set (req' := with_query req (a ++ " " ++ b)).
  assert (NE : forall x, String.eqb (a ++ String x b) "" = false) by (intros x; apply String.eqb_neq; destruct a; discriminate).
  apply (category_search req' "overall" "" false false None []); try reflexivity; [exact P|].
  unfold href_category. rewrite <- (str_app_nil_r (process_url true _)), category_params_join.
  apply (follow_gen _ _ [] []); [discriminate| |constructor|intros w []].
  unfold category_pairs, page_pairs. cbn [String.eqb Ascii.eqb Bool.eqb]. rewrite !app_nil_r.
  constructor.
  { cbn [fst snd]. split; [cbn; tauto|]. split; [apply link_text_contains; [cbn; tauto|apply itoa_link_text]|]. apply reads_amp; [cbn; tauto|apply itoa_link_text]. }
  rewrite Q. unfold req', with_query. cbn [Query req_Filter Sources req_Bucketing append]. rewrite !NE. constructor.
  - cbn [fst snd]. split; [cbn; tauto|]. assert (C : forall x, In x ["&"; "#"; ";"]%char -> contains_byte x (a ++ String "+" b) = false).
    { intros x Hx. rewrite contains_app. cbn [contains_byte]. rewrite !link_text_contains by assumption. cbn in Hx. repeat destruct Hx as [<-|Hx]; try contradiction; reflexivity. }
    split; [apply C; cbn; tauto|]. apply reads_pair; try reflexivity; [rewrite normal_contains by (cbn; tauto); apply C; cbn; tauto..|].
    rewrite normal_app by reflexivity. rewrite unescape_normal_app by exact A. cbn [QueryUnescape Ascii.eqb Bool.eqb]. rewrite (unescape_normal b B). reflexivity.
  - apply pairs_read. pose proof (pairs_ok (with_query req "") "overall") as K. unfold category_pairs, page_pairs in K. cbn [Query req_Filter Sources req_Bucketing with_query String.eqb Ascii.eqb Bool.eqb app] in K.
    rewrite app_nil_r in K. specialize (K (conj link_text_nil (conj S ltac:(apply all_link_text_overall)))). inversion K; assumption.
Qed.

(** Finding: an ampersand in the query ends it. *)
Lemma parse_pair_keeps m w k x l : values m k = x :: l -> exists l', values (parse_pair m w) k = x :: l'.
Proof.
  intros H. unfold parse_pair. destruct (contains_byte ";" w); [exists l; exact H|]. destruct (String.eqb w ""); [exists l; exact H|].
  destruct (CutByte w "=") as [[k0 v0] ?]. destruct (QueryUnescape k0) as [k1|]; [|exists l; exact H]. destruct (QueryUnescape v0) as [v1|]; [|exists l; exact H].
  rewrite values_vAdd. destruct (String.eqb_spec k k1) as [->|N]; [|exists l; exact H]. rewrite H. eexists. reflexivity.
Qed.
Lemma parse_pairs_keep ws m k x l : values m k = x :: l -> exists l', values (fold_left parse_pair ws m) k = x :: l'.
Proof. revert m l; induction ws as [|w ws IH]; intros m l H; [exists l; exact H|]. cbn [fold_left]. destruct (parse_pair_keeps m w k x l H) as [l' H']. eapply IH. exact H'. Qed.

Lemma query_params_head (req : SearchRequest) cat : Query (req_Filter req) <> "" ->
  exists tail, category_query_params req cat = ("n=" ++ itoa (req_Limit req) ++ "&q=" ++ Query (req_Filter req) ++ tail)%string.
Proof.
  intros N. rewrite category_params_join. unfold category_pairs, page_pairs. rewrite (proj2 (String.eqb_neq _ _) N). cbn [app map].
  rewrite join_cons_ne by discriminate.
  match goal with |- context [join_amp (raw_text ("q", _) :: ?l)] => destruct l as [|w l'] eqn:E end.
  - exists "". cbn [join_amp raw_text fst snd append]. rewrite str_app_nil_r. reflexivity.
  - exists (String "&" (join_amp (w :: l'))). rewrite join_cons_ne by discriminate. unfold raw_text at 1 2. cbn [fst snd]. rewrite !sapp_assoc. reflexivity.
Qed.
Theorem C69_ampersand_refuted :
  forall (req : SearchRequest) cat a b, page_request req -> Query (req_Filter req) = (a ++ "&" ++ b)%string -> link_text a ->
  Query (req_Filter (search_request (follow (href_category req cat)))) = a.
Proof.
  intros req cat a b P Q A. destruct (query_params_head req cat) as [tail E]; [rewrite Q; destruct a; discriminate|].
  unfold href_category. rewrite E, Q.
  assert (X : exists rest, follow ("?" ++ process_url true ("n=" ++ itoa (req_Limit req) ++ "&q=" ++ (a ++ "&" ++ b) ++ tail)) =
     (amp "n" (itoa (req_Limit req)) ++ String "&" (amp "q" a ++ String "&" rest))%string).
  { exists (before_fragment (process_url true (b ++ tail))). cbn [append follow].
    assert (PN : process_url true ("n=" ++ itoa (req_Limit req) ++ String "&" ("q=" ++ a ++ String "&" (b ++ tail))) =
       (amp "n" (itoa (req_Limit req)) ++ String "&" (amp "q" a ++ String "&" (process_url true (b ++ tail))))%string).
    { change ("n=" ++ itoa (req_Limit req) ++ String "&" ?x)%string with (("n" ++ "=" ++ itoa (req_Limit req)) ++ String "&" x)%string.
      rewrite normal_app by reflexivity. destruct (key_facts "n" ltac:(cbn; tauto)) as (_ & _ & _ & _ & K). rewrite K. unfold amp. f_equal. f_equal.
      change ("q=" ++ a ++ String "&" ?x)%string with (("q" ++ "=" ++ a) ++ String "&" x)%string.
      rewrite normal_app by reflexivity. destruct (key_facts "q" ltac:(cbn; tauto)) as (_ & _ & _ & _ & K2). rewrite K2. reflexivity. }
    rewrite sapp_assoc. cbn [append] in *. rewrite PN.
    assert (BF : forall x y, contains_byte "#" x = false -> before_fragment (x ++ String "&" y) = (x ++ String "&" (before_fragment y))%string).
    { clear. intros x y. induction x as [|c x IH]; intros H; [reflexivity|]. cbn in *. apply orb_false_iff in H as [-> H]. rewrite IH by exact H. reflexivity. }
    assert (NH : forall k v, contains_byte "#" k = false -> link_text v -> contains_byte "#" (amp k v) = false).
    { intros k v Hk Hv. unfold amp. rewrite contains_app. cbn. rewrite Hk, normal_contains by (cbn; tauto). apply link_text_contains; [cbn; tauto|exact Hv]. }
    rewrite BF by (apply NH; [reflexivity|apply itoa_link_text]). rewrite BF by (apply NH; [reflexivity|exact A]). reflexivity. }
  destruct X as [rest ->]. unfold M_Url.search_request, parseFilter, vGet. cbn [req_Filter Query].
  unfold Query_of. pose proof (reads_amp "n" (itoa (req_Limit req)) ltac:(cbn; tauto) (itoa_link_text _)) as [R1 R2].
  pose proof (reads_amp "q" a ltac:(cbn; tauto) A) as [R3 R4].
  rewrite split_app by exact R1. rewrite split_app by exact R3. cbn [fold_left]. rewrite R2, R4.
  destruct (parse_pairs_keep (split_on "&" rest) (add_pair (add_pair [] ("n", itoa (req_Limit req))) ("q", a)) "q" a []) as [l' ->]; [reflexivity|reflexivity].
Qed.

(** Finding: a hash sign in the query ends the request: the sources and the selection of
    the link are lost as well. *)
Theorem C69_hash_refuted :
  forall (req : SearchRequest) cat a b, page_request req -> Query (req_Filter req) = (a ++ "#" ++ b)%string -> link_text a ->
  search_request (follow (href_active req cat)) = MkReq [] (MkFilter [] [] "" false false None false false a None) (req_Limit req) 0.
Proof.
  intros req cat a b P Q A. destruct (query_params_head req cat) as [tail E]; [rewrite Q; destruct a; discriminate|].
  unfold href_active. rewrite E, Q.
  assert (X : follow ("?" ++ process_url true ("n=" ++ itoa (req_Limit req) ++ "&q=" ++ (a ++ "#" ++ b) ++ tail) ++ "&active") =
     join_amp [amp "n" (itoa (req_Limit req)); amp "q" a]).
  { cbn [append follow join_amp].
    assert (PN : process_url true ("n=" ++ itoa (req_Limit req) ++ String "&" ("q=" ++ a ++ String "#" (b ++ tail))) =
       ((amp "n" (itoa (req_Limit req)) ++ String "&" (amp "q" a)) ++ String "#" (process_url true (b ++ tail)))%string).
    { change ("n=" ++ itoa (req_Limit req) ++ String "&" ?x)%string with (("n" ++ "=" ++ itoa (req_Limit req)) ++ String "&" x)%string.
      rewrite normal_app by reflexivity. destruct (key_facts "n" ltac:(cbn; tauto)) as (_ & _ & _ & _ & K). rewrite K. rewrite (sapp_assoc (amp "n" (itoa (req_Limit req)))). unfold amp at 1. f_equal.
      change (String "&" (amp "q" a) ++ ?x)%string with (String "&" (amp "q" a ++ x)). f_equal.
      change ("q=" ++ a ++ String "#" ?x)%string with (("q" ++ "=" ++ a) ++ String "#" x)%string.
      rewrite normal_app by reflexivity. destruct (key_facts "q" ltac:(cbn; tauto)) as (_ & _ & _ & _ & K2). rewrite K2. reflexivity. }
    rewrite sapp_assoc. cbn [append] in *. rewrite PN. rewrite sapp_assoc. cbn [append]. apply before_fragment_app.
    assert (NH : forall k v, contains_byte "#" k = false -> link_text v -> contains_byte "#" (amp k v) = false).
    { intros k v Hk Hv. unfold amp. rewrite contains_app. cbn. rewrite Hk, normal_contains by (cbn; tauto). apply link_text_contains; [cbn; tauto|exact Hv]. }
    rewrite contains_app. cbn [contains_byte]. rewrite NH by (reflexivity || apply itoa_link_text). rewrite NH by (reflexivity || exact A). reflexivity. }
  rewrite X. unfold M_Url.search_request, parseFilter, vGet.
  rewrite (Query_pieces _ [("n", itoa (req_Limit req)); ("q", a)]); [|discriminate|repeat constructor; apply reads_amp; (cbn; tauto) || apply itoa_link_text || exact A].
  cbn [fold_left add_pair fst snd].
  assert (L : parseRange (itoa (req_Limit req)) Atoi SearchLimitMin SearchLimitDefault SearchLimitMax = req_Limit req).
  { destruct P as (P & _). unfold parseRange. rewrite Atoi_itoa by (unfold int64; change two63 with 9223372036854775808; lia).
    unfold SearchLimitMin, SearchLimitMax. destruct (Z.ltb_spec (req_Limit req) 1); [lia|]. destruct (Z.ltb_spec 250 (req_Limit req)); [lia|reflexivity]. }
  rewrite !(vHas_values _ _ (good_pairs [("n", itoa (req_Limit req)); ("q", a)] [] good_nil)). cbn. rewrite L. reflexivity.
Qed.
End Links.
Print Assumptions C69_links_select.
Print Assumptions C69_overall_links_select.
Print Assumptions C69_trace_links.
Print Assumptions C69_plus_refuted.
Print Assumptions C69_ampersand_refuted.
Print Assumptions C69_hash_refuted.

(** A page with a query, two sources and its own bucketing. *)
Definition demo_page : @SearchRequest unit :=
  MkReq [0; Millisecond; Second] (MkFilter ["host a"; "100%"] [] "" false false None false false "^(a|b)=[xy]?%zz" None) 25 0.
Example C69_instance :
  page_request demo_page /\ link_text (Query (req_Filter demo_page)) /\ Forall link_text (Sources (req_Filter demo_page)) /\ link_text "my category" /\
  href_active demo_page "my category" = "?n=25&q=%5e%28a%7cb%29=[xy]?%25zz&source=host%20a&source=100%25&b=0s&b=1ms&b=1s&category=my%20category&active" /\
  with_bucketing (@search_request unit exact_part (follow (href_active demo_page "my category"))) = selection demo_page "my category" true false None /\
  (** what else may happen *)
  Query (req_Filter (@search_request unit exact_part (follow (href_category (with_query demo_page "[0-9]+ms") "overall")))) = "[0-9] ms" /\
  Query (req_Filter (@search_request unit exact_part (follow (href_category (with_query demo_page "a&id=x") "overall")))) = "a" /\
  IDs (req_Filter (@search_request unit exact_part (follow (href_category (with_query demo_page "a&id=x") "overall")))) = ["x"] /\
  Query (req_Filter (@search_request unit exact_part (follow (href_category (with_query demo_page "%41") "overall")))) = "A" /\
  search_request (RE:=unit) exact_part (follow (href_active (with_query demo_page "issue#4") "overall")) =
    MkReq [] (MkFilter [] [] "" false false None false false "issue" None) 25 0.
Proof.
  assert (LT : forall s, (fix ok s := match s with EmptyString => true | String c r => negb (existsb (Ascii.eqb c) ["&"; "+"; "#"; ";"]%char) && negb (Ascii.eqb c "%" && two_hex r) && ok r end) s = true -> link_text s).
  { intros s. induction s as [|c s IH]; intros H; [apply link_text_nil|]. apply andb_true_iff in H as [H H3]. apply andb_true_iff in H as [H1 H2].
    apply link_text_cons. split; [|split; [|apply IH; exact H3]].
    - apply negb_true_iff in H1. cbn [existsb] in H1. repeat (apply orb_false_iff in H1 as [? H1]). repeat split; apply Ascii.eqb_neq; assumption.
    - intros ->. apply negb_true_iff in H2. exact H2. }
  split.
  { split; [cbn; lia|]. split; [eexists; reflexivity|]. split.
    - intros i j H. cbn [req_Bucketing demo_page length] in *. destruct i as [|[|[|i]]]; try lia; destruct j as [|[|[|j]]]; try lia; vm_compute; discriminate.
    - intros d H. cbn in H. change (2 ^ 63) with 9223372036854775808. unfold Millisecond, Second in H. cbn in H. lia. }
  split; [apply LT; reflexivity|]. split; [do 2 (constructor; [apply LT; reflexivity|]); constructor|]. split; [apply LT; reflexivity|].
  repeat split; vm_compute; reflexivity.
Qed.

(** ** C70 *)
Section Form.
Context {RE : Type}.
Notation SearchRequest := (@SearchRequest RE).
Variable fl : Z -> Z -> Z -> Z.
Hypothesis Hfl : float_exact fl.
Notation search_request := (@search_request RE fl).

(** What the form shows as the selected source: the first source of the search, if it is
    one of several sources of the response. *)
Definition shown_source (req : SearchRequest) (response_sources : list string) (l : list string) : Prop :=
  match Sources (req_Filter req) with
  | s :: _ => s <> "" /\ In s response_sources /\ (2 <= length response_sources)%nat -> l = [s]
  | [] => True
  end /\
  (match Sources (req_Filter req) with
   | s :: _ => ~ (s <> "" /\ In s response_sources /\ (2 <= length response_sources)%nat)
   | [] => True
   end -> l = []).

Lemma submit_join inputs : submit inputs = join_amp (map text_of (enabled inputs)).
Proof. unfold submit. pose proof (write_pairs (enabled inputs) [] ltac:(intros ? [])) as W. cbn [join_amp app] in W. exact W. Qed.
Lemma submit_pairs inputs : Query_of (submit inputs) = fold_left add_pair (enabled inputs) [].
Proof.
  rewrite submit_join. destruct (enabled inputs) as [|p ps] eqn:E; [reflexivity|]. rewrite <- E. apply Query_pieces; [rewrite E; discriminate|].
  clear. induction (enabled inputs) as [|[k x] l IH]; constructor; [|exact IH]. split.
  - unfold text_of, pair_text. cbn [fst snd]. rewrite contains_app. cbn. rewrite !escape_no_separator by (unfold separator; auto). reflexivity.
  - intros m. apply parse_text.
Qed.
Lemma enabled_app a b : enabled (a ++ b) = enabled a ++ enabled b.
Proof. apply filter_app. Qed.
Lemma keyed_enabled_app a b k : keyed (enabled (a ++ b)) k = keyed (enabled a) k ++ keyed (enabled b) k.
Proof. rewrite enabled_app. apply keyed_app. Qed.
Lemma keyed_input c k v k' : keyed (enabled (input_if c k v)) k' = if c && negb (String.eqb v "") && String.eqb k' k then [v] else [].
Proof. unfold input_if, keyed, enabled. destruct c; [|reflexivity]. cbn [filter snd negb andb]. destruct (String.eqb v ""); [reflexivity|]. cbn. destruct (String.eqb k' k); reflexivity. Qed.
Lemma keyed_one k v k' : keyed (enabled [(k, v)]) k' = if negb (String.eqb v "") && String.eqb k' k then [v] else [].
Proof. apply (keyed_input true). Qed.
Lemma itoa_ne n : String.eqb (itoa n) "" = false.
Proof.
  apply String.eqb_neq. destruct (Z.leb_spec 0 n) as [H|H].
  - destruct (itoa_first n H) as (c & s & E & _). rewrite E. discriminate.
  - destruct n as [|p|p]; try lia. rewrite itoa_neg. discriminate.
Qed.
Lemma duration_ne d : String.eqb (DurationString d) "" = false.
Proof.
  apply String.eqb_neq. rewrite DurationString_eq. destruct (d <? 0); [discriminate|]. unfold magnitude.
  assert (A : forall n b, (itoa n ++ b)%string <> "") by (intros n b H; pose proof (itoa_ne n) as K; apply String.eqb_neq in K; destruct (itoa n); [congruence|discriminate]).
  destruct (_ <? Second).
  - destruct (_ =? 0); [discriminate|]. destruct (_ <? Microsecond); [|destruct (_ <? Millisecond)]; destruct (fmtFrac _ _ _ _); apply A.
  - destruct (fmtFrac _ _ _ _). destruct (0 <? _); [destruct (0 <? _)|]; apply A.
Qed.

(** Submitting the form as it is: the limit, the query, the flags, the duration, the
    category and the shown source are those of the page. *)
Theorem C70_form_submits :
  forall (req : SearchRequest) rs, page_request req -> (forall d, MinDuration (req_Filter req) = Some d -> - 2 ^ 63 <= d < 2 ^ 63) ->
  let f := req_Filter req in
  exists source, shown_source req rs source /\
  search_request (submit (form_inputs req rs)) =
    MkReq [] (MkFilter source [] (if String.eqb (FCategory f) "overall" then "" else FCategory f) (IsActive f) (IsFinished f) (MinDuration f)
                       (IsSuccess f) (IsErrored f) (Query f) None) (req_Limit req) 0.
Proof.
  intros req rs P HM f.
  set (sv := snd (source_input f rs)).
  assert (SI : source_input f rs = ("source", sv)) by (unfold sv, source_input; destruct (1 <? zlen rs); reflexivity).
  exists (if String.eqb sv "" then [] else [sv]). split.
  - unfold sv, source_input, shown_source. fold f. unfold zlen. destruct (Z.ltb_spec 1 (Z.of_nat (length rs))) as [L|L]; cbn [snd].
    + destruct (Sources f) as [|s l]; [split; [exact I|]; intros _; destruct (existsb _ rs); reflexivity|].
      destruct (existsb (String.eqb s) rs) eqn:X.
      * apply existsb_exists in X as (x & X1 & X2). apply String.eqb_eq in X2. subst x. destruct (String.eqb_spec s "") as [->|N]; split; auto.
        -- intros [C _]. congruence.
        -- intros C. exfalso. apply C. split; [exact N|]. split; [exact X1|lia].
      * split; [|reflexivity]. intros (_ & C & _). exfalso. assert (existsb (String.eqb s) rs = true); [apply existsb_exists; exists s; split; [exact C|apply String.eqb_refl]|congruence].
    + destruct (Sources f) as [|s l]; cbn; split; auto. intros (_ & _ & C). lia.
  - assert (K : forall k, keyed (enabled (form_inputs req rs)) k =
       (if negb (String.eqb (Query f) "") && String.eqb k "q" then [Query f] else []) ++
       (if negb (String.eqb sv "") && String.eqb k "source" then [sv] else []) ++
       (if String.eqb k "n" then [itoa (req_Limit req)] else []) ++
       (if negb (String.eqb (FCategory f) "") && negb (String.eqb (FCategory f) "overall") && negb (String.eqb (FCategory f) "") && String.eqb k "category" then [FCategory f] else []) ++
       (if IsActive f && String.eqb k "active" then ["true"] else []) ++ (if IsFinished f && String.eqb k "finished" then ["true"] else []) ++
       (match MinDuration f with Some d => if String.eqb k "min" then [DurationString d] else [] | None => [] end) ++
       (if IsSuccess f && String.eqb k "success" then ["true"] else []) ++ (if IsErrored f && String.eqb k "errored" then ["true"] else [])).
    { intros k. unfold form_inputs. fold f. rewrite SI.
      change ([("q", Query f); ("source", sv); ("n", itoa (req_Limit req))] ++ ?l) with ([("q", Query f)] ++ [("source", sv)] ++ [("n", itoa (req_Limit req))] ++ l).
      rewrite !keyed_enabled_app, !keyed_input, !keyed_one, itoa_ne. cbn [String.eqb Ascii.eqb Bool.eqb negb andb]. rewrite !andb_true_r.
      do 6 f_equal. f_equal. destruct (MinDuration f); [|reflexivity]. rewrite keyed_one, duration_ne. reflexivity. }
    unfold M_Url.search_request, parseFilter, vGet. rewrite submit_pairs.
    rewrite !(vHas_values _ _ (good_pairs _ _ good_nil)), !values_keyed, !K. cbn [String.eqb Ascii.eqb Bool.eqb]. rewrite !andb_false_r, !andb_true_r. cbn [app].
    assert (M0 : match MinDuration f with Some _ => [] | None => [] end = @nil string) by (destruct (MinDuration f); reflexivity). rewrite !M0. cbn [app]. rewrite !app_nil_r.
    assert (L : parseRange (itoa (req_Limit req)) Atoi SearchLimitMin SearchLimitDefault SearchLimitMax = req_Limit req).
    { destruct P as (P & _). unfold parseRange. rewrite Atoi_itoa by (unfold int64; change two63 with 9223372036854775808; lia).
      unfold SearchLimitMin, SearchLimitMax. destruct (Z.ltb_spec (req_Limit req) 1); [lia|]. destruct (Z.ltb_spec 250 (req_Limit req)); [lia|reflexivity]. }
    rewrite L. f_equal. f_equal.
    + destruct (String.eqb sv ""); reflexivity.
    + destruct (String.eqb_spec (FCategory f) "") as [->|]; [reflexivity|]. destruct (String.eqb (FCategory f) "overall"); reflexivity.
    + destruct (IsActive f); reflexivity.
    + destruct (IsFinished f); reflexivity.
    + destruct (MinDuration f) as [d|] eqn:E; [|reflexivity]. cbn [app]. unfold parseDefault, parseDurationPointer. rewrite (ParseDuration_String _ Hfl d (HM d E)). reflexivity.
    + destruct (IsSuccess f); reflexivity.
    + destruct (IsErrored f); reflexivity.
    + destruct (String.eqb_spec (Query f) "") as [->|]; reflexivity.
Qed.

(** So the form repeats a search that has no ids, the default bucketing, no stack depth, a
    category other than "overall" and at most one source, which is one of several that answered. *)
Theorem C70_form_repeats_search :
  forall (req : SearchRequest) rs, page_request req -> (forall d, MinDuration (req_Filter req) = Some d -> - 2 ^ 63 <= d < 2 ^ 63) ->
  IDs (req_Filter req) = [] -> req_Bucketing req = DefaultBucketing -> req_StackDepth req = 0 -> FCategory (req_Filter req) <> "overall" ->
  f_regexp (req_Filter req) = None ->
  (Sources (req_Filter req) = [] \/ exists s, Sources (req_Filter req) = [s] /\ s <> "" /\ In s rs /\ (2 <= length rs)%nat) ->
  with_bucketing (search_request (submit (form_inputs req rs))) = req.
Proof.
  intros [b f n sd] rs P HM HI HB HS HC HR HSrc. cbn [req_Filter req_Bucketing req_StackDepth] in *. destruct (C70_form_submits (MkReq b f n sd) rs P HM) as (src & SH & ->).
  cbn [with_bucketing req_Bucketing req_Filter req_Limit req_StackDepth] in *. rewrite (proj2 (String.eqb_neq _ _) HC). subst b sd. f_equal.
  destruct f as [fs fi fc fa ff fm fsu fe fq fr]. cbn in *. subst fi fr. f_equal. unfold shown_source in SH. cbn [req_Filter Sources] in SH.
  destruct HSrc as [->|(s & -> & S1)]; destruct SH as [A B]; [rewrite B by exact I|rewrite A by exact S1]; reflexivity.
Qed.
(** Findings: the form forgets the ids and the bucketing, all sources but the first, and the
    source of the search if at most one source answered. *)
Theorem C70_form_forgets_refuted :
  forall (req : SearchRequest) rs, page_request req -> (forall d, MinDuration (req_Filter req) = Some d -> - 2 ^ 63 <= d < 2 ^ 63) ->
  let got := search_request (submit (form_inputs req rs)) in
  IDs (req_Filter got) = [] /\ req_Bucketing got = [] /\ req_StackDepth got = 0 /\
  (length (Sources (req_Filter got)) <= 1)%nat /\
  ((length rs <= 1)%nat -> Sources (req_Filter got) = []).
Proof.
  intros req rs P HM got. destruct (C70_form_submits req rs P HM) as (src & SH & E). unfold got. rewrite E. cbn.
  unfold shown_source in SH. destruct SH as [A B]. repeat split.
  - destruct (Sources (req_Filter req)) as [|s l]; [rewrite B by exact I; cbn; lia|].
    destruct (string_dec s "") as [Y|N]; [rewrite B by tauto; cbn; lia|]. destruct (in_dec string_dec s rs) as [Y|N2]; [|rewrite B by tauto; cbn; lia].
    destruct (Nat.le_gt_cases 2 (length rs)); [rewrite A by tauto; cbn; lia|rewrite B by lia; cbn; lia].
  - intros L. apply B. destruct (Sources (req_Filter req)); [exact I|]. lia.
Qed.
End Form.
Print Assumptions C70_form_submits.
Print Assumptions C70_form_repeats_search.
Print Assumptions C70_form_forgets_refuted.

Definition demo_form : @SearchRequest unit :=
  MkReq DefaultBucketing (MkFilter ["host b"] [] "my category" true false (Some (5 * Millisecond)) false true "[0-9]+&#x" None) 25 0.
Example C70_instance :
  page_request demo_form /\ submit (form_inputs demo_form ["a"; "host b"]) = "q=%5B0-9%5D%2B%26%23x&source=host+b&n=25&category=my+category&active=true&min=5ms&errored=true" /\
  with_bucketing (@search_request unit exact_part (submit (form_inputs demo_form ["a"; "host b"]))) = demo_form /\
  Sources (req_Filter (@search_request unit exact_part (submit (form_inputs demo_form ["host b"])))) = [].
Proof.
  split; [|repeat split; vm_compute; reflexivity].
  split; [cbn; lia|]. split; [eexists; reflexivity|]. split.
  - intros i j H. cbn [req_Bucketing demo_form length DefaultBucketing] in *.
    do 9 (destruct i as [|i]; [do 9 (destruct j as [|j]; [(exfalso; lia) || (vm_compute; discriminate)|]); exfalso; lia|]). exfalso; lia.
  - intros d H. cbn in H. change (2 ^ 63) with 9223372036854775808. lia.
Qed.

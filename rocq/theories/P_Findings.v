(** General versions of findings that are shown elsewhere by one witness: C20, C21, C24, C27, C31, C53
    and C62.  Each theorem says for which inputs the deviation happens and what is seen then. *)
From Verif Require Import Go L_List M_Strings M_Types M_Frame M_Filter S_Filter L_Filter S_RingBuf M_RingBuf L_RingBuf
  S_Collector M_RingBufs L_RingBufs M_Stats S_Stats S_StatsView L_Stats S_Order L_Order M_Search S_Search L_Search P_Filter P_Stats P_Search
  M_Web S_Web M_Trace M_Humanize M_Text M_Url S_Trace S_Path L_Frame P_Frame P_Web P_Multi D_Demo.
From Coq Require Import Sorted ZifyBool.
Open Scope string_scope.
Open Scope list_scope.
Open Scope Z_scope.

(** ** C20: once a filter with a valid query has been normalized, nothing that is written into
    Query afterwards has any effect: each trace gets the verdict of the first query. *)
Theorem C20_changed_query_is_ignored :
  forall (RE : Type) (Compile : string -> RE + string) (MatchString : RE -> string -> bool)
         (f : Filter RE) re (q : string) (us : list use) (tr : StaticTrace),
    unused f -> Query f <> "" -> Compile (Query f) = inl re ->
    (snd (Allow Compile MatchString (fold_left (do_use Compile MatchString) us (set_query (fst (FilterNormalize Compile f)) q)) tr) = true
     <-> accepts Compile MatchString f tr).
Proof.
  intros RE C M f re q us tr Hu Hq Hc. rewrite (Normalize_valid C f re Hu Hq Hc). cbn [fst].
  destruct (uses_keep C M us (set_query (set_regexp f re) q)) as [H1 H2].
  rewrite (Allow_bool C M _ _ tr H1 H2). rewrite <- (Allow_unused C M f tr Hu).
  rewrite (Allow_bool C M (set_query (set_regexp f re) q) f tr); [reflexivity|repeat split|].
  unfold query_re. cbn [f_regexp set_query set_regexp]. rewrite Hu. apply String.eqb_neq in Hq. rewrite Hq, Hc. reflexivity.
Qed.
Print Assumptions C20_changed_query_is_ignored.

(** ** C21: Normalize called k times in a row on a request with a negative bucket adds k buckets 0. *)
Fixpoint normalize_times {RE} (Compile : string -> RE + string) (k : nat) (req : SearchRequest RE) : res (SearchRequest RE) :=
  match k with
  | O => Ok req
  | S k => '(req, _) <- Normalize Compile req ;; normalize_times Compile k req
  end.

Lemma norm_negative b neg : In neg b -> neg < 0 -> Permutation (norm_bucketing b) (0 :: b) /\ ~ ascending (norm_bucketing b).
Proof.
  intros Hin Hneg. assert (Ha : asked b = b) by (destruct b; [destruct Hin|reflexivity]).
  unfold norm_bucketing. fold (asked b). rewrite Ha. pose proof (sort_durations_perm b) as Hp.
  pose proof (isort_in_order Z.ltb b zltb_strict_weak) as Ho. fold sort_durations in Ho. fold (sort_durations b) in Ho.
  apply in_order_ascending in Ho. assert (Hin' : In neg (sort_durations b)) by (eapply Permutation_in; [symmetry; exact Hp|exact Hin]).
  destruct (sort_durations b) as [|b0 b'] eqn:E; [destruct Hin'|]. cbn zeta.
  assert (b0 <= neg).
  { apply In_nth_error in Hin' as (n & Hn). apply (ascending_prefix (b0 :: b') Ho n neg Hn). left. reflexivity. }
  destruct (Z.eqb_spec b0 0); [lia|]. split; [apply perm_skip; exact Hp|]. cbn [ascending]. lia.
Qed.

Theorem C21_negative_bucket_every_call :
  forall (RE : Type) (Compile : string -> RE + string) (req : SearchRequest RE) neg k,
    In neg (req_Bucketing req) -> neg < 0 ->
    exists req', normalize_times Compile k req = Ok req' /\
      Permutation (req_Bucketing req') (repeat 0 k ++ req_Bucketing req) /\
      length (req_Bucketing req') = (k + length (req_Bucketing req))%nat /\
      (k <> O -> ~ ascending (req_Bucketing req')).
Proof.
  intros RE C req neg k Hin Hneg.
  assert (H : exists req', normalize_times C k req = Ok req' /\ Permutation (req_Bucketing req') (repeat 0 k ++ req_Bucketing req) /\
              (k <> O -> ~ ascending (req_Bucketing req'))).
  { revert req Hin. induction k as [|k IH]; intros req Hin.
    - exists req. split; [reflexivity|]. split; [reflexivity|]. intros Hk. contradiction.
    - cbn [normalize_times]. rewrite Normalize_spec. cbn [bind]. destruct (norm_negative _ _ Hin Hneg) as [Hp Hn].
      match goal with |- exists r', normalize_times C k ?r = _ /\ _ => destruct (IH r) as (req' & E & Hp' & Ha) end.
      { cbn [req_Bucketing]. eapply Permutation_in; [symmetry; exact Hp|right; exact Hin]. }
      cbn [req_Bucketing] in *. exists req'. split; [exact E|]. split.
      + rewrite Hp', Hp. cbn [repeat app]. symmetry. apply Permutation_middle.
      + intros _. destruct k; [|apply Ha; discriminate]. injection E as <-. exact Hn. }
  destruct H as (req' & E & Hp & Ha). exists req'. split; [exact E|]. split; [exact Hp|]. split; [|exact Ha].
  rewrite (Permutation_length Hp), app_length, repeat_length. reflexivity.
Qed.
Print Assumptions C21_negative_bucket_every_call.

(** ** C24: whenever a category holds more matches than the limit, the match count is too small. *)
Lemma min_sum_lt {T} (p : T -> bool) limit (held : string -> list T) cats c0 :
  0 <= limit -> In c0 cats -> limit < count p (held c0) ->
  sum (map (fun c => Z.min limit (count p (held c))) cats) < count p (flat_map held cats).
Proof.
  intros Hl. assert (Hle : forall cs, sum (map (fun c => Z.min limit (count p (held c))) cs) <= count p (flat_map held cs)).
  { induction cs as [|c cs IH]; [reflexivity|]. cbn [map flat_map]. rewrite count_app. unfold sum in *. cbn [fold_right]. lia. }
  induction cats as [|c cats IH]; [intros []|]. intros [<-|Hin] Hlt; cbn [map flat_map]; rewrite count_app.
  - specialize (Hle cats). unfold sum in *. cbn [fold_right]. lia.
  - specialize (IH Hin Hlt). unfold sum in *. cbn [fold_right]. lia.
Qed.

Theorem C24_match_count_too_small :
  forall (RE : Type) (Compile : string -> RE + string) (MatchString : RE -> string -> bool)
         (T : Type) (zero : T) (view : T -> StaticTrace) sort order source ops s freed (req : SearchRequest RE) acc c,
    Forall valid_op ops -> coll_run zero new_collector_storage ops = Ok (s, freed) ->
    is_order order -> is_sort Less sort ->
    unused (req_Filter req) -> decides Compile MatchString (req_Filter req) acc ->
    In c (categories ops) -> effective_limit (req_Limit req) < count (fun t => acc (view t)) (held c ops) ->
    exists req' resp, Search Compile MatchString view sort order source s req = Ok (req', resp) /\
      resp_MatchCount resp < count (fun t => acc (view t)) (all_held ops).
Proof.
  intros RE C M T zero view sort order source ops s freed req acc c Hops Hrun Hord Hsort Hu Hd Hc Hlt.
  destruct (C24_search_counts C M T zero view sort order source ops s freed req acc Hops Hrun Hord Hsort Hu Hd) as (req' & resp & E & _ & Hm).
  exists req', resp. split; [exact E|]. rewrite Hm. unfold all_held. apply (min_sum_lt _ _ _ _ c); [|exact Hc|exact Hlt].
  pose proof (effective_limit_bounds (req_Limit req)). lia.
Qed.
Print Assumptions C24_match_count_too_small.

(** ** C27: the event count of merged statistics is that of the first group of traces (from left to
    right) in which the category occurs; the events of all later groups are dropped. *)
Fixpoint groups (t : merge_tree) : list (list StaticTrace) :=
  match t with Obs trs => [trs] | Mrg _ x y => groups x ++ groups y end.
Definition events_of (c : string) (trs : list StaticTrace) : Z := sum (map (fun tr => zlen (TraceEvents tr)) (of_category c trs)).
Definition occurs (c : string) (trs : list StaticTrace) : bool := match of_category c trs with [] => false | _ => true end.

Lemma merge_untouched other c : forall names ours merged,
  ~ In c names -> merge_categories names other ours = Ok merged -> map_get c merged = map_get c ours.
Proof.
  induction names as [|n names IH]; intros ours merged Hni E; cbn [merge_categories] in E; [injection E as <-; reflexivity|].
  assert (Hne : c <> n) by (intros ->; apply Hni; left; reflexivity).
  assert (Hni' : ~ In c names) by (intros H; apply Hni; right; exact H).
  destruct (map_get n other) as [theirs|]; [|discriminate].
  destruct (map_get n ours) as [mine|].
  - destruct (cs_Merge mine theirs) as [cs|]; [|discriminate]. cbn [bind] in E. rewrite (IH _ _ Hni' E), map_get_set.
    apply String.eqb_neq in Hne. rewrite Hne. reflexivity.
  - rewrite (IH _ _ Hni' E), map_get_set. apply String.eqb_neq in Hne. rewrite Hne. reflexivity.
Qed.

Lemma merge_events other c : forall names ours merged,
  NoDup names -> merge_categories names other ours = Ok merged -> In c names ->
  match map_get c ours with
  | Some cs => cs_Category cs <> "" -> exists cs', map_get c merged = Some cs' /\ EventCount cs' = EventCount cs
  | None => map_get c merged = map_get c other
  end.
Proof.
  induction names as [|n names IH]; intros ours merged Hnd E Hin; [destruct Hin|]. cbn [merge_categories] in E.
  inversion Hnd as [|? ? Hni Hnd']; subst. destruct (map_get n other) as [theirs|] eqn:Et; [|discriminate].
  destruct (string_dec c n) as [->|Hne].
  - destruct (map_get n ours) as [mine|] eqn:Em.
    + destruct (cs_Merge mine theirs) as [cs|] eqn:Ec; [|discriminate]. cbn [bind] in E.
      intros Hz. rewrite (merge_untouched _ _ _ _ _ Hni E), map_get_set, String.eqb_refl. exists cs. split; [reflexivity|].
      unfold cs_Merge in Ec. destruct (cs_IsZero theirs); [injection Ec as <-; reflexivity|].
      assert (Hm : cs_IsZero mine = false).
      { unfold cs_IsZero. apply String.eqb_neq in Hz. rewrite Hz. reflexivity. }
      rewrite Hm in Ec. destruct (negb (zlen (BucketCounts mine) =? zlen (BucketCounts theirs))); [discriminate|].
      destruct (add_buckets (BucketCounts mine) (BucketCounts theirs)) as [bs|]; [|discriminate]. cbn [bind] in Ec. injection Ec as <-.
      reflexivity.
    + rewrite (merge_untouched _ _ _ _ _ Hni E), map_get_set, String.eqb_refl. symmetry. exact Et.
  - assert (Hin' : In c names) by (destruct Hin; [congruence|assumption]). pose proof Hne as Hb. apply String.eqb_neq in Hb.
    destruct (map_get n ours) as [mine|].
    + destruct (cs_Merge mine theirs) as [cs|]; [|discriminate]. cbn [bind] in E. specialize (IH _ _ Hnd' E Hin').
      rewrite map_get_set, Hb in IH. exact IH.
    + specialize (IH _ _ Hnd' E Hin'). rewrite map_get_set, Hb in IH. exact IH.
Qed.

Lemma find_app {A} (p : A -> bool) l l' : find p (l ++ l') = match find p l with Some x => Some x | None => find p l' end.
Proof. induction l as [|x l IH]; [reflexivity|]. cbn [app find]. destruct (p x); [reflexivity|exact IH]. Qed.

Theorem C27_events_of_the_first_group_only :
  forall (b : list Z) (t : merge_tree) (c : string),
    b <> [] -> tree_ok t -> c <> "" ->
    exists merged, tree_stats b t = Ok merged /\
      match find (occurs c) (groups t), map_get c (Categories merged) with
      | Some first, Some cs => EventCount cs = events_of c first
      | None, None => True
      | _, _ => False
      end.
Proof.
  intros b t c Hb Hok Hc. induction t as [trs|order x IHx y IHy]; cbn [tree_stats groups].
  - destruct (observe_new b trs) as (ss & E & (_ & _ & H) & He). exists ss. split; [exact E|]. cbn [find]. specialize (H c). unfold occurs.
    destruct (map_get c (Categories ss)) as [cs|] eqn:Eg.
    + destruct H as (Hne & _). destruct (of_category c trs) eqn:Eo; [contradiction|]. unfold events_of. rewrite Eo, <- Eo. exact (He c cs Eg).
    + rewrite H. exact I.
  - destruct Hok as (Ho & Hx & Hy). destruct (IHx Hx) as (sx & Ex & Hsx), (IHy Hy) as (sy & Ey & Hsy). clear IHx IHy.
    destruct (tree_represents b x Hb Hx) as (sx' & Ex' & Rx). rewrite Ex in Ex'. injection Ex' as <-.
    destruct (tree_represents b y Hb Hy) as (sy' & Ey' & Ry). rewrite Ey in Ey'. injection Ey' as <-.
    destruct (ss_Merge_spec b order sx sy _ _ Ho Hb Rx Ry) as (m & Em & _). rewrite Ex. cbn [bind]. rewrite Ey. cbn [bind]. exists m. split; [exact Em|].
    destruct Rx as (Bx & _ & Cx), Ry as (By & Ny & _). unfold ss_Merge, ss_IsZero in Em. rewrite Bx, By in Em.
    assert (Hz : zlen b <=? 0 = false) by (destruct b; [contradiction|unfold zlen; cbn [length]; lia]).
    rewrite Hz, Z.eqb_refl in Em. cbn [negb] in Em.
    destruct (merge_categories (order (map_keys (Categories sy))) (Categories sy) (Categories sx)) as [cats|] eqn:Ec; [|discriminate].
    cbn [bind] in Em. injection Em as <-. cbn [Categories]. rewrite find_app. specialize (Cx c).
    assert (Hnd : NoDup (order (map_keys (Categories sy)))) by (eapply Permutation_NoDup; [symmetry; apply Ho|exact Ny]).
    destruct (in_dec string_dec c (order (map_keys (Categories sy)))) as [Hi|Hi].
    + pose proof (merge_events _ c _ _ _ Hnd Ec Hi) as Hev.
      destruct (find (occurs c) (groups x)) as [first|], (map_get c (Categories sx)) as [cs|]; try contradiction.
      * destruct Cx as (_ & Hcat & _). destruct Hev as (cs' & -> & ->); [congruence|]. exact Hsx.
      * rewrite Hev. exact Hsy.
    + rewrite (merge_untouched _ _ _ _ _ Hi Ec).
      destruct (find (occurs c) (groups x)) as [first|], (map_get c (Categories sx)) as [cs|]; try contradiction; [exact Hsx|].
      assert (Hn : map_get c (Categories sy) = None).
      { destruct (map_get c (Categories sy)) eqn:Eg; [|reflexivity]. exfalso. apply Hi. eapply Permutation_in; [symmetry; apply Ho|].
        apply map_get_in. congruence. }
      rewrite Hn in Hsy. exact Hsy.
Qed.
Print Assumptions C27_events_of_the_first_group_only.

(** ** C31: one answer with a different number of buckets, among any others and whenever it arrives,
    ends the whole multi-search in a panic. *)
Lemma gather_bad (orders : nat -> list string -> list string) k : forall ts n agg ss0,
  resp_Stats agg = Some ss0 -> length (Bucketing ss0) = k -> k <> O ->
  (exists t r ss, In t ts /\ t_res t = Some r /\ resp_Stats r = Some ss /\ Bucketing ss <> [] /\ length (Bucketing ss) <> k) ->
  gather orders n agg ts = Panic.
Proof.
  induction ts as [|t0 ts IH]; intros n agg ss0 Ha Hl Hk (t & r & ss & Hin & Ht & Hr & Hne & Hd); [destruct Hin|].
  cbn [gather]. destruct Hin as [->|Hin].
  - unfold gather1. rewrite Ht, Ha, Hr. rewrite C27_inconsistent_buckets_panic; [reflexivity| |exact Hne|congruence].
    intros H0. rewrite H0 in Hl. cbn in Hl. congruence.
  - destruct (gather1 (orders n) agg t0) as [agg'|] eqn:E; [|reflexivity]. cbn [bind].
    assert (Hs : exists ss1, resp_Stats agg' = Some ss1 /\ length (Bucketing ss1) = k).
    { unfold gather1 in E. destruct (t_res t0) as [r0|].
      - rewrite Ha in E. destruct (ss_Merge (orders n) ss0 (resp_Stats r0)) as [ss1|] eqn:Em; [|discriminate]. cbn [bind] in E. injection E as <-.
        exists ss1. split; [reflexivity|]. unfold ss_Merge in Em. destruct (resp_Stats r0) as [o|]; [|injection Em as <-; exact Hl].
        destruct (ss_IsZero (Some o)); [injection Em as <-; exact Hl|].
        destruct (ss_IsZero (Some ss0)) eqn:Ez.
        { exfalso. unfold ss_IsZero, zlen in Ez. rewrite Hl in Ez. destruct (Z.leb_spec (Z.of_nat k) 0); [lia|discriminate]. }
        destruct (negb (zlen (Bucketing ss0) =? zlen (Bucketing o))); [discriminate|].
        destruct (merge_categories (orders n (map_keys (Categories o))) (Categories o) (Categories ss0)); [|discriminate].
        cbn [bind] in Em. injection Em as <-. exact Hl.
      - destruct (t_err t0); injection E as <-; eauto. }
    destruct Hs as (ss1 & Hs & Hl1). apply (IH (S n) agg' ss1 Hs Hl1 Hk). exists t, r, ss. auto.
Qed.

Theorem C31_one_bad_answer_panics :
  forall (RE : Type) (Compile : string -> RE + string) sort orders (req req' : SearchRequest RE) own outcomes arrivals r err ss,
    Normalize Compile req = Ok (req', own) -> Permutation arrivals (number 0 outcomes) -> In (Some r, err) outcomes ->
    resp_Stats r = Some ss -> Bucketing ss <> [] -> length (Bucketing ss) <> length (req_Bucketing req') ->
    MultiSearch Compile sort orders arrivals req = Panic.
Proof.
  intros RE C sort orders req req' own outcomes arrivals r err ss HN Hp Hin Er Hne Hl. unfold MultiSearch. rewrite HN. cbn [bind].
  assert (Ht : forall n l, In (Some r, err) l -> exists t, In t (number n l) /\ t_res t = Some r).
  { intros n l. revert n. induction l as [|x l IH]; intros n Hx; [destruct Hx|]. destruct Hx as [->|Hx].
    - eexists. split; [left; reflexivity|reflexivity].
    - destruct (IH (n + 1) Hx) as (t & Hi & Hr). exists t. split; [|exact Hr]. destruct x. right. exact Hi. }
  destruct (Ht 0 outcomes Hin) as (t & Hi & Hr).
  rewrite (gather_bad orders (length (req_Bucketing req')) arrivals 1 _ (NewSearchStats (req_Bucketing req'))); [reflexivity|reflexivity|reflexivity| |].
  - rewrite Normalize_spec in HN. injection HN as <- _. destruct (norm_cases (req_Bucketing req)) as (_ & (rest & E) & _). cbn [req_Bucketing]. rewrite E. discriminate.
  - exists t, r, ss. split; [|auto]. eapply Permutation_in; [symmetry; exact Hp|exact Hi].
Qed.
Print Assumptions C31_one_bad_answer_panics.

(** ** C53: a handler whose first header comes after something else is recorded with the code of that
    header, while the client has received 200; and one that begins with an informational header is
    recorded with that, whatever the client receives afterwards. *)
Theorem C53_late_header_every_time :
  forall (arg : Type) str num HumanizeBytes r took (h : handler arg) w' cs first before code after,
    http_direct h new_response w' cs (first :: before ++ WHeader code :: after) true ->
    (forall c, ~ In (WHeader c) (first :: before)) -> code <> 0 ->
    let '(calls, w, _) := Middleware str num HumanizeBytes http_WriteHeader http_Write http_Flush r new_response h took in
    (exists earlier bytes, calls = earlier ++ [CallLog KLazyTracef "HTTP %d, %s, %s" [num code; bytes; str took]; CallFinish]) /\
    received_status w = 200.
Proof.
  intros arg str num HB r took h w' cs first before code after H Hno Hcode.
  destruct (C53_recorded_and_received arg str num HB r took h w' cs _ H) as ((pre & E) & Hr).
  assert (Hf : forall l, (forall c, ~ In (WHeader c) l) -> first_code (l ++ WHeader code :: after) = code).
  { induction l as [|o l IH]; intros Hn; cbn [app first_code].
    - apply Z.eqb_neq in Hcode. rewrite Hcode. reflexivity.
    - destruct o; [exfalso; eapply Hn; left; reflexivity| |]; apply IH; intros c Hc; apply (Hn c); right; exact Hc. }
  specialize (Hf (first :: before) Hno). cbn [app] in Hf. rewrite Hf in E.
  assert (Hcl : client_code (first :: before ++ WHeader code :: after) = 200).
  { destruct first; [exfalso; eapply Hno; left; reflexivity| |]; reflexivity. }
  rewrite Hcl in Hr. destruct (Middleware str num HB http_WriteHeader http_Write http_Flush r new_response h took) as [[calls w] ret].
  cbn [fst snd] in *. split; [eauto|exact Hr].
Qed.
Theorem C53_informational_every_time :
  forall (arg : Type) str num HumanizeBytes r took (h : handler arg) w' cs code after,
    http_direct h new_response w' cs (WHeader code :: after) true -> informational code = true ->
    let '(calls, w, _) := Middleware str num HumanizeBytes http_WriteHeader http_Write http_Flush r new_response h took in
    (exists earlier bytes, calls = earlier ++ [CallLog KLazyTracef "HTTP %d, %s, %s" [num code; bytes; str took]; CallFinish]) /\
    received_status w = client_code after /\ informational (received_status w) = false.
Proof.
  intros arg str num HB r took h w' cs code after H Hi.
  destruct (C53_recorded_and_received arg str num HB r took h w' cs _ H) as ((pre & E) & Hr).
  cbn [first_code client_code] in E, Hr. rewrite Hi in Hr.
  assert (Hz : (code =? 0) = false) by (unfold informational in Hi; lia). rewrite Hz in E.
  destruct (Middleware str num HB http_WriteHeader http_Write http_Flush r new_response h took) as [[calls w] ret].
  cbn [fst snd] in *. split; [eauto|]. split; [exact Hr|]. rewrite Hr. clear.
  induction after as [|o after IH]; [reflexivity|]. destruct o as [c|n|]; [|reflexivity|reflexivity]. cbn [client_code].
  destruct (informational c) eqn:Ei; [exact IH|exact Ei].
Qed.
Print Assumptions C53_late_header_every_time.
Print Assumptions C53_informational_every_time.

(** ** C62: a file path with a colon in it is cut at its first colon: what is shortened is the part
    before, and the rest stays as long as it is. *)
Theorem C62_cut_at_first_colon :
  forall function drive rest line,
    has_byte colon drive = false ->
    CompactFileLine (MkFrame function ((drive ++ ":" ++ rest) ++ ":" ++ line)%string) =
    Ok ((if String.eqb (parent function) "" then "" else parent function ++ "/") ++ last_two drive ++ ":" ++ rest ++ ":" ++ line)%string.
Proof.
  intros function drive rest line H. rewrite <- (C62_compact_file_line function drive (rest ++ ":" ++ line) H). f_equal. f_equal.
  clear H. induction drive as [|a drive IH]; [reflexivity|]. change (String a ((drive ++ ":" ++ rest) ++ ":" ++ line) = String a (drive ++ ":" ++ rest ++ ":" ++ line))%string.
  f_equal. exact IH.
Qed.
Print Assumptions C62_cut_at_first_colon.

(** Concrete cases that meet the hypotheses. *)
Example Findings_instance :
  (* C20: the query h is valid, is used, and goes on being used after it is replaced *)
  (unused (demo_filter "h") /\ Query (demo_filter "h") <> "" /\ demo_compile "h" = inl "h" /\
   snd (Allow demo_compile demo_match (set_query (fst (FilterNormalize demo_compile (demo_filter "h"))) "zzz") demo_static) = true /\
   snd (Allow demo_compile demo_match (demo_filter "zzz") demo_static) = false) /\
  (* C21 *)
  (exists req, normalize_times demo_compile 3 (MkReq [7; -5] no_filter 3 0) = Ok req /\ req_Bucketing req = [0; -5; 0; 0; 7]) /\
  (* C24: three matches, limit two *)
  (let ops := [demo_tr "a" "1" 1 "x"; demo_tr "a" "2" 2 "x"; demo_tr "b" "9" 9 "x"; demo_tr "a" "3" 3 "x"] in
   Forall valid_op ops /\ In "a" (categories ops) /\ effective_limit 2 < count (fun _ => true) (held "a" ops) /\
   demo_run ops 2 "" = Ok (["9"; "3"], 4, 3)) /\
  (* C27: the category b is not in the first group; its events are those of the second, not the third *)
  (let t := Mrg id_order (Mrg id_order (Obs [demo_st "a" 7 5 true false 2]) (Obs [demo_st "b" 3 1 true false 1]))
                (Obs [demo_st "b" 9 12 true false 4; demo_st "a" 4 9 true true 1]) in
   tree_ok t /\ find (occurs "b") (groups t) = Some [demo_st "b" 3 1 true false 1] /\
   exists m a b, tree_stats [0; 5] t = Ok m /\ map_get "a" (Categories m) = Some a /\ map_get "b" (Categories m) = Some b /\
     EventCount a = 2 /\ EventCount b = 1) /\
  (* C53 *)
  (exists w cs, http_direct (HWrite "x" (fun _ => HFlush (HWriteHeader 503 HReturn)) : handler Z) new_response w cs
     (WBody 1 :: [WFlush] ++ WHeader 503 :: []) true) /\
  (exists w cs, http_direct (HWriteHeader 103 (HWriteHeader 404 HReturn) : handler Z) new_response w cs (WHeader 103 :: [WHeader 404]) true /\
     informational 103 = true /\ client_code [WHeader 404] = 404) /\
  (* C62 *)
  has_byte colon "C" = false /\ last_two "C" = "C".
Proof.
  split; [split; [reflexivity|]; split; [discriminate|]; vm_compute; auto|].
  split; [eexists; split; vm_compute; reflexivity|].
  split; [split; [repeat constructor|]; split; [vm_compute; auto|]; split; vm_compute; reflexivity|].
  split.
  { split; [cbn; unfold is_order, id_order; repeat split; intros; reflexivity|]. split; [reflexivity|].
    do 3 eexists. split; [vm_compute; reflexivity|]. repeat split. }
  split; [do 2 eexists; eapply d_write; [reflexivity|]; eapply d_flush; eapply d_header; [reflexivity|]; constructor|].
  split; [do 2 eexists; split; [eapply d_header; [reflexivity|]; eapply d_header; [reflexivity|]; constructor|vm_compute; auto]|].
  vm_compute. auto.
Qed.

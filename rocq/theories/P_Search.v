(** C21-C25, C32: search requests and searches of one collector.  Everything is for an
    arbitrary regular expression engine, map iteration order and sorting algorithm. *)
From Verif Require Import Go L_List M_Strings M_Types M_Frame M_Filter S_Filter L_Filter S_RingBuf M_RingBuf L_RingBuf
  S_Collector M_RingBufs L_RingBufs M_Stats S_Stats S_StatsView L_Stats S_Order L_Order M_Search S_Search L_Search P_Filter P_Stats.
From Coq Require Import Sorted ZifyBool.
Open Scope string_scope.
Open Scope list_scope.
Open Scope Z_scope.

(** ** C21 *)

(** Insertion sort stands for any sorting algorithm: *)
Lemma sorted_unique sort b : is_sort Z.ltb sort -> sort b = sort_durations b.
Proof.
  intros H. destruct (H b) as [Hp Ho]. apply (in_order_unique Z.ltb); [apply zltb_strict_weak|exact Ho|apply isort_in_order, zltb_strict_weak| |].
  - rewrite Hp. symmetry. apply isort_perm.
  - intros x y _ _ H1 H2. lia.
Qed.

Definition asked (b : list Z) : list Z := match b with [] => DefaultBucketing | _ => b end.

Lemma in_order_ascending b : in_order Z.ltb b <-> ascending b.
Proof.
  unfold in_order. induction b as [|x b IH]; [split; [exact (fun _ => I)|constructor]|]. split.
  - intros H. inversion H as [|? ? Hs Hf]; subst. destruct b as [|y b]; [exact I|]. cbn [ascending]. rewrite Forall_forall in Hf.
    specialize (Hf y (or_introl eq_refl)). split; [lia|]. apply IH. exact Hs.
  - intros H. constructor; [apply IH; destruct b; [exact I|apply H]|]. rewrite Forall_forall. intros y Hy.
    assert (x <= y); [|lia]. apply In_nth_error in Hy as (n & Hn).
    apply (ascending_prefix (x :: b) H (S n) y Hn). left. reflexivity.
Qed.

Lemma norm_cases b : (Permutation (norm_bucketing b) (asked b) \/ Permutation (norm_bucketing b) (0 :: asked b)) /\
  (exists rest, norm_bucketing b = 0 :: rest) /\
  ((forall x, In x b -> 0 <= x) -> ascending (norm_bucketing b)).
Proof.
  unfold norm_bucketing. fold (asked b). pose proof (sort_durations_perm (asked b)) as Hp.
  pose proof (isort_in_order Z.ltb (asked b) zltb_strict_weak) as Ho. fold sort_durations in Ho. fold (sort_durations (asked b)) in *.
  assert (Hne : asked b <> []) by (unfold asked; destruct b; discriminate).
  destruct (sort_durations (asked b)) as [|b0 b'] eqn:E; [apply Permutation_nil in Hp; contradiction|]. cbn zeta.
  destruct (Z.eqb_spec b0 0) as [->|Hb0].
  - split; [left; exact Hp|]. split; [eauto|]. intros _. apply in_order_ascending. exact Ho.
  - split; [right; apply perm_skip; exact Hp|]. split; [eauto|]. intros Hnn. apply in_order_ascending in Ho. cbn [ascending]. split; [|exact Ho].
    assert (Hin : In b0 (asked b)) by (eapply Permutation_in; [exact Hp|left; reflexivity]).
    unfold asked in Hin. destruct b as [|x b]; [|apply Hnn; exact Hin].
    unfold DefaultBucketing in Hin. cbn [In] in Hin. lia.
Qed.

Theorem C21_normalize :
  forall (RE : Type) (Compile : string -> RE + string) (MatchString : RE -> string -> bool) (req : SearchRequest RE),
    exists req' errs, Normalize Compile req = Ok (req', errs) /\
      (* the limit *)
      req_Limit req' = effective_limit (req_Limit req) /\ 1 <= req_Limit req' <= 250 /\
      (* the buckets *)
      (Permutation (req_Bucketing req') (asked (req_Bucketing req)) \/ Permutation (req_Bucketing req') (0 :: asked (req_Bucketing req))) /\
      (exists rest, req_Bucketing req' = 0 :: rest) /\
      ((forall b, In b (req_Bucketing req) -> 0 <= b) -> ascending (req_Bucketing req')) /\
      (* the rest *)
      req_StackDepth req' = req_StackDepth req /\
      (forall tr, snd (Allow Compile MatchString (req_Filter req') tr) = snd (Allow Compile MatchString (req_Filter req) tr)).
Proof.
  intros RE C M req. rewrite Normalize_spec. eexists _, _. split; [reflexivity|]. cbn [req_Limit req_Bucketing req_StackDepth req_Filter].
  split; [reflexivity|]. split; [apply effective_limit_bounds|]. destruct (norm_cases (req_Bucketing req)) as (H1 & H2 & H3).
  split; [exact H1|]. split; [exact H2|]. split; [exact H3|]. split; [reflexivity|]. apply Normalize_same_verdict.
Qed.
Print Assumptions C21_normalize.

Lemma sort_sorted b : ascending b -> sort_durations b = b.
Proof.
  intros H. apply (in_order_unique Z.ltb); [apply zltb_strict_weak|apply isort_in_order, zltb_strict_weak|apply in_order_ascending; exact H|apply isort_perm|].
  intros; lia.
Qed.
Lemma norm_sorted b rest : b = 0 :: rest -> ascending b -> norm_bucketing b = b.
Proof. intros -> H. unfold norm_bucketing. rewrite sort_sorted by exact H. reflexivity. Qed.

Lemma effective_limit_idem l : effective_limit (effective_limit l) = effective_limit l.
Proof. unfold effective_limit. destruct (Z.leb_spec l 0); [reflexivity|]. destruct (Z.leb_spec (Z.min l 250) 0); lia. Qed.

Theorem C21_normalize_again_changes_nothing :
  forall (RE : Type) (Compile : string -> RE + string) (req req' : SearchRequest RE) errs,
    (forall b, In b (req_Bucketing req) -> 0 <= b) ->
    Normalize Compile req = Ok (req', errs) -> Normalize Compile req' = Ok (req', []).
Proof.
  intros RE C req req' errs Hnn. rewrite !Normalize_spec. intros H. injection H as <- _. cbn [req_Limit req_Bucketing req_StackDepth req_Filter].
  destruct (norm_cases (req_Bucketing req)) as (_ & (rest & E) & Ha). rewrite (norm_sorted _ rest E (Ha Hnn)).
  rewrite Normalize_idem. cbn [fst snd map].
  rewrite effective_limit_idem. reflexivity.
Qed.
Print Assumptions C21_normalize_again_changes_nothing.

Definition no_filter : Filter string := MkFilter [] [] "" false false None false false "" None.

(** Finding: with a negative bucket the result is not ascending and every call adds a bucket. *)
Theorem C21_negative_bucket_refuted :
  exists (req r1 r2 : SearchRequest string),
    Normalize demo_compile req = Ok (r1, []) /\ Normalize demo_compile r1 = Ok (r2, []) /\
    req_Bucketing r1 = [0; -5; 7] /\ req_Bucketing r2 = [0; -5; 0; 7] /\ ~ ascending (req_Bucketing r1).
Proof.
  exists (MkReq [7; -5] no_filter 3 0). eexists _, _. split; [vm_compute; reflexivity|]. split; [vm_compute; reflexivity|].
  repeat split. cbn. lia.
Qed.
Print Assumptions C21_negative_bucket_refuted.

Example C21_instance :
  exists r1, Normalize demo_compile (MkReq [7; 3; 7] no_filter 1000 2) = Ok (r1, []) /\
    req_Bucketing r1 = [0; 3; 7; 7] /\ req_Limit r1 = 250 /\
  exists r2 e, Normalize demo_compile (MkReq [] (set_query no_filter "(") (-3) 2) = Ok (r2, [e]) /\
    req_Bucketing r2 = DefaultBucketing /\ req_Limit r2 = 10 /\ e = "filter: query: invalid, ignoring (missing ))".
Proof. eexists. split; [vm_compute; reflexivity|]. repeat split. eexists _, _. split; [vm_compute; reflexivity|]. repeat split. Qed.

(** ** C25: the order *)
Theorem C25_strict_order :
  (forall a b, Less a b = true <->
     TraceStarted b < TraceStarted a \/ (TraceStarted a = TraceStarted b /\ String.ltb (TraceID b) (TraceID a) = true)) /\
  (forall a, Less a a = false) /\
  (forall a b c, Less a b = true -> Less b c = true -> Less a c = true) /\
  (forall a b c, Less a c = true -> Less a b = true \/ Less b c = true) /\
  (forall a b, Less a b = false -> Less b a = false -> TraceStarted a = TraceStarted b /\ TraceID a = TraceID b).
Proof.
  destruct newer_strict_weak as (H1 & H2 & H3).
  split; [intros a b; rewrite Less_newer; apply newer_iff|].
  split; [intros a; rewrite Less_newer; apply H1|].
  split; [intros a b c; rewrite !Less_newer; apply H2|].
  split; [intros a b c; rewrite !Less_newer; apply H3|].
  intros a b. rewrite !Less_newer. apply newer_incomparable.
Qed.
Print Assumptions C25_strict_order.

Lemma in_order_Less l : in_order Less l <-> in_order newer l.
Proof.
  unfold in_order. split; intros H; (induction H as [|x l Hs IH Hf]; constructor; [exact IH|]; rewrite Forall_forall in *; intros y Hy; specialize (Hf y Hy);
    rewrite ?Less_newer in *; exact Hf).
Qed.
Lemma is_sort_newer sort : is_sort Less sort -> is_sort newer sort.
Proof. intros H l. destruct (H l) as [H1 H2]. split; [exact H1|]. apply in_order_Less. exact H2. Qed.

Lemma distinct_keys_inj l x y : distinct_keys l -> In x l -> In y l -> TraceStarted x = TraceStarted y -> TraceID x = TraceID y -> x = y.
Proof.
  unfold distinct_keys. intros Hd Hx Hy E1 E2. induction l as [|z l IH]; [destruct Hx|]. cbn [map] in Hd. inversion Hd as [|? ? Hni Hnd]; subst.
  assert (Hk : forall w, In w l -> In (TraceStarted w, TraceID w) (map (fun tr => (TraceStarted tr, TraceID tr)) l)).
  { intros w Hw. apply (in_map (fun tr => (TraceStarted tr, TraceID tr))). exact Hw. }
  destruct Hx as [->|Hx], Hy as [->|Hy]; auto.
  - exfalso. apply Hni. rewrite E1, E2. apply Hk. exact Hy.
  - exfalso. apply Hni. rewrite <- E1, <- E2. apply Hk. exact Hx.
Qed.

(** For distinct keys every correct sort of every rearrangement gives the same list. *)
Theorem C25_sorting_is_deterministic :
  forall sort sort' l l', is_sort Less sort -> is_sort Less sort' -> Permutation l l' -> distinct_keys l -> sort l = sort' l'.
Proof.
  intros sort sort' l l' Hs Hs' Hp Hd. destruct (is_sort_newer _ Hs l) as [P1 O1], (is_sort_newer _ Hs' l') as [P2 O2].
  apply (in_order_unique newer); [apply newer_strict_weak|exact O1|exact O2|rewrite P1, P2; exact Hp|].
  intros x y Hx Hy H1 H2. destruct (newer_incomparable x y H1 H2) as [E1 E2].
  apply (distinct_keys_inj l); auto; eapply Permutation_in; eauto.
Qed.
Print Assumptions C25_sorting_is_deterministic.

Definition demo_key (start : Z) (id : string) : StaticTrace := MkStatic "s" id "c" start 1 "" true false [].
Example C25_instance :
  is_sort Less (isort Less) /\ distinct_keys [demo_key 1 "a"; demo_key 2 "a"; demo_key 1 "b"] /\
  map TraceID (isort Less [demo_key 1 "a"; demo_key 2 "c"; demo_key 1 "b"]) = ["c"; "b"; "a"].
Proof.
  split; [|split; [|reflexivity]].
  - intros l. split; [apply isort_perm|]. apply isort_in_order. destruct C25_strict_order as (_ & H1 & H2 & H3 & _). split; [exact H1|split; [exact H2|exact H3]].
  - unfold distinct_keys. cbn. repeat constructor; cbn; intuition congruence.
Qed.

(** ** C32: TrimStacks *)
Theorem C32_trim_stacks :
  forall st depth, TrimStacks st depth =
    Ok (MkStatic (TraceSource st) (TraceID st) (TraceCategory st) (TraceStarted st) (TraceDuration st) (TraceDurationStr st)
          (TraceFinished st) (TraceErrored st)
          (map (fun ev => MkEvent (When ev) (What ev)
                            (if depth =? 0 then Stack ev else if depth <? 0 then [] else firstn (Z.to_nat depth) (Stack ev))
                            (IsError ev)) (TraceEvents st))).
Proof.
  intros. rewrite TrimStacks_spec. f_equal. f_equal. apply map_ext. intros ev. f_equal. unfold keep_frames.
  destruct (depth =? 0); [reflexivity|]. destruct (Z.ltb_spec depth 0); [|reflexivity]. replace (Z.to_nat depth) with 0%nat by lia. reflexivity.
Qed.
Print Assumptions C32_trim_stacks.
Example C32_instance :
  let fr n := MkFrame n "f.go:1" in
  let st := MkStatic "s" "i" "c" 1 2 "" true false [MkEvent 3 "a" [fr "x"; fr "y"] true; MkEvent 4 "b" [] false; MkEvent 5 "c" [fr "z"] false] in
  exists t1 t2, TrimStacks st 1 = Ok t1 /\ TrimStacks st (-1) = Ok t2 /\ TrimStacks st 0 = Ok st /\
  map Stack (TraceEvents t1) = [[fr "x"]; []; [fr "z"]] /\ map Stack (TraceEvents t2) = [[]; []; []].
Proof. cbn zeta. eexists _, _. split; [vm_compute; reflexivity|]. split; [vm_compute; reflexivity|]. repeat split. Qed.

(** ** C22-C24 *)
Section OneCollector.
Context {RE : Type}.
Variable Compile : string -> RE + string.
Variable MatchString : RE -> string -> bool.

Lemma decides_Allow f acc : unused f -> decides Compile MatchString f acc -> forall tr, acc tr = snd (Allow Compile MatchString f tr).
Proof. intros Hu Hd tr. apply eq_true_iff_eq. rewrite (Hd tr), (Allow_unused Compile MatchString f tr Hu). reflexivity. Qed.

Lemma matching_perm {T} (view : T -> StaticTrace) depth acc l l' : Permutation l l' ->
  Permutation (matching view depth acc l) (matching view depth acc l').
Proof.
  intros H. unfold matching. apply Permutation_map. induction H as [|x l l' _ IH|x y l|]; cbn [filter]; [constructor| | |etransitivity; eassumption].
  - destruct (acc (view x)); [constructor|]; exact IH.
  - destruct (acc (view x)), (acc (view y)); try apply perm_swap; reflexivity.
Qed.
Lemma matching_flat {T} (view : T -> StaticTrace) depth acc (h : string -> list T) names :
  matching view depth acc (flat_map h names) = concat (map (fun c => matching view depth acc (h c)) names).
Proof.
  unfold matching. induction names as [|n names IH]; [reflexivity|]. cbn [flat_map map concat]. rewrite filter_app, map_app, IH. reflexivity.
Qed.
Lemma matching_app {T} (view : T -> StaticTrace) depth acc (l1 l2 : list T) :
  matching view depth acc (l1 ++ l2) = matching view depth acc l1 ++ matching view depth acc l2.
Proof. unfold matching. rewrite filter_app, map_app. reflexivity. Qed.
Lemma flat_map_concat_map' {A B} (h : A -> list B) l : flat_map h l = concat (map h l).
Proof. induction l as [|x l IH]; cbn; congruence. Qed.
Lemma all_held_perm {T} (ops : list (coll_op T)) names : Permutation names (categories ops) ->
  Permutation (flat_map (fun c => held c ops) names) (all_held ops).
Proof. intros H. unfold all_held. apply flat_map_perm. exact H. Qed.

(** Every response is sorted, as long as the limit and the matching traces allow, and consists of matching traces, each stored trace
    at most once. *)
Theorem C22_search_sound :
  forall (T : Type) (zero : T) (view : T -> StaticTrace) sort order source ops s freed (req : SearchRequest RE) acc,
    Forall valid_op ops -> coll_run zero new_collector_storage ops = Ok (s, freed) ->
    is_order order -> is_sort Less sort ->
    unused (req_Filter req) -> decides Compile MatchString (req_Filter req) acc ->
    exists req' resp, Search Compile MatchString view sort order source s req = Ok (req', resp) /\
      in_order newer (resp_Traces resp) /\
      zlen (resp_Traces resp) = Z.min (effective_limit (req_Limit req)) (zlen (matching view (req_StackDepth req) acc (all_held ops))) /\
      resp_Sources resp = [source] /\
      exists rest, Permutation (resp_Traces resp ++ rest) (matching view (req_StackDepth req) acc (all_held ops)).
Proof.
  intros T zero view sort order source ops s freed req acc Hops Hrun Hord Hsort Hu Hd.
  destruct (Search_spec Compile MatchString zero view sort order source ops s freed req (fun t => acc (view t)) Hops Hrun Hord) as
    (req' & resp & names & stats & E & Hn & _ & _ & _ & _ & Ht & Hs & _).
  { intros t. apply decides_Allow; assumption. }
  exists req', resp. split; [exact E|]. apply is_sort_newer in Hsort.
  set (lim := effective_limit (req_Limit req)) in *. pose proof (effective_limit_bounds (req_Limit req)) as Hlim. fold lim in Hlim.
  set (sel := fun c => selected view lim (req_StackDepth req) (fun t => acc (view t)) (held c ops)) in *.
  destruct (highest_sort newer (Z.to_nat lim) (flat_map sel names) sort Hsort) as (H1 & H2 & rest & H3 & _). rewrite <- Ht in *.
  split; [exact H1|]. split.
  { assert (Hlen : (length (flat_map sel names) <= length (matching view (req_StackDepth req) acc (flat_map (fun c => held c ops) names)) /\
                    (length (flat_map sel names) = length (matching view (req_StackDepth req) acc (flat_map (fun c => held c ops) names)) \/ Z.to_nat lim <= length (flat_map sel names)))%nat).
    { clear. induction names as [|n names IH]; [split; [|left]; reflexivity|]. cbn [flat_map]. rewrite matching_app, !app_length.
      assert (E : length (sel n) = Nat.min (Z.to_nat lim) (length (matching view (req_StackDepth req) acc (held n ops)))) by (unfold sel, selected; rewrite firstn_length; reflexivity). lia. }
    pose proof (Permutation_length (matching_perm view (req_StackDepth req) acc _ _ (all_held_perm ops names Hn))) as HP. unfold zlen. lia. }
  split; [exact Hs|].
  assert (Hsel : exists rest', Permutation (flat_map sel names ++ rest') (matching view (req_StackDepth req) acc (flat_map (fun c => held c ops) names))).
  { clear. induction names as [|n names IH]; [exists []; constructor|]. destruct IH as (r' & Hr').
    exists (skipn (Z.to_nat lim) (matching view (req_StackDepth req) acc (held n ops)) ++ r'). cbn [flat_map].
    rewrite matching_app, <- Hr', <- app_assoc.
    rewrite <- (firstn_skipn (Z.to_nat lim) (matching view (req_StackDepth req) acc (held n ops))) at 2. rewrite <- app_assoc.
    apply Permutation_app_head. rewrite !app_assoc. apply Permutation_app_tail. apply Permutation_app_comm. }
  destruct Hsel as (rest' & Hsel). exists (rest ++ rest'). rewrite app_assoc, H3, Hsel.
  apply matching_perm, all_held_perm. exact Hn.
Qed.

Lemma highest_coarser {A} (above above' : A -> A -> bool) k l r :
  (forall x y, above' x y = true -> above x y = true) -> highest above k l r -> highest above' k l r.
Proof.
  intros H (H1 & H2 & rest & H3 & H4). split; [eapply in_order_coarser; eassumption|]. split; [exact H2|]. exists rest. split; [exact H3|].
  intros x y Hx Hy. specialize (H4 x y Hx Hy). destruct (above' y x) eqn:E; [apply H in E; congruence|reflexivity].
Qed.

Lemma search_newest (above : StaticTrace -> StaticTrace -> bool) :
  strict_weak above -> (forall x y, above x y = true -> newer x y = true) ->
  (forall d x y, above (shown d x) (shown d y) = above x y) ->
  forall (T : Type) (zero : T) (view : T -> StaticTrace) sort order source ops s freed (req : SearchRequest RE) acc,
    Forall valid_op ops -> coll_run zero new_collector_storage ops = Ok (s, freed) ->
    is_order order -> is_sort Less sort ->
    (forall t, acc (view t) = snd (Allow Compile MatchString (req_Filter req) (view t))) ->
    added_in_order above view ops ->
    exists req' resp, Search Compile MatchString view sort order source s req = Ok (req', resp) /\
      highest above (Z.to_nat (effective_limit (req_Limit req)))
              (matching view (req_StackDepth req) acc (all_held ops)) (resp_Traces resp).
Proof.
  intros Hsw Hco Hsh T zero view sort order source ops s freed req acc Hops Hrun Hord Hsort Hacc Hin.
  destruct (Search_spec Compile MatchString zero view sort order source ops s freed req (fun t => acc (view t)) Hops Hrun Hord) as
    (req' & resp & names & stats & E & Hn & _ & _ & _ & _ & Ht & _).
  { exact Hacc. }
  exists req', resp. split; [exact E|]. apply is_sort_newer in Hsort.
  set (k := Z.to_nat (effective_limit (req_Limit req))) in *.
  eapply highest_perm; [apply matching_perm, all_held_perm; exact Hn|]. rewrite matching_flat.
  eapply highest_concat; [exact Hsw| |].
  - instantiate (1 := map (fun c => selected view (effective_limit (req_Limit req)) (req_StackDepth req) (fun t => acc (view t)) (held c ops)) names).
    clear -Hin Hsh. induction names as [|n names IH]; [constructor|]. cbn [map]. constructor; [|exact IH].
    unfold selected. fold k. apply highest_firstn. unfold matching.
    assert (Ho : in_order (fun a b => above (view a) (view b)) (held n ops)) by (apply in_order_map; apply Hin).
    apply (in_order_filter _ (fun t => acc (view t))) in Ho. apply in_order_map.
    eapply in_order_coarser; [|exact Ho]. intros x y. cbn beta. rewrite Hsh. auto.
  - rewrite <- flat_map_concat_map', Ht. eapply highest_coarser; [exact Hco|]. apply highest_sort. exact Hsort.
Qed.

(** C23.  If in each category traces were added in the order they were started, the response
    has the matching traces that started last... *)
Theorem C23_search_returns_newest :
  forall (T : Type) (zero : T) (view : T -> StaticTrace) sort order source ops s freed (req : SearchRequest RE) acc,
    Forall valid_op ops -> coll_run zero new_collector_storage ops = Ok (s, freed) ->
    is_order order -> is_sort Less sort ->
    unused (req_Filter req) -> decides Compile MatchString (req_Filter req) acc ->
    added_in_order started_later view ops ->
    exists req' resp, Search Compile MatchString view sort order source s req = Ok (req', resp) /\
      highest started_later (Z.to_nat (effective_limit (req_Limit req)))
              (matching view (req_StackDepth req) acc (all_held ops)) (resp_Traces resp).
Proof.
  intros. eapply (search_newest started_later); try eassumption; [apply later_strict_weak|apply later_newer|reflexivity|].
  intros t. apply decides_Allow; assumption.
Qed.

(** ... and the newest by start and ID if they were added in that order... *)
Theorem C23_search_returns_newest_by_key :
  forall (T : Type) (zero : T) (view : T -> StaticTrace) sort order source ops s freed (req : SearchRequest RE) acc,
    Forall valid_op ops -> coll_run zero new_collector_storage ops = Ok (s, freed) ->
    is_order order -> is_sort Less sort ->
    unused (req_Filter req) -> decides Compile MatchString (req_Filter req) acc ->
    added_in_order newer view ops ->
    exists req' resp, Search Compile MatchString view sort order source s req = Ok (req', resp) /\
      highest newer (Z.to_nat (effective_limit (req_Limit req)))
              (matching view (req_StackDepth req) acc (all_held ops)) (resp_Traces resp).
Proof.
  intros. eapply (search_newest newer); try eassumption; [apply newer_strict_weak|auto|reflexivity|].
  intros t. apply decides_Allow; assumption.
Qed.

(** ... which, for distinct keys, is one list, whatever the map order and the sorting algorithm. *)
Theorem C23_search_is_deterministic :
  forall (T : Type) (zero : T) (view : T -> StaticTrace) sort sort' order order' source ops s freed (req : SearchRequest RE) acc r1 resp1 r2 resp2,
    Forall valid_op ops -> coll_run zero new_collector_storage ops = Ok (s, freed) ->
    is_order order -> is_sort Less sort -> is_order order' -> is_sort Less sort' ->
    unused (req_Filter req) -> decides Compile MatchString (req_Filter req) acc ->
    added_in_order newer view ops -> distinct_keys (map view (all_held ops)) ->
    Search Compile MatchString view sort order source s req = Ok (r1, resp1) ->
    Search Compile MatchString view sort' order' source s req = Ok (r2, resp2) ->
    resp_Traces resp1 = resp_Traces resp2.
Proof.
  intros T zero view sort sort' order order' source ops s freed req acc r1 resp1 r2 resp2 Hops Hrun Ho Hs Ho' Hs' Hu Hd Hin Hk E1 E2.
  destruct (C23_search_returns_newest_by_key T zero view sort order source ops s freed req acc Hops Hrun Ho Hs Hu Hd Hin) as (a & b & E & H).
  rewrite E1 in E. injection E as <- <-.
  destruct (C23_search_returns_newest_by_key T zero view sort' order' source ops s freed req acc Hops Hrun Ho' Hs' Hu Hd Hin) as (a & b & E & H').
  rewrite E2 in E. injection E as <- <-.
  eapply highest_unique; [apply newer_strict_weak|exact H|exact H'|].
  intros x y Hx Hy N1 N2. destruct (newer_incomparable x y N1 N2) as [K1 K2]. unfold matching in Hx, Hy.
  apply in_map_iff in Hx as (tx & <- & Hx). apply in_map_iff in Hy as (ty & <- & Hy).
  apply filter_In in Hx as [Hx _]. apply filter_In in Hy as [Hy _]. cbn in K1, K2.
  f_equal. apply (distinct_keys_inj _ _ _ Hk); auto using in_map.
Qed.

(** C24.  The counts and the statistics. *)
Theorem C24_search_counts :
  forall (T : Type) (zero : T) (view : T -> StaticTrace) sort order source ops s freed (req : SearchRequest RE) acc,
    Forall valid_op ops -> coll_run zero new_collector_storage ops = Ok (s, freed) ->
    is_order order -> is_sort Less sort ->
    unused (req_Filter req) -> decides Compile MatchString (req_Filter req) acc ->
    exists req' resp, Search Compile MatchString view sort order source s req = Ok (req', resp) /\
      resp_TotalCount resp = zlen (all_held ops) /\
      resp_MatchCount resp =
        sum (map (fun c => Z.min (effective_limit (req_Limit req)) (count (fun t => acc (view t)) (held c ops))) (categories ops)).
Proof.
  intros T zero view sort order source ops s freed req acc Hops Hrun Hord Hsort Hu Hd.
  destruct (Search_spec Compile MatchString zero view sort order source ops s freed req (fun t => acc (view t)) Hops Hrun Hord) as
    (req' & resp & names & stats & E & Hn & _ & _ & Htot & Hm & _).
  { intros t. apply decides_Allow; assumption. }
  exists req', resp. split; [exact E|]. split.
  - rewrite Htot. unfold zlen. rewrite (Permutation_length (all_held_perm ops names Hn)). reflexivity.
  - rewrite Hm. rewrite (sum_perm _ _ (Permutation_map _ (Permutation_sym Hn))).
    pose proof (effective_limit_bounds (req_Limit req)) as Hlim. clear -Hlim.
    induction names as [|n names IH]; [reflexivity|]. cbn [flat_map map]. unfold zlen in *. rewrite app_length.
    assert (Hc : sum (Z.min (effective_limit (req_Limit req)) (count (fun t => acc (view t)) (held n ops)) ::
                      map (fun c => Z.min (effective_limit (req_Limit req)) (count (fun t => acc (view t)) (held c ops))) names) =
                 Z.min (effective_limit (req_Limit req)) (count (fun t => acc (view t)) (held n ops)) +
                 sum (map (fun c => Z.min (effective_limit (req_Limit req)) (count (fun t => acc (view t)) (held c ops))) names)) by reflexivity.
    rewrite Hc, <- IH. unfold selected. rewrite firstn_length, map_length. unfold count, zlen. lia.
Qed.

(** So the match count is the number of matches if no category has more than the limit. *)
Theorem C24_match_count_exact :
  forall (T : Type) (zero : T) (view : T -> StaticTrace) sort order source ops s freed (req : SearchRequest RE) acc,
    Forall valid_op ops -> coll_run zero new_collector_storage ops = Ok (s, freed) ->
    is_order order -> is_sort Less sort ->
    unused (req_Filter req) -> decides Compile MatchString (req_Filter req) acc ->
    (forall c, count (fun t => acc (view t)) (held c ops) <= effective_limit (req_Limit req)) ->
    exists req' resp, Search Compile MatchString view sort order source s req = Ok (req', resp) /\
      resp_MatchCount resp = count (fun t => acc (view t)) (all_held ops).
Proof.
  intros T zero view sort order source ops s freed req acc Hops Hrun Hord Hsort Hu Hd Hle.
  destruct (C24_search_counts T zero view sort order source ops s freed req acc Hops Hrun Hord Hsort Hu Hd) as (req' & resp & E & _ & Hm).
  exists req', resp. split; [exact E|]. rewrite Hm. unfold all_held. clear Hm. induction (categories ops) as [|c cs IH]; [reflexivity|].
  cbn [map flat_map]. rewrite count_app. transitivity (Z.min (effective_limit (req_Limit req)) (count (fun t => acc (view t)) (held c ops)) +
    sum (map (fun c => Z.min (effective_limit (req_Limit req)) (count (fun t => acc (view t)) (held c ops))) cs)); [reflexivity|].
  rewrite IH.
  rewrite (Z.min_r _ _ (Hle c)). reflexivity.
Qed.

(** The statistics cover everything the collector holds, matching or not. *)
Theorem C24_stats_cover_everything :
  forall (T : Type) (zero : T) (view : T -> StaticTrace) sort order source ops s freed (req : SearchRequest RE) acc,
    Forall valid_op ops -> coll_run zero new_collector_storage ops = Ok (s, freed) ->
    is_order order -> is_sort Less sort ->
    unused (req_Filter req) -> decides Compile MatchString (req_Filter req) acc ->
    exists req' resp stats, Search Compile MatchString view sort order source s req = Ok (req', resp) /\
      resp_Stats resp = Some stats /\ Bucketing stats = req_Bucketing req' /\
      forall c, let mine := of_category c (map view (all_held ops)) in
        match map_get c (Categories stats) with
        | None => mine = []
        | Some cs => mine <> [] /\ cs_Category cs = c /\ counts_exactly (req_Bucketing req') cs mine /\
                     EventCount cs = sum (map (fun tr => zlen (TraceEvents tr)) mine)
        end.
Proof.
  intros T zero view sort order source ops s freed req acc Hops Hrun Hord Hsort Hu Hd.
  destruct (Search_spec Compile MatchString zero view sort order source ops s freed req (fun t => acc (view t)) Hops Hrun Hord) as
    (req' & resp & names & stats & E & Hn & Hobs & Hst & _ & _ & _ & _ & _ & _ & Hb & _).
  { intros t. apply decides_Allow; assumption. }
  exists req', resp, stats. split; [exact E|]. split; [exact Hst|]. rewrite Hb.
  destruct (observe_new (norm_bucketing (req_Bucketing req)) (map view (flat_map (fun c => held c ops) names))) as (st & E' & Hr & He).
  rewrite Hobs in E'. injection E' as <-.
  pose proof (Permutation_map view (all_held_perm ops names Hn)) as Hp.
  apply (represents_perm _ _ _ _ Hp) in Hr. destruct Hr as (HB & _ & HC). split; [exact HB|].
  intros c. cbn zeta. specialize (HC c). specialize (He c). destruct (map_get c (Categories stats)) as [cs|]; [|exact HC].
  destruct HC as (H1 & H2 & H3). split; [exact H1|]. split; [exact H2|]. split; [apply counts_exactly_spec; exact H3|].
  rewrite (He cs eq_refl). apply sum_perm, Permutation_map, of_category_perm. exact Hp.
Qed.
End OneCollector.
Print Assumptions C22_search_sound.
Print Assumptions C23_search_returns_newest.
Print Assumptions C23_search_returns_newest_by_key.
Print Assumptions C23_search_is_deterministic.
Print Assumptions C24_search_counts.
Print Assumptions C24_match_count_exact.
Print Assumptions C24_stats_cover_everything.

(** Examples and findings: the stored values are the static traces themselves. *)
Definition demo_run (ops : list (coll_op StaticTrace)) (limit : Z) (q : string) :=
  '(s, _) <- coll_run (demo_key 0 "") new_collector_storage ops ;;
  '(_, r) <- Search demo_compile demo_match (fun t => t) (isort Less) (fun l => l) "src" s (MkReq [] (set_query no_filter q) limit 0) ;;
  Ok (map TraceID (resp_Traces r), resp_TotalCount r, resp_MatchCount r).
Definition demo_tr (cat id : string) (start : Z) (what : string) : coll_op StaticTrace :=
  CNew cat (MkStatic "s" id cat start 1 "" true false [MkEvent start what [] false]).

Example C22_C23_C24_instance :
  let ops := [demo_tr "a" "1" 1 "x"; demo_tr "b" "2" 2 "y"; demo_tr "a" "3" 3 "x"; demo_tr "a" "4" 4 "xx"; demo_tr "b" "5" 5 "x"] in
  Forall valid_op ops /\ added_in_order newer (fun t => t) ops /\ distinct_keys (all_held ops) /\
  demo_run ops 2 "x" = Ok (["5"; "4"], 5, 3) /\ demo_run ops 3 "" = Ok (["5"; "4"; "3"], 5, 5) /\
  decides demo_compile demo_match (set_query no_filter "x") (fun tr => snd (Allow demo_compile demo_match (set_query no_filter "x") tr)).
Proof.
  cbn zeta. split; [repeat constructor|]. split.
  { intros c. rewrite map_id. unfold held. cbn [rev app held_rev demo_tr].
    destruct (String.eqb "b" c) eqn:Eb, (String.eqb "a" c) eqn:Ea; vm_compute; repeat constructor. }
  split; [unfold distinct_keys; vm_compute; repeat constructor; cbn; intuition congruence|].
  split; [vm_compute; reflexivity|]. split; [vm_compute; reflexivity|].
  intros tr. apply Allow_unused. reflexivity.
Qed.

(** Finding: when a category holds traces out of start order, a newer match is left out. *)
Theorem C23_out_of_order_refuted :
  exists ops, Forall valid_op ops /\ distinct_keys (all_held ops) /\ demo_run ops 1 "" = Ok (["old"], 2, 1) /\
    exists a b, all_held ops = [a; b] /\ TraceID a = "old" /\ TraceStarted a < TraceStarted b.
Proof.
  exists [demo_tr "a" "new" 2 "x"; demo_tr "a" "old" 1 "x"]. split; [repeat constructor|].
  split; [unfold distinct_keys; vm_compute; repeat constructor; cbn; intuition congruence|]. split; [vm_compute; reflexivity|].
  eexists _, _. split; [vm_compute; reflexivity|]. split; reflexivity.
Qed.
Print Assumptions C23_out_of_order_refuted.

(** Finding: the match count can be less than the number of matching traces. *)
Theorem C24_match_count_refuted :
  exists ops, Forall valid_op ops /\ zlen (all_held ops) = 3 /\ demo_run ops 2 "" = Ok (["3"; "2"], 3, 2).
Proof.
  exists [demo_tr "a" "1" 1 "x"; demo_tr "a" "2" 2 "x"; demo_tr "a" "3" 3 "x"]. split; [repeat constructor|]. split; vm_compute; reflexivity.
Qed.
Print Assumptions C24_match_count_refuted.

(** C112: what a search tells the trace in its context. *)
From Verif Require Import Go M_Strings M_Fmt M_SearchLog S_SearchLog L_SearchLog L_Decor.
Open Scope string_scope.
Open Scope list_scope.

Lemma sapp_nil_r (a : string) : (a ++ "" = a)%string.
Proof. induction a as [|x a IH]; cbn; [reflexivity|]. now rewrite IH. Qed.

Lemma flat_map_insert {A B} (f g : A -> list B) x c l : NoDup l -> In x l ->
  Permutation (g x) (c :: f x) -> (forall y, y <> x -> g y = f y) -> Permutation (flat_map g l) (c :: flat_map f l).
Proof.
  intros Hnd Hin Hx Hy. induction l as [|y l IH]; [destruct Hin|]. apply NoDup_cons_iff in Hnd as [Hni Hnd]. cbn [flat_map].
  destruct Hin as [->|Hin].
  - assert (flat_map g l = flat_map f l) as ->.
    { clear - Hni Hy. induction l as [|z l IH]; [reflexivity|]. cbn [flat_map]. rewrite IH by (intros C; apply Hni; right; exact C).
      rewrite Hy; [reflexivity|]. intros ->. apply Hni. left. reflexivity. }
    rewrite Hx. reflexivity.
  - rewrite IH by assumption. rewrite Hy by (intros ->; contradiction). symmetry. apply Permutation_middle.
Qed.

Lemma log_split n log : (forall w c, In (w, c) log -> match w with Own => True | Sub i | Remark i => (i < n)%nat end) ->
  Permutation (map snd log) (said_by Own log ++ flat_map (fun i => said_by (Sub i) log ++ said_by (Remark i) log) (seq 0 n)).
Proof.
  induction log as [|[w c] log IH]; intros H.
  - cbn. assert (flat_map (fun _ : nat => @nil call ++ []) (seq 0 n) = []) as E.
    { induction (seq 0 n); [reflexivity|assumption]. }
    change (Permutation [] (flat_map (fun _ : nat => @nil call ++ []) (seq 0 n))). rewrite E. constructor.
  - cbn [map snd]. specialize (IH (fun w' c' Hin => H w' c' (or_intror Hin))).
    pose proof (H w c (or_introl eq_refl)) as Hw.
    assert (HB : forall w', said_by w' ((w, c) :: log) = if who_eqb w w' then c :: said_by w' log else said_by w' log).
    { intros w'. unfold said_by. cbn [filter fst]. destruct (who_eqb w w'); reflexivity. }
    destruct w as [|i|i].
    + rewrite HB. cbn [who_eqb app]. apply perm_skip. rewrite IH. apply Permutation_app_head.
      reflexivity.
    + rewrite HB. cbn [who_eqb]. rewrite IH.
      rewrite (flat_map_insert (fun i => said_by (Sub i) log ++ said_by (Remark i) log)
                 (fun j => said_by (Sub j) ((Remark i, c) :: log) ++ said_by (Remark j) ((Remark i, c) :: log)) i c).
      * apply Permutation_middle.
      * apply seq_NoDup.
      * apply in_seq. lia.
      * rewrite !HB. cbn [who_eqb]. rewrite Nat.eqb_refl. symmetry. apply Permutation_middle.
      * intros j Hj. rewrite !HB. cbn [who_eqb]. destruct (Nat.eqb_spec i j); [congruence|reflexivity].
    + rewrite HB. cbn [who_eqb]. rewrite IH.
      rewrite (flat_map_insert (fun i => said_by (Sub i) log ++ said_by (Remark i) log)
                 (fun j => said_by (Sub j) ((Sub i, c) :: log) ++ said_by (Remark j) ((Sub i, c) :: log)) i c).
      * apply Permutation_middle.
      * apply seq_NoDup.
      * apply in_seq. lia.
      * rewrite !HB. cbn [who_eqb]. rewrite Nat.eqb_refl. reflexivity.
      * intros j Hj. rewrite !HB. cbn [who_eqb]. destruct (Nat.eqb_spec i j); [congruence|reflexivity].
Qed.

(** ** The counts *)
Lemma sum_of_spec outs l :
  let os := map (out outs) l in
  sum_of outs l = (sum (map (fun c => fst (fst c)) (answered os)), sum (map (fun c => snd (fst c)) (answered os)), sum (map snd (answered os))).
Proof.
  induction l as [|i l IH]; [reflexivity|]. cbn zeta in *. cbn [sum_of fold_right map]. fold (sum_of outs l). rewrite IH.
  unfold answered. cbn [flat_map]. fold (answered (map (out outs) l)). unfold add_counts.
  destruct (fst (out outs i)) as [[[t m] r]|]; [|reflexivity].
  cbn [app map sum fold_right fst snd]. fold (sum (map (fun c : counts => fst (fst c)) (answered (map (out outs) l)))).
  f_equal; [f_equal|]; apply Z.add_comm.
Qed.
Lemma sum_perm l l' : Permutation l l' -> sum l = sum l'.
Proof. unfold sum. induction 1; cbn [fold_right] in *; lia. Qed.
Lemma total_perm limit os os' : Permutation os os' -> total_of limit os = total_of limit os'.
Proof.
  intros H. unfold total_of. assert (HP : Permutation (answered os) (answered os')) by (apply Permutation_flat_map, H).
  f_equal; [f_equal|f_equal]; apply sum_perm, Permutation_map, HP.
Qed.
Lemma cut_sum limit outs l : cut limit (sum_of outs l) = total_of limit (map (out outs) l).
Proof.
  rewrite sum_of_spec. unfold cut, total_of. f_equal.
  destruct (Z.ltb_spec limit (sum (map snd (answered (map (out outs) l))))); lia.
Qed.
Lemma out_seq outs n : length outs = n -> map (out outs) (seq 0 n) = outs.
Proof.
  intros <-. unfold out.
  assert (HX : forall pre l : list outcome, map (fun i => nth i (pre ++ l) (None, None)) (seq (length pre) (length l)) = l).
  { intros pre l. revert pre. induction l as [|x l IH]; intros pre; [reflexivity|]. cbn [length seq map]. f_equal.
    - rewrite app_nth2 by lia. now rewrite Nat.sub_diag.
    - specialize (IH (pre ++ [x])). rewrite app_length, <- app_assoc in IH. cbn [length app] in IH. rewrite Nat.add_1_r in IH. exact IH. }
  exact (HX [] outs).
Qed.

(** ** The order of the lines *)
(** However the goroutines of a MultiSearcher are scheduled: when its search returns, each searcher's calls are in
    the trace, in the order it made them; what the MultiSearcher says about the outcome of a searcher comes after
    them, once; its own first line is the scatter line, and the last two lines of all are its summary. *)
Theorem C112_order :
  forall (limit : Z) (outs : list outcome) (logs : list (list call)) (schedule : list (option nat)),
    let s := run limit outs schedule logs in
    ms_phase s = Returned ->
    (forall i, (i < length logs)%nat ->
       said_by (Sub i) (ms_log s) = map (prefix_call (id_of i)) (nth i logs []) /\
       said_by (Remark i) (ms_log s) = remark_calls (id_of i) (nth i outs (None, None)) /\
       forall before c after, ms_log s = before ++ (Remark i, c) :: after ->
         said_by (Sub i) before = map (prefix_call (id_of i)) (nth i logs []) /\ said_by (Sub i) after = []) /\
    (exists before, ms_log s = before ++ [(Own, gathered_call); (Own, total_call (ms_agg s))] /\
                    said_by Own before = [scattered_call (length logs)]) /\
    (forall w c, In (w, c) (ms_log s) -> match w with Own => True | Sub i | Remark i => (i < length logs)%nat end).
Proof.
  intros limit outs logs schedule s Hr. pose proof (inv_run limit outs logs schedule) as I. fold s in I.
  destruct (recv_all limit outs logs s I Hr) as [HP Hn]. destruct (v_done _ _ _ _ I Hr) as [_ (l & El)].
  split; [|split; [|apply I]].
  - intros i Hi. pose proof (v_sub _ _ _ _ I i Hi) as Hs. rewrite (Hn i Hi) in Hs. cbn [map] in Hs. rewrite app_nil_r in Hs.
    split; [exact Hs|]. split.
    + rewrite (v_remark _ _ _ _ I). destruct (existsb (Nat.eqb i) (ms_recv s)) eqn:E; [reflexivity|].
      exfalso. apply not_true_iff_false in E. apply E, In_existsb. apply (Permutation_in _ (Permutation_sym HP)), in_seq. lia.
    + intros before c after E. pose proof (v_before _ _ _ _ I _ _ _ _ E) as Ha. split; [|exact Ha].
      rewrite <- Hs, E, said_by_app. change ((Remark i, c) :: after) with ([(Remark i, c)] ++ after). rewrite said_by_app, Ha.
      change (said_by (Sub i) [(Remark i, c)]) with (@nil call). now rewrite !app_nil_r.
  - exists l. split; [exact El|]. pose proof (v_own _ _ _ _ I) as Ho. rewrite Hr, El, said_by_app in Ho.
    change (said_by Own [(Own, gathered_call); (Own, total_call (ms_agg s))]) with [gathered_call; total_call (ms_agg s)] in Ho.
    change [scattered_call (length logs); gathered_call; total_call (ms_agg s)]
      with ([scattered_call (length logs)] ++ [gathered_call; total_call (ms_agg s)]) in Ho.
    apply app_inv_tail in Ho. exact Ho.
Qed.
Print Assumptions C112_order.

Section Text.
Variable printExtra : unit -> sarg -> string.
Variable special : unit -> string -> string -> list sarg -> string.
(** The text of a call on the trace *)
Definition text (c : call) : string := Sprintf print_sarg printExtra special tt (c_format c) (c_args c).
Definition said (c : call) : line := (c_err c, text c).

Definition under (path : string) (l : line) : line := (fst l, (path ++ snd l)%string).

Lemma said_prefix id c : said (prefix_call id c) = under ("<" ++ id ++ "> ")%string (said c).
Proof.
  unfold said, under, text, prefix_call, Sprintf. cbn [c_err c_format c_args fst snd]. f_equal.
  rewrite !append_assoc. reflexivity.
Qed.
Lemma said_answer name c : said (answer_call name c) = (false, (name ++ " -> " ++ say_counts c)%string).
Proof.
  destruct c as [[t m] r]. unfold said, text, Sprintf, answer_call, say_counts. cbn [c_err c_format c_args]. f_equal.
  rewrite <- (sapp_nil_r (itoa r)). reflexivity.
Qed.
Lemma said_client_error err : said (client_error_call err) = (true, ("error: " ++ err)%string).
Proof. unfold said, text, Sprintf, client_error_call. cbn [c_err c_format c_args]. f_equal. exact (f_equal (append "error: ") (sapp_nil_r err)). Qed.
Lemma said_scattered n : said (scattered_call n) = (false, ("scattered request count " ++ itoa (Z.of_nat n))%string).
Proof.
  unfold said, text, Sprintf, scattered_call. cbn [c_err c_format c_args]. f_equal. rewrite <- (sapp_nil_r (itoa (Z.of_nat n))). reflexivity.
Qed.
Lemma said_remark i o : map said (remark_calls (id_of i) o) = remark "" (S i) o.
Proof.
  unfold id_of. replace (Z.of_nat i + 1)%Z with (Z.of_nat (S i)) by lia.
  destruct o as [[c|] [err|]]; cbn [remark_calls remark map]; try reflexivity; unfold said, text, Sprintf; cbn [c_err c_format c_args]; do 2 f_equal.
  - exact (f_equal (fun x => (itoa (Z.of_nat (S i)) ++ ": weird: valid result (accepting it) with error: " ++ x)%string) (sapp_nil_r err)).
  - exact (f_equal (fun x => (itoa (Z.of_nat (S i)) ++ ": error: " ++ x)%string) (sapp_nil_r err)).
Qed.
Lemma said_total c : said (total_call c) = (false, say_counts c).
Proof.
  destruct c as [[t m] r]. unfold said, text, Sprintf, total_call, say_counts. cbn [c_err c_format c_args]. f_equal.
  rewrite <- (sapp_nil_r (itoa r)). reflexivity.
Qed.

Lemma under_under p q l : under p (under q l) = under (p ++ q)%string l.
Proof. unfold under. cbn [fst snd]. now rewrite append_assoc. Qed.

(** The lines of the searchers of a MultiSearcher, by their numbers *)
Fixpoint each (limit : Z) (path : string) (i : nat) (subs : list searcher) : list line :=
  match subs with
  | [] => []
  | s :: subs => lines limit text (path ++ "<" ++ itoa (Z.of_nat i) ++ "> ")%string s ++ remark path i (result limit s) ++ each limit path (S i) subs
  end.
Lemma lines_multi limit path subs :
  lines limit text path (Multi subs) =
  (false, (path ++ "scattered request count " ++ itoa (Z.of_nat (length subs)))%string) :: each limit path 1 subs ++
  [(false, (path ++ "gathered responses")%string); (false, (path ++ say_counts (total_of limit (map (result limit) subs)))%string)].
Proof.
  cbn [lines]. do 2 f_equal. generalize 1%nat. induction subs as [|s subs IH]; intros i; [reflexivity|]. cbn [each]. rewrite <- IH. reflexivity.
Qed.

Lemma lines_path limit s : forall p q, lines limit text (p ++ q)%string s = map (under p) (lines limit text q s).
Proof.
  induction s as [source c|uri [c|err]|calls o|subs IH] using searcher_ind'; intros p q.
  1-3: cbn [lines map]; unfold under; cbn [fst snd]; rewrite append_assoc; reflexivity.
  - cbn [lines]. rewrite map_map. apply map_ext. intros c. unfold under. cbn [fst snd]. now rewrite append_assoc.
  - rewrite !lines_multi. cbn [map]. rewrite map_app. cbn [map]. unfold under at 1 3 4. cbn [fst snd]. rewrite !append_assoc.
    assert (HX : forall l i, (forall s, In s l -> In s subs) -> each limit (p ++ q)%string i l = map (under p) (each limit q i l)).
    { induction l as [|s l IHl]; intros i Hin; [reflexivity|]. cbn [each]. rewrite !map_app.
      rewrite <- IHl by (intros s' Hs'; apply Hin; right; exact Hs').
      rewrite append_assoc, IH by (apply Hin; left; reflexivity). do 2 f_equal.
      unfold remark. destruct (result limit s) as [[c|] [err|]]; cbn [map]; unfold under; cbn [fst snd]; rewrite ?append_assoc; reflexivity. }
    rewrite HX by auto. reflexivity.
Qed.
Lemma lines_at limit p s : lines limit text p s = map (under p) (lines limit text "" s).
Proof. rewrite <- lines_path. f_equal. symmetry. apply sapp_nil_r. Qed.

Lemma flat_each limit (F : nat -> list call) subs k :
  (forall j s, nth_error subs j = Some s ->
     Permutation (map said (F (k + j)%nat)) (lines limit text ("<" ++ itoa (Z.of_nat (S (k + j))) ++ "> ")%string s ++ remark "" (S (k + j)) (result limit s))) ->
  Permutation (map said (flat_map F (seq k (length subs)))) (each limit "" (S k) subs).
Proof.
  revert k. induction subs as [|s subs IH]; intros k H; cbn [length seq flat_map each]; [constructor|].
  rewrite map_app. pose proof (H O s eq_refl) as H0. rewrite Nat.add_0_r in H0. rewrite H0, <- app_assoc.
  apply Permutation_app_head, Permutation_app_head. apply IH. intros j s' Hj. specialize (H (S j) s' Hj).
  rewrite Nat.add_succ_r in H. exact H.
Qed.

Lemma searches_lines limit s : forall cs o, searches limit s cs o ->
  o = result limit s /\ Permutation (map said cs) (lines limit text "" s).
Proof.
  induction s as [source c|uri c|calls o0|subs IH] using searcher_ind'; intros cs o H; inversion H; subst; clear H.
  - split; [reflexivity|]. cbn [map lines]. rewrite said_answer. reflexivity.
  - split; [reflexivity|]. cbn [map lines]. rewrite said_answer. reflexivity.
  - split; [reflexivity|]. cbn [map lines]. rewrite said_client_error. reflexivity.
  - split; [reflexivity|]. cbn [lines]. reflexivity.
  - match goal with H1 : length logs = _, H2 : length outs = _, H3 : forall i s, _ -> _, H4 : ms_phase _ = Returned |- _ => rename H1 into Hl, H2 into Ho, H3 into Hs, H4 into Hr end.
    pose proof (inv_run limit outs logs schedule) as I.
    destruct (recv_all limit outs logs _ I Hr) as [HP _].
    assert (Eouts : outs = map (result limit) subs).
    { apply nth_ext with (d := (None, None)) (d' := result limit (Coll "" (0, 0, 0)%Z)); [rewrite map_length; exact Ho|].
      intros i Hi. rewrite map_nth. destruct (nth_error subs i) as [s|] eqn:Es.
      - rewrite (nth_error_nth _ _ _ Es). apply (IH s (nth_error_In _ _ Es) _ _ (Hs i s Es)).
      - apply nth_error_None in Es. lia. }
    assert (Eagg : ms_agg (run limit outs schedule logs) = total_of limit (map (result limit) subs)).
    { rewrite (v_agg _ _ _ _ I), Hr, cut_sum. rewrite <- Eouts. transitivity (total_of limit (map (out outs) (seq 0 (length logs)))).
      - apply total_perm, Permutation_map, HP.
      - rewrite out_seq by (rewrite Hl; exact Ho). reflexivity. }
    split; [cbn [result]; rewrite Eagg; reflexivity|].
    destruct (C112_order limit outs logs schedule Hr) as (Hsub & _ & Hw).
    rewrite (Permutation_map said (log_split (length logs) _ Hw)), map_app, (v_own _ _ _ _ I), Hr.
    rewrite lines_multi. cbn [map app]. rewrite said_scattered, said_total, Eagg, Hl. apply perm_skip.
    change (said gathered_call) with (false, "gathered responses").
    set (tail := [(false, ("" ++ "gathered responses")%string); _]).
    change (Permutation (tail ++ map said (flat_map (fun i => said_by (Sub i) (ms_log (run limit outs schedule logs)) ++ said_by (Remark i) (ms_log (run limit outs schedule logs))) (seq 0 (length subs)))) (each limit "" 1 subs ++ tail)).
    rewrite Permutation_app_comm. apply Permutation_app_tail.
    apply (flat_each limit (fun i => said_by (Sub i) (ms_log (run limit outs schedule logs)) ++ said_by (Remark i) (ms_log (run limit outs schedule logs))) subs 0).
    intros j s Hj. cbn [Nat.add]. assert (Hjn : (j < length logs)%nat) by (rewrite Hl; apply nth_error_Some; congruence).
    destruct (Hsub j Hjn) as (H1 & H2 & _). rewrite H1, H2, map_app.
    destruct (IH s (nth_error_In _ _ Hj) _ _ (Hs j s Hj)) as [H3 H4]. assert (H3' : @nth outcome j outs (None, None) = result limit s) by exact H3. rewrite H3', said_remark. apply Permutation_app_tail.
    rewrite map_map, lines_at. rewrite <- H4, map_map. apply Permutation_refl'. apply map_ext. intros c. rewrite said_prefix.
    unfold id_of. replace (Z.of_nat j + 1)%Z with (Z.of_nat (S j)) by lia. reflexivity.
Qed.
End Text.

(** Every search that returns has told its trace exactly the lines of the specification, in some order, and
    returned what the specification says.  [printExtra] and [special] are the parts of fmt that are not used. *)
Theorem C112_lines :
  forall (limit : Z) (s : searcher) (calls : list call) (o : outcome) printExtra special,
    searches limit s calls o ->
    o = result limit s /\
    Permutation (map (fun c => (c_err c, Sprintf print_sarg printExtra special tt (c_format c) (c_args c))) calls)
                (lines limit (text printExtra special) "" s).
Proof. intros limit s calls o pe sp H. exact (searches_lines pe sp limit s calls o H). Qed.
Print Assumptions C112_lines.

Lemma existsb_perm {A} (f : A -> bool) l l' : Permutation l l' -> existsb f l = existsb f l'.
Proof.
  induction 1 as [|x l l' _ IH|x y l|l1 l2 l3 _ IH1 _ IH2]; cbn [existsb]; [reflexivity| | |congruence].
  - now rewrite IH.
  - now rewrite !orb_assoc, (orb_comm (f y)).
Qed.
Lemma existsb_map {A B} (g : A -> B) (f : B -> bool) l : existsb f (map g l) = existsb (fun x => f (g x)) l.
Proof. induction l as [|x l IH]; [reflexivity|]. cbn [map existsb]. now rewrite IH. Qed.
Lemma remark_no_error path i o : existsb fst (remark path i o) = false.
Proof. destruct o as [[c|] [err|]]; reflexivity. Qed.

Lemma lines_errors pe sp limit s : forall p, existsb fst (lines limit (text pe sp) p s) = true <-> failing_client s.
Proof.
  induction s as [source c|uri [c|err]|calls o|subs IH] using searcher_ind'; intros p.
  - cbn. split; [discriminate|]. intros H. inversion H.
  - cbn. split; [discriminate|]. intros H. inversion H.
  - cbn. split; [constructor|reflexivity].
  - cbn [lines]. rewrite existsb_map. cbn [fst]. rewrite existsb_exists. split; [intros H; constructor; exact H|intros H; inversion H; assumption].
  - rewrite lines_multi. cbn [existsb fst orb]. rewrite existsb_app. cbn [existsb fst orb]. rewrite orb_false_r.
    assert (HX : forall l i, (forall s, In s l -> In s subs) -> existsb fst (each pe sp limit p i l) = true <-> exists s, In s l /\ failing_client s).
    { induction l as [|s l IHl]; intros i Hin; [split; [discriminate|intros (x & [] & _)]|]. cbn [each].
      rewrite !existsb_app, remark_no_error, orb_false_l, orb_true_iff, IHl by (intros x Hx; apply Hin; right; exact Hx).
      rewrite IH by (apply Hin; left; reflexivity). split.
      - intros [H|(x & Hx & H)]; [exists s; split; [left; reflexivity|exact H]|exists x; split; [right; exact Hx|exact H]].
      - intros (x & [<-|Hx] & H); [left; exact H|right; eauto]. }
    rewrite HX by auto. split; [intros (x & Hx & H); econstructor; eassumption|]. intros H. inversion H; subst. eauto.
Qed.

(** A search marks its trace as errored exactly if a search client in it fails (or a foreign searcher logs an
    error), however deep, although the search itself returns no error. *)
Theorem C112_errored :
  forall (limit : Z) (s : searcher) (calls : list call) (o : outcome),
    searches limit s calls o ->
    ((exists c, In c calls /\ c_err c = true) <-> failing_client s) /\
    (forall subs, s = Multi subs -> snd o = None).
Proof.
  intros limit s calls o H. destruct (searches_lines (fun _ _ => EmptyString) (fun _ _ _ _ => EmptyString) limit s calls o H) as [-> HP].
  split; [|intros subs ->; reflexivity].
  rewrite <- (lines_errors (fun _ _ => EmptyString) (fun _ _ _ _ => EmptyString) limit s ""), <- (existsb_perm fst _ _ HP), existsb_map.
  cbn [said fst]. rewrite existsb_exists. reflexivity.
Qed.
Print Assumptions C112_errored.

(** ** Searches end *)
Definition weight (s : ms) : nat :=
  list_sum (map (fun x => match x with Some cs => S (length cs) | None => 0 end) (ms_rest s)) + (length (ms_rest s) - length (ms_recv s)) +
  match ms_phase s with Scattering => 2 | Gathering => 1 | Returned => 0 end.

Lemma upd_weight (l : list (option (list call))) i x y : nth_error l i = Some x ->
  let w := fun x => match x with Some cs => S (length cs) | None => 0 end in
  list_sum (map w (upd l i y)) + w x = list_sum (map w l) + w y.
Proof.
  intros H w. revert l H. induction i as [|i IH]; intros [|a l] H; try discriminate.
  - cbn [nth_error] in H. assert (a = x) as -> by congruence.
    change (w y + list_sum (map w l) + w x = w x + list_sum (map w l) + w y). lia.
  - cbn [nth_error] in H. specialize (IH l H).
    change (w a + list_sum (map w (upd l i y)) + w x = w a + list_sum (map w l) + w y). lia.
Qed.

Lemma can_return limit outs logs : forall k s, weight s = k -> inv limit outs logs s ->
  exists schedule, ms_phase (fold_left (step limit outs) schedule s) = Returned.
Proof.
  induction k as [k IH] using lt_wf_ind. intros s Hk I.
  assert (HS : forall choice, weight (step limit outs s choice) < k -> exists schedule, ms_phase (fold_left (step limit outs) schedule s) = Returned).
  { intros choice Hlt. destruct (IH _ Hlt _ eq_refl (inv_step limit outs logs s choice I)) as (sch & Hsch). exists (choice :: sch). exact Hsch. }
  destruct (existsb (fun x => match x with Some _ => true | None => false end) (ms_rest s)) eqn:Ea.
  - apply existsb_exists in Ea as ([cs|] & Hin & Hx); [|discriminate]. apply In_nth_error in Hin as (i & Hi).
    apply (HS (Some i)). cbn [step]. unfold go_step. rewrite Hi. unfold weight in *.
    destruct cs as [|c cs]; cbn [ms_rest ms_recv ms_phase]; rewrite upd_length.
    + pose proof (upd_weight _ i _ None Hi) as HW. cbn zeta in HW. cbn [length] in HW. lia.
    + pose proof (upd_weight _ i _ (Some cs) Hi) as HW. cbn zeta in HW. cbn [length] in HW. lia.
  - destruct (ms_phase s) eqn:Ep; [| |exists []; exact Ep].
    + apply (HS None). cbn [step]. unfold main_step. rewrite Ep. cbn zeta. unfold weight in *. cbn [ms_rest ms_recv ms_phase]. rewrite Ep in Hk. lia.
    + apply (HS None). cbn [step]. unfold main_step. rewrite Ep. cbn zeta. unfold weight in *. rewrite Ep in Hk.
      destruct (Nat.ltb_spec (length (ms_recv s)) (length (ms_rest s))) as [Hlt|Hge]; [|cbn [ms_rest ms_recv ms_phase]; lia].
      destruct (ms_queue s) as [|i q] eqn:Eq; [|cbn [ms_rest ms_recv ms_phase length]; lia].
      exfalso.
      assert (Hincl : incl (seq 0 (length (ms_rest s))) (ms_recv s)).
      { intros j Hj. apply in_seq in Hj. destruct (nth_error (ms_rest s) j) as [[cs|]|] eqn:Ej.
        - apply not_true_iff_false in Ea. exfalso. apply Ea, existsb_exists. exists (Some cs). split; [eapply nth_error_In, Ej|reflexivity].
        - apply (v_sent _ _ _ _ I) in Ej. rewrite Eq, app_nil_r in Ej. exact Ej.
        - apply nth_error_None in Ej. lia. }
      apply NoDup_incl_length in Hincl; [|apply seq_NoDup]. rewrite seq_length in Hincl. lia.
Qed.

(** From wherever it is, a multi-search can come to its end; and there is a search of everything. *)
Theorem C112_searches_end :
  (forall (limit : Z) (outs : list outcome) (logs : list (list call)) (schedule : list (option nat)),
     exists more, ms_phase (run limit outs (schedule ++ more) logs) = Returned) /\
  (forall (limit : Z) (s : searcher), exists calls, searches limit s calls (result limit s)).
Proof.
  assert (H1 : forall (limit : Z) (outs : list outcome) (logs : list (list call)) (schedule : list (option nat)),
     exists more, ms_phase (run limit outs (schedule ++ more) logs) = Returned).
  { intros limit outs logs schedule. destruct (can_return limit outs logs _ _ eq_refl (inv_run limit outs logs schedule)) as (more & Hm).
    exists more. unfold run in *. rewrite fold_left_app. exact Hm. }
  split; [exact H1|]. intros limit s.
  assert (HX : exists calls o, searches limit s calls o).
  { induction s as [source c|uri [c|err]|calls o|subs IH] using searcher_ind'; try (do 2 eexists; constructor; fail).
    assert (HL : exists logs outs, length logs = length subs /\ length outs = length subs /\
              forall i s, nth_error subs i = Some s -> searches limit s (nth i logs []) (nth i outs (None, None))).
    { induction subs as [|s subs IHs]; [exists [], []; repeat split; intros [|i] s H; discriminate|].
      destruct (IH s (or_introl eq_refl)) as (c & o & Hs). destruct IHs as (logs & outs & E1 & E2 & Hi); [intros x Hx; apply IH; right; exact Hx|].
      exists (c :: logs), (o :: outs). cbn [length]. repeat split; [congruence|congruence|].
      intros [|i] x Hx; [injection Hx as <-; exact Hs|apply Hi, Hx]. }
    destruct HL as (logs & outs & E1 & E2 & Hi). destruct (H1 limit outs logs []) as (sch & Hsch).
    do 2 eexists. eapply SMulti with (schedule := sch); eassumption. }
  destruct HX as (calls & o & H). exists calls.
  destruct (searches_lines (fun _ _ => EmptyString) (fun _ _ _ _ => EmptyString) limit s calls o H) as [<- _]. exact H.
Qed.
Print Assumptions C112_searches_end.

(** Two collectors and a multi-searcher of a server that cannot be reached and one that answers *)
Example C112_instance :
  let s := Multi [Coll "a" (12, 5, 3)%Z; Multi [Client "http://b" (inr "refused"); Client "http://c" (inl (100, 9, 9)%Z)]] in
  failing_client s /\ result 10 s = (Some (112, 14, 10)%Z, None) /\
  lines 10 (fun _ => EmptyString) "" s =
    [(false, "scattered request count 2");
     (false, "<1> a -> total 12, matched 5, returned 3");
     (false, "<2> scattered request count 2");
     (true, "<2> <1> error: refused");
     (false, "<2> 1: error: refused");
     (false, "<2> <2> http://c -> total 100, matched 9, returned 9");
     (false, "<2> gathered responses");
     (false, "<2> total 100, matched 9, returned 9");
     (false, "gathered responses");
     (false, "total 112, matched 14, returned 10")] /\
  (* a schedule of the inner search *)
  let inner := run 10 [(None, Some "refused"); (Some (100, 9, 9)%Z, None)] [Some 1; None; Some 1; Some 0; None; Some 0; None; None]%nat
                   [[client_error_call "refused"]; [answer_call "http://c" (100, 9, 9)%Z]] in
  ms_phase inner = Returned /\
  map (fun e => text (fun _ _ => "") (fun _ _ _ _ => "") (snd e)) (ms_log inner) =
    ["<2> http://c -> total 100, matched 9, returned 9"; "scattered request count 2"; "<1> error: refused"; "1: error: refused";
     "gathered responses"; "total 100, matched 9, returned 9"].
Proof.
  split; [|split; [|split]].
  - eapply FMulti; [right; left; reflexivity|]. eapply FMulti; [left; reflexivity|]. constructor.
  - reflexivity.
  - vm_compute. reflexivity.
  - vm_compute. split; reflexivity.
Qed.

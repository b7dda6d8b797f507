(** C101: a response names the sources of its traces. *)
From Verif Require Import Go L_List M_Strings M_Types M_Filter S_Filter S_Trace M_Trace S_TraceView L_Trace M_RingBuf M_RingBufs S_Collector L_RingBuf L_RingBufs
  M_Humanize M_Text M_Broker S_Broker M_Decor S_Decor L_Decor P_Context M_Easy S_Easy P_Easy S_Order M_Search S_Search P_Search S_Multi P_Multi S_Sources.
From Coq Require Import Lia Permutation.
Open Scope string_scope.
Open Scope list_scope.

Lemma held_all {T} (ops : list (coll_op T)) t : In t (all_held ops) -> In t (created ops).
Proof.
  intros H. apply in_flat_map in H as (c & _ & H). destruct (held_created ops c t H) as (c' & K). apply in_flat_map. exists (CNew c' t). split; [exact K|left; reflexivity].
Qed.

Section Any.
Context {arg world pc RE : Type}.
Variable Sprintf : world -> string -> list arg -> string.
Variable CallersFrames : list pc -> list rframe.
Variable Compile : string -> RE + string.
Variable MatchString : RE -> string -> bool.
Variable str : string -> arg.
Variable caps : string -> Z.
Notation trace := (trace arg).
Notation z_run := (z_run Sprintf CallersFrames Compile MatchString str caps).
Notation z_step := (z_step Sprintf CallersFrames Compile MatchString str caps).
Notation eop := (eop arg world pc).
Notation ez := (ez arg pc RE).
Notation book := (book arg).
Notation book_step := (@book_step arg world pc str).
Notation books := (@books arg world pc str).

(** ** The books *)
Definition of_source (k : book) : Prop :=
  forall n, In n (created (k_stored k)) -> exists a, nth_error (k_traces k) n = Some a /\ a_source a = k_source k.
Lemma receive_source v c ts n a : nth_error ts n = Some a -> exists a', nth_error (receive (arg:=arg) v c ts) n = Some a' /\ a_source a' = a_source a.
Proof.
  intros H. unfold receive. destruct (nth_error ts (v_trace v)) as [x|] eqn:E; [|eauto].
  rewrite nth_error_update by (apply nth_error_Some; congruence). destruct (Nat.eqb_spec n (v_trace v)) as [->|N]; [|eauto].
  rewrite E in H. injection H as <-. eexists. split; [reflexivity|reflexivity].
Qed.
Lemma nth_error_more {A} (l l' : list A) n a : nth_error l n = Some a -> nth_error (l ++ l') n = Some a.
Proof. intros H. rewrite nth_error_app1; [exact H|]. apply nth_error_Some. congruence. Qed.
Lemma got_source k i (b : birth arg pc) n a : nth_error (k_traces k) n = Some a -> nth_error (fst (got (arg:=arg) k i b)) n = Some a.
Proof. intros H. unfold got. destruct (the_view k i); [exact H|]. apply nth_error_more, H. Qed.

Lemma step_of_source k o : ~ renames o -> of_source k -> of_source (book_step k o).
Proof.
  intros NR H. assert (K : k_source (book_step k o) = k_source k).
  { destruct o; cbn in *; try reflexivity; try tauto.
    - destruct (the_view k k0); reflexivity.
    - destruct (got k k0 _). reflexivity.
    - destruct (got k k0 _). reflexivity.
    - destruct (nth_error (k_regions k) r) as [[? ?]|]; reflexivity.
    - destruct (got k k0 _). reflexivity.
    - destruct (got k k0 _). reflexivity. }
  intros n Hn. rewrite K. destruct o; cbn [S_Easy.book_step] in *; try tauto; try (apply H; exact Hn).
  - apply H. cbn [k_stored] in Hn. rewrite created_snoc in Hn. cbn in Hn. rewrite app_nil_r in Hn. exact Hn.
  - destruct (the_view k k0) as [v|]; cbn [add_ctx set_traces k_stored k_traces] in *.
    + destruct (H n Hn) as (a & A & S). destruct (receive_source v (CallLog KLazyTracef "(+ %s)" [str category]) _ _ _ A) as (a' & A' & S'). exists a'. split; [exact A'|congruence].
    + rewrite created_snoc in Hn. apply in_app_or in Hn. destruct Hn as [Hn|[<-|[]]].
      * destruct (H n Hn) as (a & A & S). exists a. split; [apply nth_error_more, A|exact S].
      * eexists. split; [rewrite nth_error_app2, Nat.sub_diag by lia; reflexivity|reflexivity].
  - pose proof (fun a A => got_source k k0 b n a A) as G. destruct (got k k0 b) as [ts v]. cbn [add_ctx set_traces k_stored k_traces fst] in *.
    destruct (H n Hn) as (a & A & S). exists a. auto.
  - pose proof (fun a A => got_source k k0 b1 n a A) as G. destruct (got k k0 b1) as [ts v]. cbn [k_stored k_traces fst] in *.
    destruct (H n Hn) as (a & A & S). apply G in A.
    assert (A1 : nth_error (match the_view k k0 with Some _ => ts | None => ts ++ [orphan b2] end) n = Some a) by (destruct (the_view k k0); [exact A|apply nth_error_more, A]).
    destruct (receive_source v (CallLog KLazyTracef (arrow_in ++ " " ++ name) []) _ _ _ A1) as (a' & A' & S'). exists a'. split; [exact A'|congruence].
  - destruct (nth_error (k_regions k) r) as [[v name]|]; [|apply H; exact Hn]. cbn [set_traces k_stored k_traces] in *.
    destruct (H n Hn) as (a & A & S). destruct (receive_source v (CallLog KLazyTracef (arrow_out ++ " " ++ name ++ " [%s]") [str (HumanizeDuration took)]) _ _ _ A) as (a' & A' & S'). exists a'. split; [exact A'|congruence].
  - pose proof (fun a A => got_source k k0 b n a A) as G. destruct (got k k0 b) as [ts v]. cbn [set_traces k_stored k_traces fst] in *.
    destruct (H n Hn) as (a & A & S). apply G in A. destruct (receive_source v (CallLog kind_ format args) _ _ _ A) as (a' & A' & S'). exists a'. split; [exact A'|congruence].
  - pose proof (fun a A => got_source k k0 b n a A) as G. destruct (got k k0 b) as [ts v]. cbn [set_traces k_stored k_traces fst] in *.
    destruct (H n Hn) as (a & A & S). apply G in A. destruct (receive_source v CallFinish _ _ _ A) as (a' & A' & S'). exists a'. split; [exact A'|congruence].
Qed.
Lemma step_nothing_stored k o : ~ makes_trace o -> created (k_stored k) = [] -> created (k_stored (book_step k o)) = [].
Proof.
  intros NM H. destruct o; cbn [S_Easy.book_step] in *; try exact H.
  - cbn [k_stored]. rewrite created_snoc, H. reflexivity.
  - now elim NM.
  - destruct (got k k0 _). exact H.
  - destruct (got k k0 _). exact H.
  - destruct (nth_error (k_regions k) r) as [[? ?]|]; exact H.
  - destruct (got k k0 _). exact H.
  - destruct (got k k0 _). exact H.
Qed.
Lemma books_of_source ops : named_first ops -> of_source (books ops).
Proof.
  intros (l1 & l2 & -> & F1 & F2). unfold S_Easy.books. rewrite fold_left_app.
  assert (H : created (k_stored (fold_left book_step l1 (book_init (arg:=arg)))) = []).
  { assert (G : forall k, created (k_stored k) = [] -> created (k_stored (fold_left book_step l1 k)) = []); [|apply G; reflexivity].
    clear F2. induction F1 as [|o l1 N F IH]; intros k H; [exact H|]. cbn [fold_left]. apply IH, step_nothing_stored; assumption. }
  assert (O : of_source (fold_left book_step l1 (book_init (arg:=arg)))) by (intros n Hn; rewrite H in Hn; contradiction).
  revert O. generalize (fold_left book_step l1 (book_init (arg:=arg))). clear H F1. induction F2 as [|o l2 N F IH]; intros k O; [exact O|]. cbn [fold_left]. apply IH, step_of_source; assumption.
Qed.

(** C101.  A program that names its collector before it makes traces: a search of it at any
    moment lists the source of every trace that it returns. *)
Theorem C101_a_collector_names_its_sources :
  forall ops z view sort order (req : SearchRequest RE) acc,
    Forall proper ops -> named_first ops -> z_run z_init ops = Ok z ->
    (forall t, TraceSource (view t) = Source (core_at (z_sys z) (t_core t))) ->
    is_order order -> is_sort Less sort -> unused (req_Filter req) -> decides Compile MatchString (req_Filter req) acc ->
    exists req' resp, Search Compile MatchString view sort order (c_source (z_coll (z_ezcoll z))) (c_categories (z_coll (z_ezcoll z))) req = Ok (req', resp) /\
      names_its_sources resp.
Proof.
  intros ops z view sort order req acc Hp Hn E Hv Ho Hs Hu Hd.
  destruct (run_ok Sprintf CallersFrames Compile MatchString str caps ops _ _ (Inv_init Sprintf CallersFrames) Hp) as (z0 & E0 & I0). rewrite E in E0. injection E0 as <-.
  pose proof (books_of_source ops Hn) as O. fold (books ops) in I0. destruct I0 as [IT IS _ _ _ _ (cops & Hval & Hrun & Hst & _ & _)].
  destruct (C22_search_sound Compile MatchString trace nil_trace view sort order (c_source (z_coll (z_ezcoll z))) cops _ _ req acc Hval Hrun Ho Hs Hu Hd)
    as (req' & resp & ES & _ & _ & Src & rest & P).
  exists req', resp. split; [exact ES|]. intros tr Htr. rewrite Src. left.
  assert (H : In tr (matching view (req_StackDepth req) acc (all_held cops))) by (apply (Permutation_in _ P), in_or_app; left; exact Htr).
  apply in_map_iff in H as (t & <- & H). apply filter_In in H as [H _]. cbn [shown TraceSource]. rewrite Hv.
  apply held_all in H. destruct (O (t_core t)) as (a & A & S). { rewrite Hst, created_map. apply in_map, H. }
  destruct IT as [_ IT]. destruct (IT _ _ A) as [[N _] _]. rewrite N, S. exact IS.
Qed.

(** So does a search over several searchers if all that answer do. *)
Theorem C101_so_does_a_multi_search :
  forall sort orders outcomes arrivals (req req' : SearchRequest RE) resp,
    is_sort Less sort -> (forall n, is_order (orders n)) -> Permutation arrivals (number 0 outcomes) ->
    Forall names_its_sources (answers outcomes) ->
    MultiSearch Compile sort orders arrivals req = Ok (req', resp) -> names_its_sources resp.
Proof.
  intros sort orders outs arr req req' resp Hs Ho Hp F E.
  destruct (C29_multi_search_merges_everything Compile sort orders outs arr req req' resp Hs Ho Hp E) as (_ & _ & H & _ & S & _).
  intros tr Htr. destruct H as (_ & _ & rest & P & _).
  assert (H : In tr (flat_map resp_Traces (answers outs))) by (eapply Permutation_in; [exact P|apply in_or_app; left; exact Htr]).
  apply in_flat_map in H as (r & Hr & Hin). apply S. exists r. split; [exact Hr|]. rewrite Forall_forall in F. apply (F r Hr tr Hin).
Qed.

(** Finding: a collector that is renamed after it has made traces lists only its new name. *)
Theorem C101_renamed_refuted :
  forall category name b ds es (z : ez) view sort order (req : SearchRequest RE),
    name <> "default" -> z_run z_init [ENew 0 category b ds es; ESource name] = Ok z ->
    (forall t, TraceSource (view t) = Source (core_at (z_sys z) (t_core t))) ->
    is_order order -> is_sort Less sort -> unused (req_Filter req) -> decides Compile MatchString (req_Filter req) (fun _ => true) ->
    exists req' resp tr, Search Compile MatchString view sort order (c_source (z_coll (z_ezcoll z))) (c_categories (z_coll (z_ezcoll z))) req = Ok (req', resp) /\
      resp_Sources resp = [name] /\ resp_Traces resp = [tr] /\ TraceSource tr = "default".
Proof.
  intros category name b ds es z view sort order req N E Hv Ho Hs Hu Hd.
  destruct (run_ok Sprintf CallersFrames Compile MatchString str caps [ENew 0 category b ds es; ESource name] _ _ (Inv_init Sprintf CallersFrames)) as (z0 & E0 & I0).
  { repeat constructor. }
  rewrite E in E0. injection E0 as <-. destruct I0 as [IT IS _ _ _ _ (cops & Hval & Hrun & Hst & _ & _)].
  cbn in IS, Hst, IT. destruct cops as [|o [|? ?]]; try discriminate. cbn in Hst. injection Hst as Hst. destruct o as [c t|]; [|discriminate]. cbn in Hst. injection Hst as <- Ht.
  destruct (C22_search_sound Compile MatchString trace nil_trace view sort order (c_source (z_coll (z_ezcoll z))) _ _ _ req (fun _ => true) Hval Hrun Ho Hs Hu Hd)
    as (req' & resp & ES & _ & L & Src & rest & P).
  assert (A : all_held [CNew category t] = [t]).
  { unfold all_held, categories. cbn. unfold held. cbn. rewrite String.eqb_refl. reflexivity. }
  rewrite A in *. cbn in P, L.
  assert (P1 : zlen (resp_Traces resp) = 1%Z). { rewrite L. unfold zlen. cbn. unfold effective_limit. destruct (Z.leb_spec (req_Limit req) 0); lia. }
  destruct (resp_Traces resp) as [|tr [|? ?]] eqn:Etr; unfold zlen in P1; cbn [length] in P1; try lia.
  exists req', resp, tr. split; [exact ES|]. split; [rewrite Src, IS; reflexivity|]. split; [exact Etr|].
  assert (Q : In tr [shown (req_StackDepth req) (view t)]) by (eapply Permutation_in; [exact P|left; reflexivity]).
  destruct Q as [<-|[]]. cbn [shown TraceSource]. rewrite Hv, <- Ht. destruct IT as [_ IT]. destruct (IT 0%nat _ eq_refl) as [[S _] _]. exact S.
Qed.

(** A program that sets the name, makes a trace, logs and makes another. *)
Example C101_instance :
  forall b b' ds es ds' es' es2, exists z : ez,
    let ops := [ESource "api"; ENew 0 "a" b ds es; EEvent 1 KTracef "x" [] b' es2; ENew 0 "b" b' ds' es'] in
    Forall proper ops /\ named_first ops /\ z_run z_init ops = Ok z /\
    map (@Source _ _) (s_cores (z_sys z)) = ["api"; "api"].
Proof.
  intros b b' ds es ds' es' es2. set (ops := [_; _; _; _]). assert (P : Forall proper ops) by (repeat constructor).
  destruct (C81_the_books_are_right Sprintf CallersFrames Compile MatchString str caps ops P) as (z & E & L & _ & A & _).
  exists z. cbv zeta. split; [exact P|]. split; [exists [ESource "api"], (tl ops); split; [reflexivity|]; split; repeat constructor; intros []|].
  split; [exact E|]. destruct (A 0%nat _ eq_refl) as (A0 & _). destruct (A 1%nat _ eq_refl) as (A1 & _). cbn in A0, A1, L. unfold core_at in *.
  destruct (s_cores (z_sys z)) as [|x [|y [|? ?]]]; try discriminate. cbn in *. congruence.
Qed.
End Any.
Print Assumptions C101_a_collector_names_its_sources.
Print Assumptions C101_so_does_a_multi_search.
Print Assumptions C101_renamed_refuted.

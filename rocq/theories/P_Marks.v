(** C68: what highlighting does to an event whose text itself has the tags of a mark. *)
From Coq Require Import List ZArith NArith Bool Ascii String Lia.
Import ListNotations.
From Verif Require Import Go M_Strings M_Types M_Text M_Url M_Page S_Page L_Strings L_Text L_Url L_Page P_Page.
Open Scope string_scope.
Open Scope list_scope.

(** The letters of a text in lower case. *)
Fixpoint lower_case (s : string) : string :=
  match s with EmptyString => EmptyString | String c s => String (lower c) (lower_case s) end.
(** [taken_out what shown]: [what] has no less-than sign but those of the tags of marks, in
    letters of any case; [shown] is [what] with one blank in the place of each such tag. *)
Inductive taken_out : string -> string -> Prop :=
| TNothing : taken_out "" ""
| TByte c what shown : c <> "<"%char -> taken_out what shown -> taken_out (String c what) (String c shown)
| TTag tag what shown :
    lower_case tag = "<mark class=""highlight"">" \/ lower_case tag = "</mark>" ->
    taken_out what shown -> taken_out (tag ++ what) (String " " shown).

Lemma unmark_skip p s : unmark (String.length p) (p ++ s) = unmark 0 s.
Proof. induction p as [|c p IH]; [reflexivity|]. cbn. exact IH. Qed.
Lemma prefix_fold_tag p tag s : lower_case tag = p -> prefix_fold p (tag ++ s) = true.
Proof.
  revert p. induction tag as [|c tag IH]; cbn; intros p <-; [reflexivity|].
  cbn. rewrite Ascii.eqb_refl. cbn. apply IH. reflexivity.
Qed.
Lemma lower_case_length s : String.length (lower_case s) = String.length s.
Proof. induction s; cbn; congruence. Qed.
Lemma unmark_taken_out what shown : taken_out what shown -> unmark 0 what = shown.
Proof.
  induction 1 as [|c what shown N _ IH|tag what shown T _ IH]; [reflexivity| |].
  - cbn [unmark]. unfold mark_open, mark_close. cbn [append].
    rewrite !prefix_fold_first by (rewrite lower_lt; apply Ascii.eqb_neq; intro E; apply N; congruence).
    rewrite IH. reflexivity.
  - destruct T as [T|T]; pose proof (lower_case_length tag) as L; rewrite T in L.
    + destruct tag as [|c tag]; [discriminate L|].
      pose proof (prefix_fold_tag _ _ what T) as P. cbn [append] in P |- *. cbn [unmark].
      change "<mark class=""highlight"">" with mark_open in P. rewrite P. f_equal.
      replace (String.length mark_open - 1)%nat with (String.length tag) by (cbn in L |- *; lia).
      etransitivity; [exact (unmark_skip tag what)|exact IH].
    + destruct tag as [|c [|d tag]]; try discriminate L.
      pose proof (prefix_fold_tag _ _ what T) as P. cbn [append] in P |- *. cbn [unmark].
      assert (Q : prefix_fold mark_open (String c (String d (tag ++ what))) = false).
      { cbn [lower_case] in T. injection T as E1 E2 E3. cbn. rewrite E1, E2. reflexivity. }
      rewrite Q. change "</mark>" with mark_close in P. rewrite P. f_equal.
      replace (String.length mark_close - 1)%nat with (String.length (String d tag)) by (cbn in L |- *; lia).
      etransitivity; [exact (unmark_skip (String d tag) what)|exact IH].
Qed.

(** Finding: the tags that the event itself has are not kept as text when the query matches:
    one blank is shown for each. *)
Theorem C68_marks_in_the_text_refuted :
  forall find what shown, taken_out what shown -> ~ In "000"%char (list_ascii_of_string what) ->
  find (event_html what) <> None ->
  forall l, read_html InText (event_html what) = Some l ->
  highlight find (event_html what) (text_content l) =
    match find shown with
    | Some (before, m, after) => (before ++ "<mark class=""highlight"">" ++ m ++ "</mark>" ++ after)%string
    | None => shown
    end.
Proof.
  intros find what shown T H3 F1 l R.
  assert (C : contains_byte "000" what = false).
  { clear - H3. induction what as [|c s IH]; [reflexivity|]. cbn in *. destruct (Ascii.eqb_spec c "000"); [tauto|]. apply IH. tauto. }
  destruct (event_html_read what) as (l0 & R0 & E & _). rewrite R in R0. injection R0 as <-. rewrite showable_no_nul in E by exact C.
  unfold highlight. destruct (find (event_html what)); [|congruence]. rewrite E, (unmark_taken_out _ _ T). reflexivity.
Qed.
Print Assumptions C68_marks_in_the_text_refuted.

Example C68_marks_instance :
  let what := "GET <MARK class=""highlight"">y</mark>" in
  taken_out what "GET  y " /\ ~ In "000"%char (list_ascii_of_string what) /\
  exists find, find (event_html what) <> None /\ find "GET  y " = Some ("", "GET", "  y ").
Proof.
  cbn zeta. split; [|split].
  - do 4 (apply TByte; [discriminate|]). change "<MARK class=""highlight"">y</mark>" with ("<MARK class=""highlight"">" ++ ("y" ++ ("</mark>" ++ "")))%string.
    apply TTag; [left; reflexivity|]. apply TByte; [discriminate|]. apply TTag; [right; reflexivity|]. apply TNothing.
  - cbn. intuition discriminate.
  - exists (fun s => Some ("", "GET", "  y ")). split; [discriminate|reflexivity].
Qed.

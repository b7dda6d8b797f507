(** Lemmas about the style sheet and the classes of the summary table. *)
From Verif Require Import Go M_Strings M_Types M_Stats M_Filter M_Search M_Text M_Humanize L_Strings L_Text L_Url P_Url M_Highlight S_Highlight.
From Coq Require Import Decimal DecimalString.
Open Scope string_scope.
Open Scope list_scope.
Open Scope Z_scope.

(** ** Bytes *)
Lemma all_app p a b : all_bytes_are p (a ++ b) = all_bytes_are p a && all_bytes_are p b.
Proof. induction a as [|c a IH]; cbn; [reflexivity|]. rewrite IH. apply andb_assoc. Qed.
Lemma all_impl p q s : (forall c, p c = true -> q c = true) -> all_bytes_are p s = true -> all_bytes_are q s = true.
Proof. intros H. induction s as [|c s IH]; cbn; [auto|]. intros E. apply andb_true_iff in E as [E1 E2]. rewrite (H c E1). apply IH, E2. Qed.

(** letters and digits of names other than x and z *)
Definition plain (c : ascii) : bool :=
  name_byte c && negb (existsb (Ascii.eqb c) ["-"; "."; "x"; "z"; "X"; "Z"]%char).
Lemma plain_cases c : plain c = true ->
  existsb (Ascii.eqb c) css_refused = false /\ Ascii.eqb c "-" = false /\ Ascii.eqb c "." = false /\ name_byte c = true.
Proof. all_bytes c; vm_compute; intros H; try discriminate H; auto. Qed.
Lemma plain_digit c : is_digit c = true -> plain c = true.
Proof. all_bytes c; vm_compute; intros H; try discriminate H; reflexivity. Qed.
Lemma plain_hex c : lower_hex c = true -> plain c = true.
Proof. all_bytes c; vm_compute; intros H; try discriminate H; reflexivity. Qed.
Lemma plain_id_head c s : plain c = true ->
  css_id (String c s) = css_id s \/ exists d, css_id (String c s) = String d (css_id s) /\ d <> "x"%char /\ d <> "z"%char.
Proof.
  intros H. cbn [css_id]. generalize (css_id s). intros t.
  destruct (byte_in 65 90 c) eqn:E1; [|destruct (_ || _) eqn:E2].
  - right. eexists. split; [reflexivity|]. revert H E1. all_bytes c; vm_compute; intros H E1; try discriminate H; try discriminate E1; split; discriminate.
  - right. exists c. split; [reflexivity|]. split; intros ->; discriminate H.
  - left. reflexivity.
Qed.

Fixpoint has_byte (x : ascii) (s : string) : Prop := match s with EmptyString => False | String c s => c = x \/ has_byte x s end.
Lemma prefix_has x p s : has_byte x p -> String.prefix p s = true -> has_byte x s.
Proof.
  revert s; induction p as [|c p IH]; intros s H E; [destruct H|]. destruct s as [|d s]; cbn in E; [discriminate|].
  destruct (ascii_dec c d) as [->|]; [|discriminate]. destruct H as [->|H]; [left; reflexivity|right; apply IH; auto].
Qed.
Lemma Contains_has x p s : has_byte x p -> Contains s p = true -> has_byte x s.
Proof.
  intros H. induction s as [|c s IH]; intros E; cbn [Contains] in E; apply orb_true_iff in E as [E|E].
  - apply (prefix_has x p _ H E). - discriminate.
  - apply (prefix_has x p _ H E). - right. apply IH, E.
Qed.
Lemma css_id_app a b : css_id (a ++ b) = (css_id a ++ css_id b)%string.
Proof. induction a as [|c a IH]; cbn; [reflexivity|]. rewrite IH. destruct (byte_in 65 90 c); [reflexivity|]. destruct (_ || _); reflexivity. Qed.
Lemma has_app x a b : has_byte x (a ++ b) -> has_byte x a \/ has_byte x b.
Proof. induction a as [|c a IH]; cbn; [auto|]. intros [H|H]; [auto|]. apply IH in H as [H|H]; auto. Qed.
Lemma plain_id s : all_bytes_are plain s = true -> ~ has_byte "x" (css_id s) /\ ~ has_byte "z" (css_id s).
Proof.
  induction s as [|c s IH]; intros H; [split; intros []|]. cbn [all_bytes_are] in H. apply andb_true_iff in H as [H1 H2]. specialize (IH H2). destruct IH as [I1 I2].
  destruct (plain_id_head c s H1) as [E|(d & E & D1 & D2)]; rewrite E; [split; assumption|]. split; intros [->|H]; auto.
Qed.
Lemma plain_safe b s : all_bytes_are plain s = true -> css_unsafe b s = false.
Proof.
  revert b; induction s as [|c s IH]; intros b H; [reflexivity|]. cbn [all_bytes_are css_unsafe] in *. apply andb_true_iff in H as [H1 H2].
  destruct (plain_cases c H1) as (A & B & _). rewrite A, B. cbn [orb andb]. apply IH, H2.
Qed.
Lemma plain_safe_app a b : all_bytes_are plain a = true -> all_bytes_are plain b = true -> css_unsafe false (a ++ String "-" b) = false.
Proof.
  intros HA HB. cut (css_unsafe (match a with EmptyString => false | _ => false end) (a ++ String "-" b) = false); [destruct a; auto|].
  assert (G : forall x, x = false -> css_unsafe x (a ++ String "-" b) = false).
  { revert HA. induction a as [|c a IH]; intros HA x ->.
    - cbn [append css_unsafe]. rewrite plain_safe by exact HB. vm_compute. reflexivity.
    - cbn [append css_unsafe all_bytes_are] in *. apply andb_true_iff in HA as [H1 H2]. destruct (plain_cases c H1) as (A & B & _). rewrite A, B. cbn [orb andb]. apply IH; auto. }
  apply G. destruct a; reflexivity.
Qed.

(** A class that is a name, without a dot, and left alone by the filter *)
Definition good_class (c : string) : Prop := cssValueFilter c = c /\ css_name c = true /\ pieces c = [c].
Lemma pieces_none s : all_bytes_are (fun c => negb (Ascii.eqb c ".")) s = true -> pieces s = [s].
Proof.
  induction s as [|c s IH]; intros H; [reflexivity|]. cbn [all_bytes_are pieces] in *. apply andb_true_iff in H as [H1 H2]. apply negb_true_iff in H1. rewrite H1, (IH H2). reflexivity.
Qed.
Lemma two_part_class a b : all_bytes_are plain a = true -> starts_with letter a = true -> all_bytes_are plain b = true -> good_class (a ++ String "-" b).
Proof.
  intros HA HS HB. split; [|split].
  - unfold cssValueFilter. rewrite (plain_safe_app a b HA HB). cbn [orb].
    destruct (plain_id a HA) as [A1 A2]. destruct (plain_id b HB) as [B1 B2].
    assert (N : ~ has_byte "x" (css_id (a ++ String "-" b)) /\ ~ has_byte "z" (css_id (a ++ String "-" b))).
    { rewrite css_id_app. change (css_id (String "-" b)) with (css_id b). split; intros H; apply has_app in H as [H|H]; auto. }
    destruct (Contains _ "expression") eqn:E1; [exfalso; apply (proj1 N); apply (Contains_has "x" "expression"); [cbn; auto|exact E1]|].
    destruct (Contains _ "mozbinding") eqn:E2; [exfalso; apply (proj2 N); apply (Contains_has "z" "mozbinding"); [cbn; auto|exact E2]|]. reflexivity.
  - unfold css_name. rewrite all_app. cbn [all_bytes_are].
    rewrite (all_impl plain name_byte a), (all_impl plain name_byte b); try assumption; try (intros c H; apply (plain_cases c H)).
    destruct a as [|c a]; [discriminate HS|]. cbn [append starts_with] in *. rewrite HS. reflexivity.
  - apply pieces_none. rewrite all_app. cbn [all_bytes_are].
    rewrite (all_impl plain _ a), (all_impl plain _ b); try assumption; try (intros c H; destruct (plain_cases c H) as (_ & _ & -> & _); reflexivity). reflexivity.
Qed.

(** ** Texts of durations *)
Lemma uint_plain u : all_bytes_are is_digit (NilEmpty.string_of_uint u) = true.
Proof. induction u; cbn; auto. Qed.
Lemma itoa_plain n : 0 <= n -> all_bytes_are plain (itoa n) = true.
Proof. intros H. destruct (itoa_nonneg n H) as (-> & _). apply (all_impl is_digit); [apply plain_digit|apply uint_plain]. Qed.
Lemma frac_head k x buf : (0 < k)%nat -> 0 <= x -> exists c r, frac_digits k x buf = String c r /\ is_digit c = true.
Proof.
  intros K. revert x buf. destruct k as [|k]; [lia|]. clear K. induction k as [|k IH]; intros x buf Hx.
  - cbn [frac_digits]. eexists _, _. split; [reflexivity|]. apply digit_char_digit. pose proof (Z.mod_pos_bound x 10). lia.
  - change (frac_digits (S (S k)) x buf) with (frac_digits (S k) (x / 10) (String (digit_char (x mod 10)) buf)). apply IH. apply Z.div_pos; lia.
Qed.
(** The text has a dot before a digit, or only plain bytes. *)
Definition dotted (s : string) : Prop := exists a c b, s = (a ++ String "." (String c b))%string /\ is_digit c = true.
Lemma dotted_app a s : dotted s -> dotted (a ++ s).
Proof. intros (x & c & b & -> & D). exists (a ++ x)%string, c, b. split; [apply str_app_assoc|exact D]. Qed.
Lemma frac_text prec v unit : 0 <= v -> all_bytes_are plain unit = true ->
  (v mod 10 ^ Z.of_nat prec = 0 -> all_bytes_are plain (fst (fmtFrac prec v false unit)) = true) /\
  (v mod 10 ^ Z.of_nat prec <> 0 -> dotted (fst (fmtFrac prec v false unit))) /\
  snd (fmtFrac prec v false unit) = v / 10 ^ Z.of_nat prec.
Proof.
  intros Hv HU. destruct (fmtFrac_spec prec v unit Hv) as (Q & [(E & F)|(k & x & j & K & X & K0 & M & F)]); rewrite F.
  - split; [auto|]. split; [congruence|exact Q].
  - split; [|split; [|exact Q]].
    + intros E. rewrite M in E. assert (0 < 10 ^ Z.of_nat j) by (apply Z.pow_pos_nonneg; lia). nia.
    + intros _. destruct (frac_head k x unit K0 ltac:(lia)) as (c & r & -> & D). exists "", c, r. split; [reflexivity|exact D].
Qed.

Lemma duration_text d : 0 <= d -> (whole d -> all_bytes_are plain (DurationString d) = true) /\ (~ whole d -> dotted (DurationString d)).
Proof.
  intros Hd. rewrite DurationString_eq. destruct (Z.ltb_spec d 0); [lia|]. rewrite Z.abs_eq by exact Hd. unfold magnitude, whole.
  assert (DIV : forall k, 0 < k -> 0 <= d / k) by (intros; apply Z.div_pos; lia).
  destruct (Z.ltb_spec d Second) as [L|L].
  - destruct (Z.eqb_spec d 0) as [->|N]; [split; [reflexivity|]; intros F; exfalso; apply F; unfold Microsecond; lia|].
    assert (WS : d mod Second <> 0) by (rewrite Z.mod_small; lia).
    destruct (Z.ltb_spec d Microsecond) as [L1|L1]; [|destruct (Z.ltb_spec d Millisecond) as [L2|L2]].
    + cbn [fmtFrac]. split; [|intros F; exfalso; apply F; split; [exact Hd|auto]]. intros _. rewrite all_app, itoa_plain by exact Hd. reflexivity.
    + destruct (frac_text 3 d (micro ++ "s") Hd eq_refl) as (F1 & F2 & F3). destruct (fmtFrac 3 d false (micro ++ "s")) as [buf v]. cbn [fst snd] in *. subst v.
      change (10 ^ Z.of_nat 3) with Microsecond in *. split.
      * intros (_ & [W|[[_ W]|[[_ W]|W]]]); [lia| | |congruence].
        -- rewrite all_app, itoa_plain, F1 by first [exact W|apply DIV; reflexivity]. reflexivity.
        -- exfalso. rewrite Z.mod_small in W; lia.
      * intros W. apply dotted_app, F2. intros E. apply W. split; [exact Hd|]. right. left. auto.
    + destruct (frac_text 6 d "ms" Hd eq_refl) as (F1 & F2 & F3). destruct (fmtFrac 6 d false "ms") as [buf v]. cbn [fst snd] in *. subst v.
      change (10 ^ Z.of_nat 6) with Millisecond in *. split.
      * intros (_ & [W|[[W _]|[[_ W]|W]]]); [lia|lia| |congruence].
        rewrite all_app, itoa_plain, F1 by first [exact W|apply DIV; reflexivity]. reflexivity.
      * intros W. apply dotted_app, F2. intros E. apply W. split; [exact Hd|]. right. right. left. auto.
  - destruct (frac_text 9 d "s" Hd eq_refl) as (F1 & F2 & F3). destruct (fmtFrac 9 d false "s") as [buf v]. cbn [fst snd] in *. subst v.
    change (10 ^ Z.of_nat 9) with Second in *. pose proof (DIV Second ltac:(reflexivity)) as D0. set (u := d / Second) in *. clearbody u.
    assert (M1 : 0 <= u mod 60) by (apply Z.mod_pos_bound; lia). assert (U2 : 0 <= u / 60) by (apply Z.div_pos; lia).
    assert (M2 : 0 <= (u / 60) mod 60) by (apply Z.mod_pos_bound; lia). assert (U3 : 0 <= u / 60 / 60) by (apply Z.div_pos; lia).
    assert (WH : whole d <-> d mod Second = 0).
    { unfold whole. assert (Microsecond < Second) by reflexivity. assert (Millisecond < Second) by reflexivity. split; [intros (_ & [W|[[W _]|[[W _]|W]]]); [lia|lia|lia|exact W]|]. auto. }
    split.
    + intros W. apply WH in W. specialize (F1 W).
      destruct (0 <? u / 60); [destruct (0 <? u / 60 / 60)|]; rewrite ?all_app, ?F1, ?itoa_plain by assumption; reflexivity.
    + intros W. assert (D : d mod Second <> 0) by (intros E; apply W, WH, E). specialize (F2 D).
      destruct (0 <? u / 60); [destruct (0 <? u / 60 / 60)|]; repeat apply dotted_app; exact F2.
Qed.

(** ** Selectors *)
Lemma pieces_cons s : exists p ps, pieces s = p :: ps.
Proof. destruct s as [|c s]; cbn; [eauto|]. destruct (Ascii.eqb c "."); [eauto|]. destruct (pieces s); eauto. Qed.
Lemma pieces_dot a b : pieces (a ++ String "." b) = pieces a ++ pieces b.
Proof.
  induction a as [|c a IH]; cbn [append pieces]; [reflexivity|]. rewrite IH. destruct (Ascii.eqb c "."); [reflexivity|].
  destruct (pieces_cons a) as (p & ps & ->). reflexivity.
Qed.
Lemma pieces_classes e cs : pieces (e ++ class_selectors cs) = pieces e ++ concat (map (fun c => pieces (cssValueFilter c)) cs).
Proof.
  revert e; induction cs as [|c cs IH]; intros e; cbn [class_selectors map concat].
  - rewrite app_nil_r. f_equal. induction e as [|x e E]; [reflexivity|]. cbn. f_equal. exact E.
  - change ("." ++ (cssValueFilter c ++ class_selectors cs))%string with (String "." (cssValueFilter c ++ class_selectors cs)).
    rewrite pieces_dot, IH. reflexivity.
Qed.
Lemma read_good e cs : css_name e = true -> pieces e = [e] -> Forall good_class cs -> read_selector (selector e cs) = Some (e, cs).
Proof.
  intros E1 E2 G. unfold read_selector, selector. rewrite pieces_classes, E2.
  assert (C : concat (map (fun c => pieces (cssValueFilter c)) cs) = cs).
  { clear -G. induction G as [|c cs (A & B & C) _ IH]; [reflexivity|]. cbn [map concat]. rewrite A, C, IH. reflexivity. }
  rewrite C. change ([e] ++ cs) with (e :: cs). cbn [forallb]. rewrite E1.
  assert (N : forallb css_name cs = true) by (apply forallb_forall; intros c Hc; rewrite Forall_forall in G; apply (G c Hc)). rewrite N. reflexivity.
Qed.
Lemma digit_not_letter c : is_digit c = true -> letter c = false /\ Ascii.eqb c "-" = false.
Proof. all_bytes c; vm_compute; auto; discriminate. Qed.
Lemma digit_not_name c r : is_digit c = true -> css_name (String c r) = false.
Proof.
  intros H. destruct (digit_not_letter c H) as [H1 H2]. unfold css_name. cbn [starts_with]. rewrite H1. cbn [orb].
  assert (N : forall X : bool, match String c r with String "-"%char r => starts_with (fun c => letter c || Ascii.eqb c "-") r | _ => false end && X = false).
  { intros X. clear H1. revert H H2. generalize (starts_with (fun c0 : ascii => letter c0 || Ascii.eqb c0 "-") r). intros b. all_bytes c; intros H H2; try reflexivity; discriminate H2. }
  apply N.
Qed.
Lemma dotted_unreadable e a b c : dotted c -> cssValueFilter c = c -> read_selector (selector e (a ++ c :: b)) = None.
Proof.
  intros (x & d & r & E & D) F. unfold read_selector, selector. rewrite pieces_classes.
  replace (forallb css_name _) with false; [reflexivity|]. symmetry. apply not_true_iff_false. intros H. rewrite forallb_forall in H.
  assert (P : exists p, In (String d p) (pieces c)).
  { rewrite E, pieces_dot. cbn [pieces]. replace (Ascii.eqb d ".") with false by (revert D; all_bytes d; vm_compute; auto; discriminate).
    destruct (pieces_cons r) as (p & ps & ->). exists p. apply in_or_app. right. left. reflexivity. }
  destruct P as (p & P).
  assert (I : In (String d p) (pieces e ++ concat (map (fun c => pieces (cssValueFilter c)) (a ++ c :: b)))).
  { apply in_or_app. right. apply in_concat. exists (pieces c). split; [|exact P]. apply in_map_iff. exists c. rewrite F. split; [reflexivity|]. apply in_or_app. right. left. reflexivity. }
  apply H in I. rewrite (digit_not_name d p D) in I. discriminate.
Qed.
Lemma read_classes e cs el l c : read_selector (selector e cs) = Some (el, l) -> css_name e = true -> pieces e = [e] -> In c cs -> pieces (cssValueFilter c) = [cssValueFilter c] ->
  In (cssValueFilter c) l.
Proof.
  unfold read_selector, selector. intros R E1 E2 I P. rewrite pieces_classes, E2 in R. destruct (forallb _ _); [|discriminate]. injection R as <- <-.
  apply in_concat. exists [cssValueFilter c]. split; [|left; reflexivity]. apply in_map_iff. exists c. auto.
Qed.

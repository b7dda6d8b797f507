(** C45: what it means that a format takes a number of arguments. *)
From Verif Require Import Go L_List M_Strings M_Text M_Fmt S_Fmt L_Strings L_Text.
From Coq Require Import Lia.
Open Scope string_scope.
Open Scope list_scope.

Lemma flag_spec c : is_flag c = true <-> In c (list_of_string flag_chars).
Proof. unfold is_flag, flag_chars. cbn [list_of_string In]. rewrite !orb_true_iff, !Ascii.eqb_eq. intuition congruence. Qed.
Lemma digit_spec c : is_digit c = true <-> In c (list_of_string digit_chars).
Proof. destruct c as [[] [] [] [] [] [] [] []]; vm_compute; intuition (congruence || discriminate). Qed.
Lemma special_spec c : is_special c = false <-> c <> "["%char /\ c <> "*"%char /\ (N_of_ascii c < 128)%N.
Proof.
  unfold is_special. rewrite !orb_false_iff, N.leb_gt, !Ascii.eqb_neq. tauto.
Qed.
Lemma made_of_cons chars c s : made_of chars (String c s) <-> In c (list_of_string chars) /\ made_of chars s.
Proof.
  unfold made_of. cbn [list_of_string In]. split.
  - intros H. split; [apply H; auto|]. intros x Hx. apply H. auto.
  - intros [H1 H2] x [<-|Hx]; auto.
Qed.
Lemma made_of_nil chars : made_of chars "".
Proof. intros c []. Qed.
Lemma digit_not_flag c : is_digit c = true -> c <> "0"%char -> is_flag c = false.
Proof. destruct c as [[] [] [] [] [] [] [] []]; vm_compute; intros; congruence. Qed.
Lemma snoc_app d c s : (snoc d c ++ s)%string = (d ++ String c s)%string.
Proof. unfold snoc. induction d as [|x d IH]; [reflexivity|]. cbn [append]. rewrite IH. reflexivity. Qed.

(** A verb ends the directive. *)
Definition final (ph : phase) (c : ascii) : Prop := classify ph c = Percent /\ c = "%"%char \/ classify ph c = Verb /\ c <> "%"%char.
Lemma classify_final ph c : ph <> PLit ->
  (ph = PFlags -> is_flag c = false) -> is_digit c = false -> (ph <> PPrec -> c <> "."%char) -> is_special c = false -> final ph c.
Proof.
  intros Hl Hf Hd Hp Hs. unfold final.
  destruct (Ascii.eqb_spec c "%") as [->|Hc].
  - destruct ph; [congruence| | |]; left; split; reflexivity.
  - right. split; [|exact Hc]. apply Ascii.eqb_neq in Hc. unfold classify. rewrite Hd, Hs, Hc.
    destruct ph; [congruence| | |]; cbn [andb].
    + rewrite (Hf eq_refl). destruct (Ascii.eqb_spec c ".") as [->|]; [exfalso; apply Hp; congruence|reflexivity].
    + destruct (Ascii.eqb_spec c ".") as [->|]; [exfalso; apply Hp; congruence|reflexivity].
    + reflexivity.
Qed.
Lemma final_classify ph c : ph <> PLit -> classify ph c = Percent \/ classify ph c = Verb ->
  (ph = PFlags -> is_flag c = false) /\ is_digit c = false /\ (ph <> PPrec -> c <> "."%char) /\ is_special c = false.
Proof.
  intros Hl H. destruct ph; [congruence| | |]; unfold classify in H; cbn [andb] in H.
  - destruct (is_flag c); [destruct H; discriminate|]. destruct (is_digit c); [destruct H; discriminate|]. destruct (Ascii.eqb_spec c "."); [destruct H; discriminate|].
    destruct (is_special c); [destruct H; discriminate|]. auto.
  - destruct (is_digit c); [destruct H; discriminate|]. destruct (Ascii.eqb_spec c "."); [destruct H; discriminate|].
    destruct (is_special c); [destruct H; discriminate|]. split; [discriminate|]. auto.
  - destruct (is_digit c); [destruct H; discriminate|]. destruct (is_special c); [destruct H; discriminate|]. split; [discriminate|]. split; [reflexivity|]. split; [congruence|reflexivity].
Qed.
Lemma final_percent ph c : ph <> PLit -> final ph c -> (classify ph c = Percent <-> c = "%"%char) /\ (classify ph c = Verb <-> c <> "%"%char).
Proof. intros _ [[E H]|[E H]]; rewrite E; (split; split; intros X); try reflexivity; try discriminate; try congruence. Qed.

Section Run.
Context {arg world : Type}.
Variable printArg : world -> string -> ascii -> arg -> string.
Variable printExtra : world -> arg -> string.
Variable special : world -> string -> string -> list arg -> string.
Notation doPrintf := (doPrintf printArg printExtra special).
Notation Sprintf := (Sprintf printArg printExtra special).

(** What comes after the verb, and what the whole rest of a directive does. *)
Definition after_verb (w : world) (d : string) (c : ascii) (f : string) (a : list arg) : string :=
  if Ascii.eqb c "%" then String "%" (doPrintf w f PLit "" a)
  else match a with
       | [] => ("%!" ++ String c "(MISSING)" ++ doPrintf w f PLit "" [])%string
       | x :: a => (printArg w d c x ++ doPrintf w f PLit "" a)%string
       end.
Definition count_verb (c : ascii) (f : string) : option nat :=
  if Ascii.eqb c "%" then takes_from f PLit else option_map S (takes_from f PLit).
Lemma run_verb ph w c f d a : ph <> PLit -> final ph c ->
  doPrintf w (String c f) ph d a = after_verb w d c f a /\ takes_from (String c f) ph = count_verb c f.
Proof.
  intros Hl [[E ->]|[E H]]; unfold after_verb, count_verb.
  - destruct ph; [congruence| | |]; split; reflexivity.
  - apply Ascii.eqb_neq in H. rewrite H. destruct ph; [congruence| | |]; cbn [M_Fmt.doPrintf takes_from]; rewrite E; split; destruct a; reflexivity.
Qed.
Lemma run_prec w p : forall d c f a, made_of digit_chars p -> final PPrec c ->
  doPrintf w (p ++ String c f) PPrec d a = after_verb w (d ++ p) c f a /\ takes_from (p ++ String c f) PPrec = count_verb c f.
Proof.
  induction p as [|x p IH]; intros d c f a Hp Hc.
  - cbn [append]. rewrite str_app_nil_r. apply run_verb; [discriminate|exact Hc].
  - apply made_of_cons in Hp as [Hx Hp]. apply digit_spec in Hx. cbn [append M_Fmt.doPrintf takes_from]. unfold classify. rewrite Hx. cbn [andb].
    destruct (IH (snoc d x) c f a Hp Hc) as [-> ->]. rewrite snoc_app. auto.
Qed.
Lemma run_dot w ph p d c f a : ph = PFlags \/ ph = PWidth -> made_of digit_chars p -> final PPrec c ->
  doPrintf w (String "." p ++ String c f) ph d a = after_verb w (d ++ String "." p) c f a /\ takes_from (String "." p ++ String c f) ph = count_verb c f.
Proof.
  intros Hph Hp Hc. destruct (run_prec w p (snoc d ".") c f a Hp Hc) as [E1 E2]. rewrite snoc_app in E1.
  destruct Hph as [-> | ->]; cbn [append M_Fmt.doPrintf takes_from]; change (classify PFlags ".") with (More PPrec); change (classify PWidth ".") with (More PPrec); auto.
Qed.
Definition point (precision : option string) : string := match precision with Some p => String "." p | None => "" end.
Lemma run_point w ph precision d c f a : ph = PFlags \/ ph = PWidth ->
  match precision with Some p => made_of digit_chars p /\ final PPrec c | None => final ph c end ->
  doPrintf w (point precision ++ String c f) ph d a = after_verb w (d ++ point precision) c f a /\ takes_from (point precision ++ String c f) ph = count_verb c f.
Proof.
  intros Hph H. destruct precision as [p|]; cbn [point].
  - destruct H. apply run_dot; assumption.
  - cbn [append]. rewrite str_app_nil_r. apply run_verb; [destruct Hph; subst; discriminate|exact H].
Qed.
Lemma run_width w width : forall d precision c f a, made_of digit_chars width ->
  match precision with Some p => made_of digit_chars p /\ final PPrec c | None => final PWidth c end ->
  doPrintf w (width ++ point precision ++ String c f) PWidth d a = after_verb w (d ++ width ++ point precision) c f a /\
  takes_from (width ++ point precision ++ String c f) PWidth = count_verb c f.
Proof.
  induction width as [|x width IH]; intros d precision c f a Hw H.
  - cbn [append]. apply run_point; auto.
  - apply made_of_cons in Hw as [Hx Hw]. apply digit_spec in Hx. cbn [append M_Fmt.doPrintf takes_from]. unfold classify. rewrite Hx. cbn [andb].
    destruct (IH (snoc d x) precision c f a Hw H) as [-> ->]. rewrite snoc_app. auto.
Qed.
Lemma run_directive w flags width precision verb f : proper (Directive flags width precision verb) -> forall d a,
  doPrintf w (settings flags width precision ++ String verb f) PFlags d a = after_verb w (d ++ settings flags width precision) verb f a /\
  takes_from (settings flags width precision ++ String verb f) PFlags = count_verb verb f.
Proof.
  intros (Hf & Hw & Hz & Hp & Hv & Hd & Hs). unfold settings. fold (point precision).
  assert (Ed : is_digit verb = false) by (destruct (is_digit verb) eqn:E; [exfalso; apply Hd, digit_spec, E|reflexivity]).
  apply special_spec in Hs.
  induction flags as [|x flags IH]; intros d a.
  - cbn [append]. destruct width as [|x width].
    + cbn [append]. apply run_point; [auto|]. destruct precision as [p|].
      * split; [exact Hp|]. apply classify_final; try assumption; try discriminate. congruence.
      * apply classify_final; try assumption; try discriminate; [|intros _; exact Hp]. intros _. destruct (is_flag verb) eqn:E; [|reflexivity]. exfalso. apply Hv; auto. apply flag_spec, E.
    + apply made_of_cons in Hw as [Hx Hw]. apply digit_spec in Hx.
      assert (Fx : is_flag x = false) by (apply digit_not_flag; [exact Hx|]; intros ->; apply (Hz width); reflexivity).
      assert (Ec : classify PFlags x = More PWidth) by (unfold classify; rewrite Fx, Hx; reflexivity).
      cbn [append M_Fmt.doPrintf takes_from]. rewrite Ec, <- (str_app_assoc width).
      destruct (run_width w width (snoc d x) precision verb f a Hw) as [-> ->]; [|rewrite snoc_app; auto].
      destruct precision as [p|]; [split; [exact Hp|]|]; apply classify_final; try assumption; try discriminate; [congruence|]. intros _. exact Hp.
  - apply made_of_cons in Hf as [Hx Hf]. apply flag_spec in Hx.
    assert (Ec : classify PFlags x = More PFlags) by (unfold classify; rewrite Hx; reflexivity).
    cbn [append M_Fmt.doPrintf takes_from]. rewrite Ec. destruct (IH Hf (snoc d x) a) as [-> ->]. rewrite snoc_app. auto.
Qed.

End Run.

Definition takes_one (p : piece) : bool := match p with Directive _ _ _ verb => negb (Ascii.eqb verb "%") | _ => false end.
Lemma takes_format l : Forall proper l -> takes (format_of l) = Some (length (filter takes_one l)).
Proof.
  induction 1 as [|p l Hp _ IH]; [reflexivity|]. unfold takes in *. destruct p as [c|flags width precision verb].
  - cbn in Hp. apply Ascii.eqb_neq in Hp. cbn [format_of takes_from filter takes_one]. rewrite Hp. exact IH.
  - cbn [format_of takes_from]. change (Ascii.eqb "%" "%") with true. cbv iota.
    destruct (run_directive (fun (_ : unit) _ _ (_ : unit) => "") (fun _ _ => "") (fun _ _ _ _ => "") tt flags width precision verb (format_of l) Hp "" []) as [_ ->].
    unfold count_verb. rewrite IH. cbn [filter takes_one]. destruct (Ascii.eqb verb "%"); reflexivity.
Qed.

(** Every format that takes a number of arguments is made of such pieces. *)
Lemma made_of_one chars c s : In c (list_of_string chars) -> made_of chars s -> made_of chars (String c s).
Proof. intros. apply made_of_cons. auto. Qed.
Lemma pieces_from f : forall n,
  (takes_from f PLit = Some n -> exists l, Forall proper l /\ f = format_of l) /\
  (takes_from f PFlags = Some n -> exists flags width precision verb l, proper (Directive flags width precision verb) /\ Forall proper l /\
     f = (settings flags width precision ++ String verb (format_of l))%string) /\
  (takes_from f PWidth = Some n -> exists width precision verb l,
     made_of digit_chars width /\ match precision with Some p => made_of digit_chars p | None => verb <> "."%char end /\ is_digit verb = false /\ is_special verb = false /\ Forall proper l /\
     f = (width ++ point precision ++ String verb (format_of l))%string) /\
  (takes_from f PPrec = Some n -> exists p verb l,
     made_of digit_chars p /\ is_digit verb = false /\ is_special verb = false /\ Forall proper l /\ f = (p ++ String verb (format_of l))%string).
Proof.
  induction f as [|c f IH]; intros n.
  { repeat (split; [try discriminate|]); try discriminate. intros _. exists []. split; [constructor|reflexivity]. }
  assert (V : forall ph, ph <> PLit -> classify ph c = Percent \/ classify ph c = Verb -> takes_from (String c f) ph = Some n ->
            exists l, Forall proper l /\ f = format_of l).
  { intros ph Hl Hc E. assert (X : exists m, takes_from f PLit = Some m).
    { destruct ph; [congruence| | |]; cbn [takes_from] in E; destruct Hc as [Hc|Hc]; rewrite Hc in E; try (exists n; exact E);
        (destruct (takes_from f PLit) as [m|]; [exists m; reflexivity|discriminate]). }
    destruct X as [m Em]. exact (proj1 (IH m) Em). }
  split; [|split; [|split]].
  - cbn [takes_from]. destruct (Ascii.eqb_spec c "%") as [->|Hc]; intros E.
    + destruct (proj1 (proj2 (IH n)) E) as (flags & width & precision & verb & l & H1 & H2 & ->). exists (Directive flags width precision verb :: l). split; [constructor; assumption|reflexivity].
    + destruct (proj1 (IH n) E) as (l & H & ->). exists (Text c :: l). split; [constructor; assumption|reflexivity].
  - intros E. destruct (classify PFlags c) as [ph'| | |] eqn:Ec.
    2: (cbn [takes_from] in E; rewrite Ec in E; discriminate).
    2, 3: (assert (Hc : classify PFlags c = Percent \/ classify PFlags c = Verb) by (rewrite Ec; auto);
           destruct (V PFlags ltac:(discriminate) Hc E) as (l & Hl & ->); destruct (final_classify PFlags c ltac:(discriminate) Hc) as (F1 & F2 & F3 & F4);
           exists "", "", None, c, l; split; [|split; [exact Hl|reflexivity]];
           split; [apply made_of_nil|]; split; [apply made_of_nil|]; split; [discriminate|]; split; [apply F3; discriminate|];
           split; [intros _ _ H; apply flag_spec in H; rewrite (F1 eq_refl) in H; discriminate|];
           split; [intros H; apply digit_spec in H; congruence|]; apply special_spec, F4).
    cbn [takes_from] in E. rewrite Ec in E. unfold classify in Ec. cbn [andb] in Ec.
    destruct (is_flag c) eqn:Ef; [|destruct (is_digit c) eqn:Ed; [|destruct (Ascii.eqb_spec c ".") as [->|]; [|destruct (is_special c); [discriminate|destruct (Ascii.eqb c "%"); discriminate]]]];
      injection Ec as <-.
    + destruct (proj1 (proj2 (IH n)) E) as (flags & width & precision & verb & l & (P1 & P2) & H2 & ->). exists (String c flags), width, precision, verb, l.
      split; [split; [apply made_of_one; [apply flag_spec, Ef|exact P1]|exact P2]|]. split; [exact H2|reflexivity].
    + destruct (proj1 (proj2 (proj2 (IH n))) E) as (width & precision & verb & l & P1 & P2 & P3 & P4 & P5 & ->). exists "", (String c width), precision, verb, l.
      split; [|split; [exact P5|unfold settings; fold (point precision); cbn [append]; rewrite <- str_app_assoc; reflexivity]].
      split; [apply made_of_nil|]. split; [apply made_of_one; [apply digit_spec, Ed|exact P1]|]. split; [intros r H; injection H as -> _; discriminate Ef|]. split; [exact P2|].
      split; [discriminate|]. split; [intros H; apply digit_spec in H; congruence|]. apply special_spec, P4.
    + destruct (proj2 (proj2 (proj2 (IH n))) E) as (p & verb & l & P1 & P3 & P4 & P5 & ->). exists "", "", (Some p), verb, l.
      split; [|split; [exact P5|reflexivity]].
      split; [apply made_of_nil|]. split; [apply made_of_nil|]. split; [discriminate|]. split; [exact P1|].
      split; [discriminate|]. split; [intros H; apply digit_spec in H; congruence|]. apply special_spec, P4.
  - intros E. destruct (classify PWidth c) as [ph'| | |] eqn:Ec.
    2: (cbn [takes_from] in E; rewrite Ec in E; discriminate).
    2, 3: (assert (Hc : classify PWidth c = Percent \/ classify PWidth c = Verb) by (rewrite Ec; auto);
           destruct (V PWidth ltac:(discriminate) Hc E) as (l & Hl & ->); destruct (final_classify PWidth c ltac:(discriminate) Hc) as (F1 & F2 & F3 & F4);
           exists "", None, c, l; split; [apply made_of_nil|]; split; [apply F3; discriminate|]; split; [exact F2|]; split; [exact F4|]; split; [exact Hl|reflexivity]).
    cbn [takes_from] in E. rewrite Ec in E. unfold classify in Ec. cbn [andb] in Ec.
    destruct (is_digit c) eqn:Ed; [|destruct (Ascii.eqb_spec c ".") as [->|]; [|destruct (is_special c); [discriminate|destruct (Ascii.eqb c "%"); discriminate]]];
      injection Ec as <-.
    + destruct (proj1 (proj2 (proj2 (IH n))) E) as (width & precision & verb & l & P1 & P2 & P3 & P4 & P5 & ->). exists (String c width), precision, verb, l.
      split; [apply made_of_one; [apply digit_spec, Ed|exact P1]|]. repeat (split; [assumption|]). reflexivity.
    + destruct (proj2 (proj2 (proj2 (IH n))) E) as (p & verb & l & P1 & P3 & P4 & P5 & ->). exists "", (Some p), verb, l.
      split; [apply made_of_nil|]. repeat (split; [assumption|]). reflexivity.
  - intros E. destruct (classify PPrec c) as [ph'| | |] eqn:Ec.
    2: (cbn [takes_from] in E; rewrite Ec in E; discriminate).
    2, 3: (assert (Hc : classify PPrec c = Percent \/ classify PPrec c = Verb) by (rewrite Ec; auto);
           destruct (V PPrec ltac:(discriminate) Hc E) as (l & Hl & ->); destruct (final_classify PPrec c ltac:(discriminate) Hc) as (F1 & F2 & F3 & F4);
           exists "", c, l; split; [apply made_of_nil|]; split; [exact F2|]; split; [exact F4|]; split; [exact Hl|reflexivity]).
    cbn [takes_from] in E. rewrite Ec in E. unfold classify in Ec. cbn [andb] in Ec.
    destruct (is_digit c) eqn:Ed; [|destruct (is_special c); [discriminate|destruct (Ascii.eqb c "%"); discriminate]]; injection Ec as <-.
    destruct (proj2 (proj2 (proj2 (IH n))) E) as (p & verb & l & P1 & P3 & P4 & P5 & ->). exists (String c p), verb, l.
    split; [apply made_of_one; [apply digit_spec, Ed|exact P1]|]. repeat (split; [assumption|]). reflexivity.
Qed.

Section Text.
Context {arg world : Type}.
Variable printArg : world -> string -> ascii -> arg -> string.
Variable printExtra : world -> arg -> string.
Variable special : world -> string -> string -> list arg -> string.
Notation Sprintf := (Sprintf printArg printExtra special).

Lemma stands_text_of w l : Forall proper l -> forall a, length a = length (filter takes_one l) ->
  stands_for (printArg w) l a (Sprintf w (format_of l) a).
Proof.
  unfold M_Fmt.Sprintf. induction 1 as [|p l Hp Hl IH]; intros a Ha.
  - destruct a; [|discriminate]. constructor.
  - destruct p as [c|flags width precision verb].
    + cbn in Hp. apply Ascii.eqb_neq in Hp. cbn [format_of doPrintf]. rewrite Hp. constructor. apply IH. exact Ha.
    + cbn [format_of doPrintf]. change (Ascii.eqb "%" "%") with true. cbv iota.
      destruct (run_directive printArg printExtra special w flags width precision verb (format_of l) Hp "" a) as [-> _]. unfold after_verb.
      cbn [filter takes_one] in Ha. destruct (Ascii.eqb_spec verb "%") as [->|Hv]; cbn [negb] in Ha.
      * constructor. apply IH, Ha.
      * destruct a as [|x a]; [discriminate|]. cbn [append]. constructor; [exact Hv|]. apply IH. cbn in Ha. lia.
Qed.

(** A format takes exactly n arguments if and only if it is text and directives, n of them with a
    verb that is not a percent sign; and then the text it makes of n arguments is the text it stands
    for. *)
Theorem C45_what_a_format_takes :
  forall f n,
    (takes f = Some n <-> exists l, Forall proper l /\ f = format_of l /\
       length (filter (fun p => match p with Directive _ _ _ verb => negb (Ascii.eqb verb "%") | Text _ => false end) l) = n) /\
    forall w l a, Forall proper l -> f = format_of l -> takes f = Some (length a) -> stands_for (printArg w) l a (Sprintf w f a).
Proof.
  intros f n. split; [split|].
  - intros E. destruct (proj1 (pieces_from f n) E) as (l & Hl & ->). exists l. split; [exact Hl|]. split; [reflexivity|].
    rewrite (takes_format l Hl) in E. injection E as E. exact E.
  - intros (l & Hl & -> & <-). apply (takes_format l Hl).
  - intros w l a Hl -> E. apply stands_text_of; [exact Hl|]. rewrite (takes_format l Hl) in E. injection E as E. symmetry. exact E.
Qed.
End Text.
Print Assumptions C45_what_a_format_takes.

Example C45_format_instance :
  let l := [Text "["; Directive "+" "5" (Some "2") "d"; Text "]"; Text " "; Directive "" "" None "%"; Directive "-#" "" None "s"] in
  format_of l = "[%+5.2d] %%%-#s" /\ Forall proper l /\ takes (format_of l) = Some 2%nat /\
  stands_for (fun d c x => ("<" ++ d ++ String c x ++ ">")%string) l ["a"; "b"] "[<+5.2da>] %<-#sb>".
Proof.
  split; [reflexivity|]. split.
  - repeat (apply Forall_cons; [|]); try apply Forall_nil; cbn [proper]; try discriminate.
    all: repeat split; try discriminate; try (intros c H; cbn in H |- *; tauto); try (intros H; cbn in H; intuition discriminate).
    all: try (intros _ _ H; cbn in H; intuition discriminate).
  - split; [reflexivity|].
    constructor. apply (stands_verb (fun d c x => ("<" ++ d ++ String c x ++ ">")%string) "+" "5" (Some "2") "d" _ "a" ["b"] "] %<-#sb>"); [discriminate|]. constructor. constructor. constructor.
    apply (stands_verb (fun d c x => ("<" ++ d ++ String c x ++ ">")%string) "-#" "" None "s" _ "b" [] ""); [discriminate|]. constructor.
Qed.

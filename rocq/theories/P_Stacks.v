(** C102: stacks on the search page. *)
From Verif Require Import Go M_Strings M_Types M_Frame M_Page M_Stacks L_Frame S_Stacks.
Open Scope string_scope.
Open Scope list_scope.
Open Scope Z_scope.

(** ** Reading what is written *)
Lemma app_nil_r_s s : (s ++ "")%string = s.
Proof. induction s; cbn; congruence. Qed.
Lemma app_assoc_s a b c : ((a ++ b) ++ c)%string = (a ++ b ++ c)%string.
Proof. induction a; cbn; congruence. Qed.
Lemma snoc_app a c b : (snoc a c ++ b)%string = (a ++ String c b)%string.
Proof. unfold snoc. rewrite app_assoc_s. reflexivity. Qed.

Lemma omap_app {A} (a b : list A) (o : option (list A)) : option_map (app (a ++ b)) o = option_map (app a) (option_map (app b) o).
Proof. destruct o; cbn; [rewrite app_assoc|]; reflexivity. Qed.
Lemma omap_nil {A} (o : option (list A)) : option_map (app []) o = o.
Proof. destruct o; reflexivity. Qed.

Lemma read_text s rest : read InText (template_escape s ++ rest) = option_map (app (text (showable s))) (read InText rest).
Proof.
  induction s as [|c s IH]; [cbn; rewrite omap_nil; reflexivity|].
  cbn [template_escape showable]. rewrite app_assoc_s. unfold template_byte, replacement_char.
  destruct (Ascii.eqb_spec c "000"); [cbn; rewrite IH; destruct (read InText rest); reflexivity|].
  destruct (Ascii.eqb_spec c "034"); [subst; cbn; rewrite IH; destruct (read InText rest); reflexivity|].
  destruct (Ascii.eqb_spec c "&"); [subst; cbn; rewrite IH; destruct (read InText rest); reflexivity|].
  destruct (Ascii.eqb_spec c "'"); [subst; cbn; rewrite IH; destruct (read InText rest); reflexivity|].
  destruct (Ascii.eqb_spec c "+"); [subst; cbn; rewrite IH; destruct (read InText rest); reflexivity|].
  destruct (Ascii.eqb_spec c "<"); [subst; cbn; rewrite IH; destruct (read InText rest); reflexivity|].
  destruct (Ascii.eqb_spec c ">"); [subst; cbn; rewrite IH; destruct (read InText rest); reflexivity|].
  cbn [append read]. rewrite (proj2 (Ascii.eqb_neq c "<")), (proj2 (Ascii.eqb_neq c "&")) by assumption.
  rewrite IH. destruct (read InText rest); reflexivity.
Qed.

Lemma read_value name attrs key s : forall val rest,
  read (InValue name attrs key val) (template_escape s ++ rest) = read (InValue name attrs key (val ++ showable s)) rest.
Proof.
  induction s as [|c s IH]; intros val rest; [cbn; rewrite app_nil_r_s; reflexivity|].
  cbn [template_escape showable]. rewrite app_assoc_s. unfold template_byte, replacement_char.
  destruct (Ascii.eqb_spec c "000"); [cbn; rewrite IH, !snoc_app; reflexivity|].
  destruct (Ascii.eqb_spec c "034"); [subst; cbn; rewrite IH, app_assoc_s; reflexivity|].
  destruct (Ascii.eqb_spec c "&"); [subst; cbn; rewrite IH, app_assoc_s; reflexivity|].
  destruct (Ascii.eqb_spec c "'"); [subst; cbn; rewrite IH, app_assoc_s; reflexivity|].
  destruct (Ascii.eqb_spec c "+"); [subst; cbn; rewrite IH, app_assoc_s; reflexivity|].
  destruct (Ascii.eqb_spec c "<"); [subst; cbn; rewrite IH, app_assoc_s; reflexivity|].
  destruct (Ascii.eqb_spec c ">"); [subst; cbn; rewrite IH, app_assoc_s; reflexivity|].
  cbn [append read]. rewrite (proj2 (Ascii.eqb_neq c quote)), (proj2 (Ascii.eqb_neq c "&")) by assumption.
  rewrite IH, snoc_app. reflexivity.
Qed.

(** ** Short names *)
Lemma last_index_none s c : LastIndexByte s c = None -> ~ In c (list_ascii_of_string s).
Proof.
  induction s as [|x s IH]; cbn; [tauto|]. destruct (LastIndexByte s c); [discriminate|]. destruct (Ascii.eqb_spec x c); [discriminate|].
  intros _ [H|H]; [congruence|]. apply IH; auto.
Qed.
Lemma last_index_some s c : forall i, LastIndexByte s c = Some i ->
  exists d b, s = (d ++ String c b)%string /\ String.length d = i /\ ~ In c (list_ascii_of_string b).
Proof.
  induction s as [|x s IH]; cbn; [discriminate|]. intros i. destruct (LastIndexByte s c) as [j|] eqn:E.
  - intros [= <-]. destruct (IH j eq_refl) as (d & b & -> & L & N). exists (String x d), b. cbn. auto.
  - destruct (Ascii.eqb_spec x c); [|discriminate]. intros [= <-]. subst x. exists "", s. cbn. repeat split. apply last_index_none. exact E.
Qed.
Lemma length_app_s a b : String.length (a ++ b) = (String.length a + String.length b)%nat.
Proof. induction a; cbn; congruence. Qed.
Lemma substring_all s : substring 0 (String.length s) s = s.
Proof. induction s; cbn; congruence. Qed.
Lemma substring_skip d : forall b n, substring (String.length d) n (d ++ b) = substring 0 n b.
Proof. induction d as [|c d IH]; intros b n; [reflexivity|]. cbn. apply IH. Qed.

Lemma split_unique c : forall d b d' b', (d ++ String c b)%string = (d' ++ String c b')%string ->
  ~ In c (list_ascii_of_string b) -> ~ In c (list_ascii_of_string b') -> d = d'.
Proof.
  assert (IA : forall a b, In c (list_ascii_of_string (a ++ String c b))).
  { induction a as [|x a IH]; intros b; cbn; auto. }
  induction d as [|x d IH]; intros b [|x' d'] b' E N N'; cbn in E; [reflexivity| | |]; injection E as E1 E2.
  - subst. exfalso. apply N. apply IA.
  - subst. exfalso. apply N'. apply IA.
  - subst. f_equal. eapply IH; eauto.
Qed.

Lemma humanizeFunction_short f : exists b, humanizeFunction f = Ok b /\ short_name f b.
Proof.
  unfold humanizeFunction. destruct (LastIndexByte f "/") as [i|] eqn:E; cbn [index_of].
  - destruct (last_index_some _ _ _ E) as (d & b & -> & L & N).
    rewrite length_app_s. cbn [String.length]. rewrite L.
    destruct (Z.ltb_spec 0 (Z.of_nat i)) as [P|P].
    + rewrite (proj2 (Z.ltb_lt (Z.of_nat i) (Z.of_nat (i + S (String.length b))))) by lia. cbn [andb].
      unfold str_slice. rewrite length_app_s. cbn [String.length]. rewrite L.
      rewrite (proj2 (Z.leb_le 0 (Z.of_nat i + 1))), (proj2 (Z.leb_le (Z.of_nat i + 1) (Z.of_nat (i + S (String.length b))))), Z.leb_refl by lia.
      cbn [andb]. exists b. split.
      * f_equal. replace (Z.to_nat (Z.of_nat i + 1)) with (String.length (d ++ "/")) by (rewrite length_app_s; cbn; lia).
        replace (d ++ String "/" b)%string with ((d ++ "/") ++ b)%string by (rewrite app_assoc_s; reflexivity).
        rewrite substring_skip. replace (Z.to_nat (Z.of_nat (i + S (String.length b)) - (Z.of_nat i + 1))) with (String.length b) by lia.
        apply substring_all.
      * left. exists d. split; [|split; [reflexivity|exact N]]. intros ->. cbn in L. lia.
    + cbn [andb]. exists (d ++ String "/" b)%string. split; [reflexivity|]. right. split; [reflexivity|].
      intros d' b' E' N'. cbn [append] in E'. rewrite <- (split_unique _ _ _ _ _ E' N N').
      destruct d; [reflexivity|]. cbn in L. lia.
  - cbn. exists f. split; [reflexivity|]. right. split; [reflexivity|]. intros d b' -> N'. exfalso.
    apply (last_index_none _ _ E). clear. induction d; cbn; auto.
Qed.

Lemma short_name_unique f b b' : short_name f b -> short_name f b' -> b = b'.
Proof.
  intros [(d & D & E & N)|[-> H]] [(d' & D' & E' & N')|[-> H']].
  - subst f. cbn [append] in E'. pose proof (split_unique _ _ _ _ _ E' N N') as ->. clear - E'.
    induction d' as [|x d' IH]; cbn in E'; [congruence|]. injection E' as E'. auto.
  - exfalso. apply D. eapply H'; eauto.
  - exfalso. apply D'. eapply H; eauto.
  - reflexivity.
Qed.

(** ** Addresses *)
Lemma showable_percent c s : showable (percent c s) = percent c (showable s).
Proof.
  unfold percent. cbn [showable].
  replace (Ascii.eqb (lowerhex (N_of_ascii c / 16)) "000") with false by (destruct c as [[] [] [] [] [] [] [] []]; reflexivity).
  replace (Ascii.eqb (lowerhex (N_of_ascii c mod 16)) "000") with false by (destruct c as [[] [] [] [] [] [] [] []]; reflexivity).
  reflexivity.
Qed.
Lemma showable_url n s : showable (process_url n s) = process_url n s.
Proof.
  induction s as [|c s IH]; [reflexivity|]. cbn [process_url].
  match goal with |- context[if ?k then _ else _] => destruct k eqn:K end.
  - cbn [showable]. rewrite IH. destruct (Ascii.eqb_spec c "000"); [|reflexivity]. subst c. cbn in K. discriminate K.
  - rewrite showable_percent, IH. reflexivity.
Qed.

(** ** Frames and stacks *)
Lemma frame_reads link fr shown place : humanizeFunction (Function fr) = Ok shown -> CompactFileLine fr = Ok place ->
  exists h, frame_html link fr = Ok h /\
    forall rest, read InText (h ++ rest) =
      option_map (app (frame_pieces (Function fr) shown place (process_url true (link (FileLine fr))))) (read InText rest).
Proof.
  intros Hs Hp. unfold frame_html. rewrite Hs, Hp. cbn [bind]. eexists. split; [reflexivity|]. intros rest.
  set (href := link (FileLine fr)).
  assert (HE : String.eqb (process_url true href) "" = String.eqb href "").
  { destruct href as [|c h]; [reflexivity|]. cbn [process_url]. match goal with |- context[if ?k then _ else _] => destruct k end; reflexivity. }
  unfold frame_pieces. rewrite HE.
  remember (template_escape (Function fr)) as F eqn:EF. remember (template_escape shown) as SH eqn:ESH. remember (template_escape place) as PL eqn:EPL.
  remember (template_escape (process_url true href)) as HR eqn:EHR.
  destruct (String.eqb href "").
  - rewrite !app_assoc_s. cbn. rewrite EF, read_value. cbn. rewrite ESH, read_text. cbn. rewrite EPL, read_text. cbn.
    destruct (read InText rest); [|reflexivity]. cbn. rewrite <- ?app_assoc. cbn. rewrite <- ?app_assoc. reflexivity.
  - rewrite !app_assoc_s. cbn. rewrite EF, read_value. cbn. rewrite ESH, read_text. cbn. rewrite EHR, read_value. cbn. rewrite EPL, read_text. cbn.
    rewrite showable_url.
    destruct (read InText rest); [|reflexivity]. cbn. rewrite <- ?app_assoc. cbn. rewrite <- ?app_assoc. reflexivity.
Qed.

(** the two readings of a hexadecimal digit agree *)
Lemma hex_agrees c : is_hex c = match hex_value c with Some _ => true | None => false end.
Proof. destruct c as [[] [] [] [] [] [] [] []]; reflexivity. Qed.
Lemma decode_hex c s : percent_decode (percent c s) = String c (percent_decode s).
Proof. destruct c as [[] [] [] [] [] [] [] []]; reflexivity. Qed.
Lemma kept_bytes c : (if url_reserved c then true else if Ascii.eqb c "%" then true else M_Url.unreserved c) = true -> address_byte c.
Proof. destruct c as [[] [] [] [] [] [] [] []]; vm_compute; intros H; try discriminate H; repeat first [left; reflexivity | right]. Qed.
Lemma hex_unreserved c v : hex_value c = Some v -> url_reserved c = false /\ Ascii.eqb c "%" = false /\ M_Url.unreserved c = true.
Proof. destruct c as [[] [] [] [] [] [] [] []]; vm_compute; intros H; try discriminate H; auto. Qed.
Lemma percent_bytes c s : Forall address_byte (list_ascii_of_string s) -> Forall address_byte (list_ascii_of_string (percent c s)).
Proof.
  intros H. unfold percent. cbn [list_ascii_of_string]. constructor; [apply kept_bytes; reflexivity|].
  constructor; [apply kept_bytes; destruct c as [[] [] [] [] [] [] [] []]; reflexivity|].
  constructor; [apply kept_bytes; destruct c as [[] [] [] [] [] [] [] []]; reflexivity|exact H].
Qed.
Lemma url_bytes s : Forall address_byte (list_ascii_of_string (process_url true s)).
Proof.
  induction s as [|c s IH]; [constructor|]. cbn [process_url].
  match goal with |- context[if ?k then String _ _ else _] => destruct k eqn:K end.
  - cbn [list_ascii_of_string]. constructor; [|exact IH]. apply kept_bytes.
    destruct (url_reserved c); [reflexivity|]. destruct (Ascii.eqb c "%"); [reflexivity|exact K].
  - apply percent_bytes. exact IH.
Qed.

Lemma decode_other c s : Ascii.eqb c "%" = false -> percent_decode (String c s) = String c (percent_decode s).
Proof. intros H. cbn [percent_decode]. rewrite H. reflexivity. Qed.
Lemma two_hex_cases r : two_hex r = true -> exists x y r' a b, r = String x (String y r') /\ hex_value x = Some a /\ hex_value y = Some b.
Proof.
  destruct r as [|x [|y r']]; cbn; try discriminate. rewrite !hex_agrees.
  destruct (hex_value x) as [a|] eqn:E0; cbn; [|discriminate]. destruct (hex_value y) as [b|] eqn:E; [|discriminate]. intros _. exists x, y, r', a, b. auto.
Qed.
Lemma decode_not_hex r : two_hex r = false -> percent_decode (String "%" r) = String "%" (percent_decode r).
Proof.
  destruct r as [|x [|y r']]; try reflexivity. cbn [two_hex]. rewrite !hex_agrees. cbn [percent_decode Ascii.eqb Bool.eqb].
  destruct (hex_value x); [destruct (hex_value y); cbn; [discriminate|reflexivity]|reflexivity].
Qed.

Lemma decode_url_len n : forall s, (String.length s <= n)%nat -> percent_decode (process_url true s) = percent_decode s.
Proof.
  induction n as [|n IH]; intros [|c s] L; try reflexivity; [cbn in L; lia|]. cbn in L.
  cbn [process_url]. destruct (url_reserved c) eqn:R.
  - assert (Ascii.eqb c "%" = false) by (destruct (Ascii.eqb_spec c "%"); [subst; discriminate R|reflexivity]).
    rewrite !decode_other by assumption. rewrite IH by lia. reflexivity.
  - destruct (Ascii.eqb_spec c "%") as [->|N].
    + cbn [andb]. destruct (two_hex s) eqn:T.
      * destruct (two_hex_cases _ T) as (x & y & r & a & b & -> & X & Y).
        destruct (hex_unreserved _ _ X) as (X1 & X2 & X3). destruct (hex_unreserved _ _ Y) as (Y1 & Y2 & Y3).
        cbn [process_url]. rewrite X1, X2, X3, Y1, Y2, Y3. cbn [percent_decode]. rewrite X, Y. cbn [Ascii.eqb Bool.eqb].
        rewrite IH by (cbn in L; lia). reflexivity.
      * rewrite decode_hex, IH by lia. rewrite decode_not_hex by exact T. reflexivity.
    + apply Ascii.eqb_neq in N. destruct (M_Url.unreserved c); [rewrite !decode_other by exact N|rewrite decode_hex, decode_other by exact N]; rewrite IH by lia; reflexivity.
Qed.
Lemma decode_url s : percent_decode (process_url true s) = percent_decode s.
Proof. eapply decode_url_len. reflexivity. Qed.

Lemma path_percent c s : path_of (percent c s) = percent c (path_of s).
Proof. destruct c as [[] [] [] [] [] [] [] []]; reflexivity. Qed.
Lemma two_hex_path r : two_hex (path_of r) = two_hex r.
Proof.
  assert (Q : forall c, Ascii.eqb c "?" || Ascii.eqb c "#" = true -> is_hex c = false) by (intros c; destruct c as [[] [] [] [] [] [] [] []]; try discriminate; reflexivity).
  destruct r as [|x r]; [reflexivity|]. cbn [path_of]. destruct (Ascii.eqb x "?" || Ascii.eqb x "#") eqn:E.
  - cbn. destruct r; [reflexivity|]. rewrite (Q x E). reflexivity.
  - destruct r as [|y r]; [reflexivity|]. cbn [path_of]. destruct (Ascii.eqb y "?" || Ascii.eqb y "#") eqn:E'; [|reflexivity].
    cbn. rewrite (Q y E'), andb_false_r. reflexivity.
Qed.
Lemma path_url s : path_of (process_url true s) = process_url true (path_of s).
Proof.
  induction s as [|c s IH]; [reflexivity|]. cbn [process_url path_of].
  destruct (Ascii.eqb c "?" || Ascii.eqb c "#") eqn:E.
  - replace (url_reserved c) with true by (destruct c as [[] [] [] [] [] [] [] []]; try discriminate; reflexivity). cbn [path_of]. rewrite E. reflexivity.
  - cbn [process_url]. rewrite two_hex_path.
    match goal with |- context[if ?k then String _ _ else _] => destruct k end; [cbn [path_of]; rewrite E, IH; reflexivity|].
    rewrite path_percent, IH. reflexivity.
Qed.
Lemma url_same u : same_address u (process_url true u).
Proof. split; [apply url_bytes|]. split; [apply decode_url|]. rewrite path_url. apply decode_url. Qed.

(** A stack is shown frame by frame: each with the short name of its function, the whole name beside it, and its place;
    where there is an address for the place, and only there, it is a link to that address.  Whatever the names are, the
    page has no other elements. *)
Theorem C102_stacks_are_shown :
  forall link stack, exists h frames,
  stack_html link false false stack = Ok h /\ read InText h = Some (stack_pieces frames) /\
  Forall2 (fun fr pieces => exists shown place href,
    short_name (Function fr) shown /\ CompactFileLine fr = Ok place /\
    (href = "" <-> link (FileLine fr) = "") /\ same_address (link (FileLine fr)) href /\
    pieces = frame_pieces (Function fr) shown place href) stack frames.
Proof.
  intros link stack.
  assert (F : exists h frames, frames_html link stack = Ok h /\
    (forall rest, read InText (h ++ rest) = option_map (app (concat frames)) (read InText rest)) /\
    Forall2 (fun fr pieces => exists shown place href,
      short_name (Function fr) shown /\ CompactFileLine fr = Ok place /\
      (href = "" <-> link (FileLine fr) = "") /\ same_address (link (FileLine fr)) href /\
      pieces = frame_pieces (Function fr) shown place href) stack frames).
  { induction stack as [|fr stack IH].
    - exists "", []. split; [reflexivity|]. split; [|constructor]. intros rest. cbn. rewrite omap_nil. reflexivity.
    - destruct IH as (h & frames & E & R & A).
      destruct (humanizeFunction_short (Function fr)) as (shown & Hs & Sn). destruct (CompactFileLine_total fr) as (place & Hp).
      destruct (frame_reads link fr shown place Hs Hp) as (h1 & E1 & R1). cbn [frames_html]. rewrite E1, E. cbn [bind].
      eexists. exists (frame_pieces (Function fr) shown place (process_url true (link (FileLine fr))) :: frames). split; [reflexivity|]. split.
      + intros rest. rewrite app_assoc_s, R1, R. cbn [concat]. symmetry. apply omap_app.
      + constructor; [|exact A]. exists shown, place, (process_url true (link (FileLine fr))).
        split; [exact Sn|]. split; [exact Hp|]. split; [|split; [apply url_same|reflexivity]].
        destruct (link (FileLine fr)) as [|c u]; [cbn; tauto|]. cbn [process_url].
        match goal with |- context[if ?k then String _ _ else _] => destruct k end; split; discriminate. }
  destruct F as (h & frames & E & R & A). unfold stack_html. cbn [orb]. rewrite E. cbn [bind].
  eexists. exists frames. split; [reflexivity|]. split; [|exact A].
  cbn. rewrite R. reflexivity.
Qed.
Print Assumptions C102_stacks_are_shown.

(** the start and the end of a trace have no stack *)
Theorem C102_no_stack_at_start_and_end :
  forall link is_start is_end stack, is_start = true \/ is_end = true -> stack_html link is_start is_end stack = Ok "".
Proof. intros link [] [] stack [H|H]; try discriminate H; reflexivity. Qed.
Print Assumptions C102_no_stack_at_start_and_end.

(** A program that does not set a source link function has no links in its stacks. *)
Theorem C102_no_links_unless_asked :
  forall stack h pieces, stack_html default_link false false stack = Ok h -> read InText h = Some pieces ->
  forall attributes, ~ In (Start "a" attributes) pieces.
Proof.
  intros stack h pieces E R attributes. destruct (C102_stacks_are_shown default_link stack) as (h' & frames & E' & R' & A).
  rewrite E in E'. injection E' as <-. rewrite R in R'. injection R' as ->.
  assert (T : forall s, ~ In (Start "a" attributes) (text s)) by (induction s as [|c s IH]; cbn; [tauto|]; intros [H|H]; [discriminate|auto]).
  assert (P : ~ In (Start "a" attributes) (concat frames)).
  { clear E R. induction A as [|fr ps stack' frames (shown & place & href & _ & _ & Z & _ & ->) A IH]; [intros []|].
    cbn [concat]. rewrite in_app_iff. intros [H|H]; [|tauto]. unfold frame_pieces in H.
    rewrite (proj2 Z eq_refl) in H. cbn [String.eqb] in H. repeat (rewrite ?in_app_iff in H; cbn [In] in H).
    repeat match goal with H : _ \/ _ |- _ => destruct H as [H|H] | H : In _ (text _) |- _ => apply T in H | H : _ = _ |- _ => discriminate H | H : False |- _ => destruct H end. }
  unfold stack_pieces. rewrite !in_app_iff. cbn [In]. intros H.
  repeat match goal with H : _ \/ _ |- _ => destruct H as [H|H] | H : _ = _ |- _ => discriminate H | H : False |- _ => destruct H end. exact (P H).
Qed.
Print Assumptions C102_no_links_unless_asked.

Lemma without_prefix_app p s : without_prefix p (p ++ s) = Some s.
Proof. induction p as [|c p IH]; [reflexivity|]. cbn. rewrite Ascii.eqb_refl. exact IH. Qed.
Lemma vscode_url fl : process_url true (SourceLinkVSCode fl) = ("vscode://file/" ++ process_url true fl)%string.
Proof. reflexivity. Qed.

Lemma decode_shorter n : forall s, (String.length s <= n)%nat -> (String.length (percent_decode s) <= String.length s)%nat.
Proof.
  induction n as [|n IH]; intros [|c s] L; try (cbn in *; lia). cbn [String.length] in L.
  destruct (Ascii.eqb_spec c "%") as [->|N].
  - destruct (two_hex s) eqn:T.
    + destruct (two_hex_cases _ T) as (x & y & r & a & b & -> & X & Y). cbn [percent_decode Ascii.eqb Bool.eqb]. rewrite X, Y. cbn [String.length] in *.
      specialize (IH r ltac:(lia)). lia.
    + rewrite decode_not_hex by exact T. cbn [String.length]. specialize (IH s ltac:(lia)). lia.
  - rewrite decode_other by (apply Ascii.eqb_neq; exact N). cbn [String.length]. specialize (IH s ltac:(lia)). lia.
Qed.
Lemma decode_same n : forall s, (String.length s <= n)%nat ->
  (percent_decode s = s <-> (forall a x y b, s = (a ++ String "%" (String x (String y b)))%string -> hex_value x = None \/ hex_value y = None)).
Proof.
  induction n as [|n IH]; intros [|c s] L; try (cbn in L; lia); try (split; [|reflexivity]; intros _ [|? a] x y b H; discriminate H).
  cbn [String.length] in L.
  assert (TL : (forall a x y b, String c s = (a ++ String "%" (String x (String y b)))%string -> hex_value x = None \/ hex_value y = None) ->
               (forall a x y b, s = (a ++ String "%" (String x (String y b)))%string -> hex_value x = None \/ hex_value y = None)).
  { intros H a x y b ->. apply (H (String c a) x y b). reflexivity. }
  destruct (Ascii.eqb_spec c "%") as [->|N].
  - destruct (two_hex s) eqn:T.
    + destruct (two_hex_cases _ T) as (x & y & r & a & b & -> & X & Y). split.
      * cbn [percent_decode Ascii.eqb Bool.eqb]. rewrite X, Y. intros H. exfalso.
        apply (f_equal String.length) in H. cbn [String.length] in H. pose proof (decode_shorter _ r (le_n _)). lia.
      * intros H. destruct (H "" x y r eq_refl); congruence.
    + rewrite decode_not_hex by exact T. split.
      * intros H. injection H as H. pose proof (proj1 (IH s ltac:(lia)) H) as H0; clear H; rename H0 into H. intros [|c' a] x y b E.
        -- injection E as ->. cbn in T. rewrite !hex_agrees in T. destruct (hex_value x); [destruct (hex_value y); [discriminate T|]|]; auto.
        -- injection E as _ E. eapply H. exact E.
      * intros H. f_equal. apply IH; [lia|]. apply TL. exact H.
  - rewrite decode_other by (apply Ascii.eqb_neq; exact N). split.
    + intros H. injection H as H. pose proof (proj1 (IH s ltac:(lia)) H) as H0; clear H; rename H0 into H. intros [|c' a] x y b E; [injection E as E _; congruence|]. injection E as _ E. eapply H. exact E.
    + intros H. f_equal. apply IH; [lia|]. apply TL. exact H.
Qed.
Lemma path_shorter s : (String.length (path_of s) <= String.length s)%nat.
Proof. induction s as [|c s IH]; [reflexivity|]. cbn [path_of]. destruct (_ || _); cbn; lia. Qed.
Lemma path_same s : String.length (path_of s) = String.length s <-> (forall c, In c (list_ascii_of_string s) -> c <> "?"%char /\ c <> "#"%char).
Proof.
  induction s as [|c s IH]; [cbn; tauto|]. cbn [path_of list_ascii_of_string].
  destruct (Ascii.eqb_spec c "?") as [->|N1]; [split; [discriminate|]; intros H; destruct (H "?"%char (or_introl eq_refl)); congruence|].
  destruct (Ascii.eqb_spec c "#") as [->|N2]; [split; [discriminate|]; intros H; destruct (H "#"%char (or_introl eq_refl)); congruence|].
  cbn [orb String.length]. split.
  - intros H x [<-|X]; [auto|]. apply IH; [lia|exact X].
  - intros H. f_equal. apply IH. intros x X. apply H. right. exact X.
Qed.
Lemma path_plain s : (forall c, In c (list_ascii_of_string s) -> c <> "?"%char /\ c <> "#"%char) -> path_of s = s.
Proof.
  induction s as [|c s IH]; [reflexivity|]. cbn [path_of list_ascii_of_string]. intros H.
  destruct (H c (or_introl eq_refl)) as [A B]. rewrite (proj2 (Ascii.eqb_neq _ _) A), (proj2 (Ascii.eqb_neq _ _) B). cbn [orb]. f_equal. apply IH. intros x X. apply H. right. exact X.
Qed.

(** With SourceLinkVSCode, every place is a link of the editor whatever the frames are, and it opens the file and line of
    its frame just if their text means itself in an address. *)
Theorem C102_editor_links :
  forall fr, exists h pieces href,
  stack_html SourceLinkVSCode false false [fr] = Ok h /\ read InText h = Some pieces /\
  In (Start "a" [("class", "searchable"); ("href", href)]) pieces /\
  (forall attributes, In (Start "a" attributes) pieces -> attributes = [("class", "searchable"); ("href", href)]) /\
  (exists rest, href = ("vscode://file/" ++ rest)%string) /\
  (opens href = Some (FileLine fr) <-> plain_path (FileLine fr)).
Proof.
  intros fr.
  destruct (humanizeFunction_short (Function fr)) as (shown & Hs & _). destruct (CompactFileLine_total fr) as (place & Hp).
  destruct (frame_reads SourceLinkVSCode fr shown place Hs Hp) as (h1 & E1 & R1).
  unfold stack_html. cbn [orb frames_html]. rewrite E1. cbn [bind].
  eexists. exists (stack_pieces [frame_pieces (Function fr) shown place (process_url true (SourceLinkVSCode (FileLine fr)))]), (process_url true (SourceLinkVSCode (FileLine fr))).
  split; [reflexivity|].
  split; [cbn [append read Ascii.eqb Bool.eqb String.eqb option_map snoc]; rewrite app_nil_r_s; cbn; rewrite R1; cbn [read Ascii.eqb Bool.eqb String.eqb option_map snoc append]; unfold stack_pieces; cbn [concat]; rewrite app_nil_r; reflexivity|].
  rewrite vscode_url.
  split; [|split; [|split]].
  - unfold stack_pieces, frame_pieces. cbn [concat String.eqb append Ascii.eqb Bool.eqb]. repeat (rewrite ?in_app_iff; cbn [In]). tauto.
  - intros attributes H.
    assert (T : forall s, ~ In (Start "a" attributes) (text s)) by (induction s as [|c s IH]; cbn; [tauto|]; intros [X|X]; [discriminate|auto]).
    unfold stack_pieces, frame_pieces in H. cbn [concat String.eqb append Ascii.eqb Bool.eqb] in H. repeat (rewrite ?in_app_iff in H; cbn [In] in H).
    repeat match goal with H : _ \/ _ |- _ => destruct H as [H|H] | H : In _ (text _) |- _ => apply T in H | H : _ = _ |- _ => discriminate H | H : False |- _ => destruct H end.
    injection H as <-. reflexivity.
  - eexists. reflexivity.
  - unfold opens. rewrite without_prefix_app. cbn [option_map]. rewrite path_url, decode_url.
    split.
    + intros H. injection H as H.
      pose proof (decode_shorter _ (path_of (FileLine fr)) (le_n _)) as D. rewrite H in D. pose proof (path_shorter (FileLine fr)).
      assert (L0 : String.length (path_of (FileLine fr)) = String.length (FileLine fr)) by lia. pose proof (proj1 (path_same _) L0) as L. split; [exact L|].
      rewrite (path_plain _ L) in H. apply (decode_same _ _ (le_n _)). exact H.
    + intros [L P]. rewrite (path_plain _ L). f_equal. apply (decode_same _ _ (le_n _)). exact P.
Qed.
Print Assumptions C102_editor_links.

(** Finding: the path is put into the address as it is, so the link of a file whose path has a question mark, a number sign
    or an escape opens another file. *)
Theorem C102_other_file_opened_refuted :
  forall fr h pieces href, ~ plain_path (FileLine fr) ->
  stack_html SourceLinkVSCode false false [fr] = Ok h -> read InText h = Some pieces ->
  In (Start "a" [("class", "searchable"); ("href", href)]) pieces ->
  exists other, opens href = Some other /\ other <> FileLine fr.
Proof.
  intros fr h pieces href N E R I. destruct (C102_editor_links fr) as (h' & pieces' & href' & E' & R' & I' & U & (rest & X) & O).
  rewrite E in E'. injection E' as <-. rewrite R in R'. injection R' as <-.
  apply U in I. injection I as ->. rewrite X in *. unfold opens in *. rewrite without_prefix_app in *. eexists. split; [reflexivity|].
  intros F. apply N, O. cbn [option_map]. rewrite F. reflexivity.
Qed.
Print Assumptions C102_other_file_opened_refuted.

Example C102_instance :
  let fr := MkFrame "github.com/me/pkg/sub.(*T).f<int>" "/home/me/src/pkg/sub/a b.go:12" in
  plain_path (FileLine fr) /\ ~ plain_path "/home/me/c#/x.go:1" /\ ~ plain_path "/home/me/100%25/x.go:1" /\
  short_name (Function fr) "sub.(*T).f<int>" /\
  exists h, stack_html SourceLinkVSCode false false [fr; fr] = Ok h /\
    opens "vscode://file//home/me/src/pkg/sub/a%20b.go:12" = Some (FileLine fr).
Proof.
  cbn zeta. split; [|split; [|split; [|split]]].
  - split; [intros c H; repeat (destruct H as [<-|H]; [split; discriminate|]); destruct H|].
    intros a x y b H. exfalso. assert (In "%"%char (list_ascii_of_string "/home/me/src/pkg/sub/a b.go:12")).
    { cbn [FileLine] in H. rewrite H. clear. induction a; cbn; auto. }
    repeat (destruct H0 as [H0|H0]; [discriminate H0|]). destruct H0.
  - intros [H _]. destruct (H "#"%char) as [_ N]; [cbn; tauto|]. congruence.
  - intros [_ H]. destruct (H "/home/me/100" "2"%char "5"%char "/x.go:1" eq_refl); discriminate.
  - left. exists "github.com/me/pkg". split; [discriminate|]. split; [reflexivity|]. intros H. repeat (destruct H as [H|H]; [discriminate H|]). destruct H.
  - eexists. split; [vm_compute; reflexivity|reflexivity].
Qed.

(** C80: what the texts of filters and search requests tell. *)
From Verif Require Import Go M_Strings M_Types M_Frame M_Humanize M_Text M_Filter M_Search M_Fmt M_Page L_Strings L_Text L_Page P_Url M_ReqString S_ReqString.
Open Scope string_scope.
Open Scope list_scope.
Open Scope Z_scope.

(** ** Texts made of optional parts *)
Lemma str_app_shift (a b c : string) : ((a ++ b) ++ c = a ++ (b ++ c))%string.
Proof. induction a as [|x a IH]; [reflexivity|]. cbn. rewrite IH. reflexivity. Qed.
Lemma str_app_cancel (a b c : string) : (a ++ b = a ++ c)%string -> b = c.
Proof. induction a as [|x a IH]; [auto|]. cbn. intros H. injection H. exact IH. Qed.

(** what may follow a part *)
Definition ends (r : string) : Prop := match r with EmptyString => True | String c _ => c = " "%char \/ c = "]"%char end.
(** contents of this kind end where their text says so *)
Definition delimited (P : string -> Prop) : Prop :=
  forall c c' r r', P c -> P c' -> ends r -> ends r' -> (c ++ r = c' ++ r')%string -> c = c' /\ r = r'.

Lemma delimited_empty : delimited (fun c => c = "").
Proof. intros c c' r r' -> -> _ _ H. split; [reflexivity|exact H]. Qed.
Lemma cut_at (d : ascii) x x' r r' : ~ has_byte d x -> ~ has_byte d x' -> (x ++ String d r = x' ++ String d r')%string -> x = x' /\ r = r'.
Proof.
  unfold has_byte. revert x'. induction x as [|c x IH]; intros [|c' x'] N N' H; cbn in *.
  - injection H as ->. auto.
  - injection H as -> _. exfalso. apply N'. auto.
  - injection H as -> _. exfalso. apply N. auto.
  - injection H as -> H. destruct (IH x' ltac:(tauto) ltac:(tauto) H) as [-> ->]. auto.
Qed.
Lemma delimited_by (d : ascii) : delimited (fun c => exists x, ~ has_byte d x /\ c = (x ++ String d "")%string).
Proof.
  intros c c' r r' (x & N & ->) (x' & N' & ->) _ _ H. rewrite !str_app_shift in H. cbn [append] in H. destruct (cut_at d x x' r r' N N' H) as [-> ->]. auto.
Qed.
Definition wordy (c : string) : Prop := ~ has_byte " " c /\ ~ has_byte "]" c.
Lemma delimited_word : delimited wordy.
Proof.
  unfold wordy, has_byte. intros c. induction c as [|a c IH]; intros [|a' c'] r r' N N' E E' H; cbn in *.
  - auto.
  - subst r. cbn in E. exfalso. destruct E as [E|E]; subst a'; destruct N' as [N1 N2]; [apply N1|apply N2]; auto.
  - subst r'. cbn in E'. exfalso. destruct E' as [E'|E']; subst a; destruct N as [N1 N2]; [apply N1|apply N2]; auto.
  - injection H as -> H. destruct (IH c' r r' ltac:(tauto) ltac:(tauto) E E' H) as [-> ->]. auto.
Qed.

(** A part: a tag, what its content may be, and the content if it is there. *)
Definition part : Type := (string * option string)%type.
Fixpoint lead (ps : list part) (r : string) : string :=
  match ps with [] => r | (t, o) :: ps => ((match o with Some c => t ++ c | None => "" end) ++ lead ps r)%string end.

Fixpoint apart (t t' : string) : bool :=
  match t, t' with String c t, String c' t' => negb (Ascii.eqb c c') || apart t t' | _, _ => false end.
Lemma apart_ne t t' x y : apart t t' = true -> (t ++ x)%string <> (t' ++ y)%string.
Proof.
  revert t'. induction t as [|c t IH]; intros [|c' t'] H; try discriminate. cbn in *. intros E. injection E as -> E.
  rewrite Ascii.eqb_refl in H. cbn in H. exact (IH t' H E).
Qed.

Definition shape : Type := list (string * (string -> Prop)).
Fixpoint shaped (sh : shape) (ps : list part) : Prop :=
  match sh, ps with
  | [], [] => True
  | (t, P) :: sh, (t', o) :: ps => t = t' /\ (forall c, o = Some c -> P c) /\ shaped sh ps
  | _, _ => False
  end.
Fixpoint readable (sh : shape) : Prop :=
  match sh with
  | [] => True
  | (t, P) :: sh => (exists s, t = String " " s) /\ delimited P /\ (forall t' P', In (t', P') sh -> apart t t' = true) /\ readable sh
  end.
Definition closing (r : string) : Prop := match r with EmptyString => True | String c _ => c = "]"%char end.

Lemma lead_ends sh ps r : readable sh -> shaped sh ps -> closing r -> ends (lead ps r).
Proof.
  revert ps. induction sh as [|[t P] sh IH]; intros [|[t' o] ps] R S C; cbn in S; try contradiction.
  - cbn. destruct r; cbn in *; auto.
  - destruct R as ((s & E) & D & _ & R). destruct S as (<- & _ & S). cbn. destruct o; [rewrite E; cbn; auto|]. cbn. apply IH; auto.
Qed.
Lemma lead_not sh ps r t x : readable sh -> shaped sh ps -> closing r -> (exists s, t = String " " s) ->
  (forall t' P', In (t', P') sh -> apart t t' = true) -> (t ++ x)%string <> lead ps r.
Proof.
  revert ps. induction sh as [|[t' P] sh IH]; intros [|[t'' o] ps] R S C T A; cbn in S; try contradiction.
  - destruct T as (s & ->). cbn. destruct r as [|c r]; [discriminate|]. cbn in C. subst c. discriminate.
  - destruct R as (_ & _ & _ & R). destruct S as (<- & _ & S). cbn [lead]. destruct o as [c|].
    + rewrite str_app_shift. apply apart_ne. apply (A t' P). left. reflexivity.
    + cbn. apply IH; auto. intros t1 P1 I1. apply (A t1 P1). right. exact I1.
Qed.
Lemma lead_inj sh ps ps' r r' : readable sh -> shaped sh ps -> shaped sh ps' -> closing r -> closing r' ->
  lead ps r = lead ps' r' -> ps = ps' /\ r = r'.
Proof.
  revert ps ps'. induction sh as [|[t P] sh IH]; intros [|[t1 o1] ps] [|[t2 o2] ps'] R S1 S2 C C' H; cbn in S1, S2; try contradiction; [auto|].
  destruct R as (T & D & A & R). destruct S1 as (<- & P1 & S1). destruct S2 as (<- & P2 & S2). cbn [lead] in H.
  destruct o1 as [c1|], o2 as [c2|].
  - rewrite !str_app_shift in H. apply str_app_cancel in H.
    destruct (D c1 c2 _ _ (P1 _ eq_refl) (P2 _ eq_refl) (lead_ends sh ps r R S1 C) (lead_ends sh ps' r' R S2 C') H) as [-> H'].
    destruct (IH ps ps' R S1 S2 C C' H') as [-> ->]. auto.
  - exfalso. rewrite str_app_shift in H. exact (lead_not sh ps' r' t _ R S2 C' T A H).
  - exfalso. rewrite str_app_shift in H. symmetry in H. exact (lead_not sh ps r t _ R S1 C T A H).
  - cbn in H. destruct (IH ps ps' R S1 S2 C C' H) as [-> ->]. auto.
Qed.

(** the same text as [join " "] makes it *)
Fixpoint spaced (l : list string) (r : string) : string :=
  match l with [] => r | e :: l => String " " (e ++ spaced l r)%string end.
Lemma join_spaced e l r : (String " " (join " " (e :: l) ++ r) = spaced (e :: l) r)%string.
Proof.
  revert e. induction l as [|e' l IH]; intros e; [reflexivity|].
  change (join " " (e :: e' :: l)) with (e ++ " " ++ join " " (e' :: l))%string. cbn [spaced]. rewrite !str_app_shift. cbn [append].
  rewrite IH. reflexivity.
Qed.
Lemma spaced_app l l' r : spaced (l ++ l') r = spaced l (spaced l' r).
Proof. induction l as [|e l IH]; [reflexivity|]. cbn. rewrite IH. reflexivity. Qed.

Lemma has_byte_app c a b : has_byte c (a ++ b) <-> has_byte c a \/ has_byte c b.
Proof. unfold has_byte. induction a as [|x a IH]; cbn; [tauto|]. rewrite IH. tauto. Qed.
(** lists of words *)
Lemma join_inj l l' : l <> [] -> l' <> [] -> (forall s, In s l -> ~ has_byte " " s) -> (forall s, In s l' -> ~ has_byte " " s) ->
  join " " l = join " " l' -> l = l'.
Proof.
  revert l'. induction l as [|e l IH]; intros l' N N' W W' H; [congruence|]. destruct l' as [|e' l']; [congruence|].
  destruct l as [|e1 l], l' as [|e1' l'].
  - cbn in H. congruence.
  - exfalso. change (join " " (e' :: e1' :: l')) with (e' ++ " " ++ join " " (e1' :: l'))%string in H. cbn [join] in H. apply (W e (or_introl eq_refl)). rewrite H. rewrite has_byte_app. right. left. reflexivity.
  - exfalso. change (join " " (e :: e1 :: l)) with (e ++ " " ++ join " " (e1 :: l))%string in H. cbn [join] in H. apply (W' e' (or_introl eq_refl)). rewrite <- H. rewrite has_byte_app. right. left. reflexivity.
  - change (join " " (e :: e1 :: l)) with (e ++ String " " (join " " (e1 :: l)))%string in H.
    change (join " " (e' :: e1' :: l')) with (e' ++ String " " (join " " (e1' :: l')))%string in H.
    destruct (cut_at " " e e' _ _ (W e (or_introl eq_refl)) (W' e' (or_introl eq_refl)) H) as [-> H']. f_equal.
    apply IH; try discriminate; [intros s I1; apply W; right; exact I1|intros s I1; apply W'; right; exact I1|exact H'].
Qed.
Lemma join_byte c l : c <> " "%char -> (forall s, In s l -> ~ has_byte c s) -> ~ has_byte c (join " " l).
Proof.
  intros N. induction l as [|e l IH]; intros W; [intros []|]. destruct l as [|e1 l]; [apply W; left; reflexivity|].
  change (join " " (e :: e1 :: l)) with (e ++ String " " (join " " (e1 :: l)))%string. rewrite has_byte_app. intros [H|[H|H]].
  - exact (W e (or_introl eq_refl) H).
  - congruence.
  - exact (IH (fun s I1 => W s (or_intror I1)) H).
Qed.

(** ** Durations and numbers are words *)
Lemma all_has P c s : all_of P s = true -> has_byte c s -> P c = true.
Proof.
  unfold has_byte. induction s as [|a s IH]; cbn; [intros _ []|]. intros H [->|I1]; apply andb_true_iff in H as [A B]; auto.
Qed.
Lemma duration_word d : wordy (DurationString d).
Proof. split; intros H; apply (all_has _ _ _ (duration_bytes d)) in H; discriminate. Qed.
Lemma itoa_word n : wordy (itoa n).
Proof. split; intros H; apply (all_has _ _ _ (all_itoa n)) in H; discriminate. Qed.
Lemma duration_inj d d' : int64 d -> int64 d' -> DurationString d = DurationString d' -> d = d'.
Proof.
  intros H H' E. pose proof (ParseDuration_String exact_part exact_part_ok d H) as A.
  rewrite E, (ParseDuration_String _ exact_part_ok d' H') in A. congruence.
Qed.
Lemma itoa_inj n n' : int64 n -> int64 n' -> itoa n = itoa n' -> n = n'.
Proof. intros H H' E. pose proof (Atoi_itoa n H) as A. rewrite E, (Atoi_itoa n' H') in A. congruence. Qed.
Lemma duration_nonempty d : int64 d -> DurationString d <> "".
Proof. intros H E. pose proof (ParseDuration_String exact_part exact_part_ok d H) as A. rewrite E in A. discriminate. Qed.

(** ** Filters *)
Section Filters.
Context {RE : Type}.
Implicit Types f g : Filter RE.

Definition flag (b : bool) : option string := if b then Some "" else None.
Definition filter_parts f : list part :=
  [ (" Sources=[", if 0 <? zlen (Sources f) then Some (join " " (Sources f) ++ "]")%string else None);
    (" IDs=[", if 0 <? zlen (IDs f) then Some (join " " (Sources f) ++ "]")%string else None);
    (" Category='", if negb (String.eqb (FCategory f) "") then Some (FCategory f ++ "'")%string else None);
    (" IsActive", flag (IsActive f));
    (" IsFinished", flag (IsFinished f));
    (" MinDuration=", match MinDuration f with Some d => Some (DurationString d) | None => None end);
    (" IsSuccess", flag (IsSuccess f));
    (" IsErrored", flag (IsErrored f));
    (" Query='", if negb (String.eqb (Query f) "") then Some (Query f ++ "'")%string else None) ].

Definition by_byte (d : ascii) (c : string) : Prop := exists x, ~ has_byte d x /\ c = (x ++ String d "")%string.
Definition filter_shape : shape :=
  [ (" Sources=[", by_byte "]"); (" IDs=[", by_byte "]"); (" Category='", by_byte "'"); (" IsActive", fun c => c = "");
    (" IsFinished", fun c => c = ""); (" MinDuration=", wordy); (" IsSuccess", fun c => c = ""); (" IsErrored", fun c => c = "");
    (" Query='", by_byte "'") ].

Lemma filter_readable : readable filter_shape.
Proof.
  cbn [filter_shape readable].
  repeat (split; [eexists; reflexivity|]; split;
    [first [apply delimited_by | apply delimited_empty | apply delimited_word]|];
    split; [cbn [In]; intros t' P' I1; repeat (destruct I1 as [I1|I1]; [injection I1 as <- _; reflexivity|]); contradiction|]).
  exact Logic.I.
Qed.
Lemma filter_shaped f : plain f -> shaped filter_shape (filter_parts f).
Proof.
  intros (HS & HC & HQ & HD).
  assert (B : forall c, Some (join " " (Sources f) ++ "]")%string = Some c -> by_byte "]" c).
  { intros c E. injection E as <-. eexists. split; [|reflexivity]. apply join_byte; [discriminate|]. intros s I1. apply (HS s I1). }
  cbn [filter_shape filter_parts shaped].
  split; [reflexivity|]. split; [intros c; destruct (0 <? zlen (Sources f)); [apply B|discriminate]|].
  split; [reflexivity|]. split; [intros c; destruct (0 <? zlen (IDs f)); [apply B|discriminate]|].
  split; [reflexivity|]. split; [intros c; destruct (negb _); [intros E; injection E as <-; eexists; split; [exact HC|reflexivity]|discriminate]|].
  split; [reflexivity|]. split; [intros c; destruct (IsActive f); cbn; congruence|].
  split; [reflexivity|]. split; [intros c; destruct (IsFinished f); cbn; congruence|].
  split; [reflexivity|]. split; [intros c; destruct (MinDuration f); [intros E; injection E as <-; apply duration_word|discriminate]|].
  split; [reflexivity|]. split; [intros c; destruct (IsSuccess f); cbn; congruence|].
  split; [reflexivity|]. split; [intros c; destruct (IsErrored f); cbn; congruence|].
  split; [reflexivity|]. split; [intros c; destruct (negb _); [intros E; injection E as <-; eexists; split; [exact HQ|reflexivity]|discriminate]|].
  exact Logic.I.
Qed.

Lemma part_spaced (b : bool) (t c r : string) : spaced (if b then [(t ++ c)%string] else []) r =
  ((match (if b then Some c else None) with Some c => String " " t ++ c | None => "" end) ++ r)%string.
Proof. destruct b; [|reflexivity]. cbn. reflexivity. Qed.
Lemma flag_spaced (b : bool) (t r : string) : spaced (if b then [t] else []) r =
  ((match flag b with Some c => String " " t ++ c | None => "" end) ++ r)%string.
Proof. destruct b; [|reflexivity]. cbn. rewrite str_app_nil_r. reflexivity. Qed.
Lemma filter_spaced f r : spaced (filter_elems f) r = lead (filter_parts f) r.
Proof.
  unfold filter_elems, filter_parts, print_strings. cbn [lead]. rewrite !spaced_app, !flag_spaced.
  destruct (0 <? zlen (Sources f)), (0 <? zlen (IDs f)), (negb (String.eqb (FCategory f) "")), (negb (String.eqb (Query f) "")), (MinDuration f);
  cbn; rewrite ?str_app_shift; reflexivity.
Qed.

Lemma elems_nil f : filter_elems f = [] <-> unconditional f.
Proof.
  unfold filter_elems, unconditional. split.
  - intros H. repeat (apply app_eq_nil in H as [? H]).
    destruct (Sources f); [|discriminate]. destruct (IDs f); [|discriminate].
    destruct (String.eqb_spec (FCategory f) ""); [|discriminate]. destruct (IsActive f); [discriminate|]. destruct (IsFinished f); [discriminate|].
    destruct (MinDuration f); [discriminate|]. destruct (IsSuccess f); [discriminate|]. destruct (IsErrored f); [discriminate|].
    destruct (String.eqb_spec (Query f) ""); [|discriminate]. repeat split; auto.
  - intros (-> & -> & -> & -> & -> & -> & -> & -> & ->). reflexivity.
Qed.
Lemma FilterString_cases f : (unconditional f /\ FilterString f = "(allow all)") \/
  (~ unconditional f /\ forall r, String " " (FilterString f ++ r) = lead (filter_parts f) r).
Proof.
  unfold FilterString. destruct (filter_elems f) as [|e l] eqn:E.
  - left. split; [apply elems_nil; exact E|reflexivity].
  - right. split; [intros H; apply elems_nil in H; congruence|]. intros r. rewrite <- filter_spaced, E.
    replace (zlen (e :: l) <=? 0) with false; [apply join_spaced|]. symmetry. apply Z.leb_gt. unfold zlen. cbn [length]. lia.
Qed.
Lemma lead_first f r x : ~ unconditional f -> lead (filter_parts f) r <> String " " (String "(" x).
Proof.
  intros N H. apply N. clear N. revert H. unfold unconditional, filter_parts. cbn [lead].
  destruct (Sources f); [|discriminate]. cbn [zlen length]. change (0 <? zlen (@nil string)) with false. cbn [append].
  destruct (IDs f); [|discriminate]. change (0 <? zlen (@nil string)) with false. cbn [append].
  destruct (String.eqb_spec (FCategory f) ""); [|discriminate]. cbn [negb append]. destruct (IsActive f); [discriminate|]. destruct (IsFinished f); [discriminate|].
  destruct (MinDuration f); [discriminate|]. destruct (IsSuccess f); [discriminate|]. destruct (IsErrored f); [discriminate|].
  destruct (String.eqb_spec (Query f) ""); [|discriminate]. repeat split; auto.
Qed.

Lemma zlen_pos {A} (l : list A) : (0 <? zlen l) = true <-> l <> [].
Proof. unfold zlen. destruct l; cbn [length]; [split; [discriminate|congruence]|]. rewrite Z.ltb_lt. split; [discriminate|lia]. Qed.
Lemma zlen_zero {A} (l : list A) : (0 <? zlen l) = false <-> l = [].
Proof. unfold zlen. destruct l; cbn [length]; [split; reflexivity|]. rewrite Z.ltb_ge. split; [lia|discriminate]. Qed.
Lemma str_app_cancel_r (a b c : string) (d : ascii) : ~ has_byte d a -> ~ has_byte d b -> (a ++ String d "" = b ++ String d "")%string -> a = b.
Proof. intros A B H. exact (proj1 (cut_at d a b "" "" A B H)). Qed.

Lemma parts_same f g : plain f -> plain g -> filter_parts f = filter_parts g -> same_but_ids f g.
Proof.
  intros (HS & HC & HQ & HD) (HS' & HC' & HQ' & HD') E. unfold filter_parts in E.
  injection E as E1 E2 E3 E4 E5 E6 E7 E8 E9.
  unfold same_but_ids. repeat split.
  - destruct (0 <? zlen (Sources f)) eqn:A, (0 <? zlen (Sources g)) eqn:B; try discriminate.
    + injection E1 as E1. apply zlen_pos in A, B. apply join_inj; auto; [intros s I1; apply (HS s I1)|intros s I1; apply (HS' s I1)|].
      apply (str_app_cancel_r _ _ "" "]"); [| |exact E1]; apply join_byte; try discriminate; intros s I1; [apply (HS s I1)|apply (HS' s I1)].
    + apply zlen_zero in A, B. congruence.
  - intros I1. destruct (0 <? zlen (IDs f)) eqn:A, (0 <? zlen (IDs g)) eqn:B; try discriminate; [apply zlen_pos in A; congruence|apply zlen_zero in B; exact B].
  - intros I1. destruct (0 <? zlen (IDs f)) eqn:A, (0 <? zlen (IDs g)) eqn:B; try discriminate; [apply zlen_pos in B; congruence|apply zlen_zero in A; exact A].
  - destruct (String.eqb_spec (FCategory f) ""), (String.eqb_spec (FCategory g) ""); try discriminate; [congruence|]. cbn [negb] in E3. injection E3 as E3.
    exact (str_app_cancel_r _ _ "" "'" HC HC' E3).
  - destruct (IsActive f), (IsActive g); try reflexivity; discriminate.
  - destruct (IsFinished f), (IsFinished g); try reflexivity; discriminate.
  - destruct (MinDuration f) as [d|] eqn:A, (MinDuration g) as [d'|] eqn:B; try reflexivity; try discriminate. injection E6 as E6. f_equal.
    apply duration_inj; [apply HD; reflexivity|apply HD'; reflexivity|exact E6].
  - destruct (IsSuccess f), (IsSuccess g); try reflexivity; discriminate.
  - destruct (IsErrored f), (IsErrored g); try reflexivity; discriminate.
  - destruct (String.eqb_spec (Query f) ""), (String.eqb_spec (Query g) ""); try discriminate; [congruence|]. cbn [negb] in E9. injection E9 as E9.
    exact (str_app_cancel_r _ _ "" "'" HQ HQ' E9).
Qed.
Lemma unconditional_same f g : unconditional f -> unconditional g -> same_but_ids f g.
Proof.
  intros (A1 & A2 & A3 & A4 & A5 & A6 & A7 & A8 & A9) (B1 & B2 & B3 & B4 & B5 & B6 & B7 & B8 & B9). unfold same_but_ids.
  rewrite A1, A2, A3, A4, A5, A6, A7, A8, A9, B1, B2, B3, B4, B5, B6, B7, B8, B9. tauto.
Qed.
Lemma FilterString_app f g r r' : plain f -> plain g -> closing r -> closing r' -> (FilterString f ++ r = FilterString g ++ r')%string ->
  same_but_ids f g /\ r = r'.
Proof.
  intros Pf Pg C C' H. destruct (FilterString_cases f) as [[U E]|[U E]], (FilterString_cases g) as [[U' E']|[U' E']].
  - rewrite E, E' in H. apply str_app_cancel in H. split; [apply unconditional_same; auto|exact H].
  - exfalso. apply (lead_first g r' ("allow all)" ++ r)%string U'). rewrite <- E', <- H, E. reflexivity.
  - exfalso. apply (lead_first f r ("allow all)" ++ r')%string U). rewrite <- E, H, E'. reflexivity.
  - assert (L : lead (filter_parts f) r = lead (filter_parts g) r') by (rewrite <- E, <- E', H; reflexivity).
    destruct (lead_inj filter_shape _ _ _ _ filter_readable (filter_shaped f Pf) (filter_shaped g Pg) C C' L) as [Q ->].
    split; [apply parts_same; auto|reflexivity].
Qed.
End Filters.

(** ** C80 *)
(** The text says "(allow all)" exactly when no condition is stated, whatever the texts are. *)
Theorem C80_allow_all :
  forall RE (f : Filter RE), FilterString f = "(allow all)" <-> unconditional f.
Proof.
  intros RE f. destruct (FilterString_cases f) as [[U E]|[U E]]; [tauto|]. split; [|tauto]. intros H. exfalso.
  apply (lead_first f "" "allow all)" U). rewrite <- (E ""), H. reflexivity.
Qed.
Print Assumptions C80_allow_all.

(** And then every trace is allowed, provided no expression is left over from an earlier query. *)
Theorem C80_allow_all_allows_all :
  forall RE Compile MatchString (f : Filter RE) tr,
  FilterString f = "(allow all)" -> f_regexp f = None -> Allow Compile MatchString f tr = (f, true).
Proof.
  intros RE Compile MatchString f tr H R. apply C80_allow_all in H as (A1 & A2 & A3 & A4 & A5 & A6 & A7 & A8 & A9).
  unfold Allow, initializeQueryRegexp. rewrite A1, A2, A3, A4, A5, A6, A7, A8, A9, R. cbn. rewrite R. reflexivity.
Qed.
Print Assumptions C80_allow_all_allows_all.

(** Two filters that look the same state the same conditions, except for the trace IDs. *)
Theorem C80_filter_text_tells :
  forall RE (f g : Filter RE), plain f -> plain g -> FilterString f = FilterString g -> same_but_ids f g.
Proof.
  intros RE f g Pf Pg H. apply (FilterString_app f g "" ""); auto; try exact Logic.I. rewrite H. reflexivity.
Qed.
Print Assumptions C80_filter_text_tells.

(** Filters with the same conditions look the same. *)
Theorem C80_same_filters_look_the_same :
  forall RE (f g : Filter RE), same_but_ids f g -> FilterString f = FilterString g.
Proof.
  intros RE f g (A1 & A2 & A3 & A4 & A5 & A6 & A7 & A8 & A9). unfold FilterString, filter_elems. rewrite A1, A3, A4, A5, A6, A7, A8, A9.
  replace (0 <? zlen (IDs g)) with (0 <? zlen (IDs f)); [reflexivity|].
  destruct (0 <? zlen (IDs f)) eqn:A, (0 <? zlen (IDs g)) eqn:B; try reflexivity.
  - apply zlen_zero, A2, zlen_zero in B. congruence.
  - apply zlen_zero, A2, zlen_zero in A. congruence.
Qed.
Print Assumptions C80_same_filters_look_the_same.

Definition depth_part (d : Z) : string := if negb (d =? 0) then (" StackDepth:" ++ itoa d)%string else "".
Lemma RequestString_spaced RE (a : SearchRequest RE) : String " " (RequestString a) =
  ((if negb (durations_eqb (req_Bucketing a) DefaultBucketing) then " Bucketing:[" ++ join " " (map DurationString (req_Bucketing a)) ++ "]" else "") ++
   " Filter:[" ++ FilterString (req_Filter a) ++ "] Limit:" ++ itoa (req_Limit a) ++ depth_part (req_StackDepth a))%string.
Proof.
  unfold RequestString, depth_part. set (F := FilterString (req_Filter a)). set (B := join " " (map DurationString (req_Bucketing a))).
  rewrite <- (str_app_nil_r (join _ _)).
  destruct (negb (durations_eqb (req_Bucketing a) DefaultBucketing)); cbn [app]; rewrite join_spaced; destruct (negb (req_StackDepth a =? 0)); cbn [app spaced];
  cbn [append]; repeat (rewrite str_app_shift; cbn [append]); rewrite ?str_app_nil_r; reflexivity.
Qed.
Lemma map_duration_inj l l' : (forall d, In d l -> int64 d) -> (forall d, In d l' -> int64 d) -> map DurationString l = map DurationString l' -> l = l'.
Proof.
  revert l'. induction l as [|d l IH]; intros [|d' l'] H H' E; cbn in E; try discriminate; [reflexivity|]. injection E as E1 E2.
  f_equal; [apply duration_inj; [apply H; left; reflexivity|apply H'; left; reflexivity|exact E1]|].
  apply IH; [intros x I1; apply H; right; exact I1|intros x I1; apply H'; right; exact I1|exact E2].
Qed.
Lemma join_nonempty d l : int64 d -> join " " (map DurationString (d :: l)) <> "".
Proof.
  intros H. cbn [map]. destruct (map DurationString l) as [|e m]; [apply duration_nonempty; exact H|].
  change (join " " (DurationString d :: e :: m)) with (DurationString d ++ " " ++ join " " (e :: m))%string.
  destruct (DurationString d); discriminate.
Qed.
Lemma join_durations_inj l l' : (forall d, In d l -> int64 d) -> (forall d, In d l' -> int64 d) ->
  join " " (map DurationString l) = join " " (map DurationString l') -> l = l'.
Proof.
  intros H H' E. destruct l as [|d l], l' as [|d' l'].
  - reflexivity.
  - exfalso. symmetry in E. apply (join_nonempty d' l'); [apply H'; left; reflexivity|exact E].
  - exfalso. apply (join_nonempty d l); [apply H; left; reflexivity|exact E].
  - apply map_duration_inj; auto. apply join_inj; auto; try discriminate; intros s I1; apply in_map_iff in I1 as (x & <- & _); apply duration_word.
Qed.
Lemma depth_ends d : ends (depth_part d).
Proof. unfold depth_part. destruct (negb (d =? 0)); cbn; auto. Qed.
Lemma depth_inj d d' : int64 d -> int64 d' -> depth_part d = depth_part d' -> d = d'.
Proof.
  unfold depth_part. intros H H'. destruct (Z.eqb_spec d 0), (Z.eqb_spec d' 0); cbn [negb]; intros E; try discriminate; [congruence|].
  injection E as E. apply itoa_inj; auto.
Qed.

(** Two requests that look the same ask for the same, except for the trace IDs. *)
Theorem C80_request_text_tells :
  forall RE (a b : SearchRequest RE), plain_request a -> plain_request b -> RequestString a = RequestString b ->
  req_Bucketing a = req_Bucketing b /\ same_but_ids (req_Filter a) (req_Filter b) /\
  req_Limit a = req_Limit b /\ req_StackDepth a = req_StackDepth b.
Proof.
  intros RE a b (PF & PB & PL & PD) (PF' & PB' & PL' & PD') H. apply (f_equal (String " ")) in H. rewrite !RequestString_spaced in H.
  assert (REST : (" Filter:[" ++ FilterString (req_Filter a) ++ "] Limit:" ++ itoa (req_Limit a) ++ depth_part (req_StackDepth a) =
                  " Filter:[" ++ FilterString (req_Filter b) ++ "] Limit:" ++ itoa (req_Limit b) ++ depth_part (req_StackDepth b))%string ->
    same_but_ids (req_Filter a) (req_Filter b) /\ req_Limit a = req_Limit b /\ req_StackDepth a = req_StackDepth b).
  { intros E. apply str_app_cancel in E. apply FilterString_app in E as [S E]; auto; try reflexivity. split; [exact S|]. apply (str_app_cancel "] Limit:") in E.
    destruct (delimited_word _ _ _ _ (itoa_word _) (itoa_word _) (depth_ends _) (depth_ends _) E) as [E1 E2].
    split; [apply itoa_inj; auto|apply depth_inj; auto]. }
  assert (NB : forall l, ~ has_byte "]" (join " " (map DurationString l))).
  { intros l. apply join_byte; [discriminate|]. intros s I1. apply in_map_iff in I1 as (x & <- & _). apply duration_word. }
  unfold durations_eqb in H.
  destruct (list_eq_dec Z.eq_dec (req_Bucketing a) DefaultBucketing) as [A|A], (list_eq_dec Z.eq_dec (req_Bucketing b) DefaultBucketing) as [B|B]; cbn [negb] in H.
  - split; [congruence|]. apply REST. exact H.
  - exfalso. cbn [append] in H. discriminate.
  - exfalso. cbn [append] in H. discriminate.
  - rewrite !str_app_shift in H. apply (str_app_cancel " Bucketing:[") in H. cbn [append] in H. apply cut_at in H as [E1 E2]; auto.
    split; [apply join_durations_inj; auto|]. apply REST. exact E2.
Qed.
Print Assumptions C80_request_text_tells.

(** Requests that ask for the same look the same. *)
Theorem C80_same_requests_look_the_same :
  forall RE (a b : SearchRequest RE),
  req_Bucketing a = req_Bucketing b -> same_but_ids (req_Filter a) (req_Filter b) ->
  req_Limit a = req_Limit b -> req_StackDepth a = req_StackDepth b -> RequestString a = RequestString b.
Proof.
  intros RE a b A B C D. unfold RequestString. rewrite A, C, D, (C80_same_filters_look_the_same RE _ _ B). reflexivity.
Qed.
Print Assumptions C80_same_requests_look_the_same.

(** Finding (filter.go:45): the IDs are not in the text; the sources are printed in their place.
    Two filters that select different traces look the same. *)
Theorem C80_ids_refuted :
  let with_id i := @MkFilter unit [] [i] "" false false None false false "" None in
  FilterString (with_id "01H") = FilterString (with_id "01J") /\ FilterString (with_id "01H") = "IDs=[]" /\
  forall Compile MatchString, exists tr,
    snd (Allow Compile MatchString (with_id "01H") tr) = true /\ snd (Allow Compile MatchString (with_id "01J") tr) = false.
Proof.
  cbv zeta. split; [reflexivity|]. split; [reflexivity|]. intros. exists (MkStatic "" "01H" "" 0 0 "" false false []). split; reflexivity.
Qed.
Print Assumptions C80_ids_refuted.

(** Finding: quotes in a category are not escaped, so different filters can look the same. *)
Theorem C80_quotes_refuted :
  let f c q := @MkFilter unit [] [] c false false None false false q None in
  FilterString (f "a' Query='b" "") = FilterString (f "a" "b").
Proof. reflexivity. Qed.
Print Assumptions C80_quotes_refuted.

(** Finding: a filter that was normalized and whose query was emptied afterwards says that it
    allows all, and does not. *)
Theorem C80_leftover_expression_refuted :
  let Compile (q : string) : string + string := inl q in
  let f := set_query (fst (FilterNormalize Compile (@MkFilter string [] [] "" false false None false false "x" None))) "" in
  FilterString f = "(allow all)" /\ forall tr, TraceEvents tr = [] -> snd (Allow Compile (fun re s => String.eqb re s) f tr) = false.
Proof. cbv zeta. split; [reflexivity|]. intros tr H. cbn. rewrite H. reflexivity. Qed.
Print Assumptions C80_leftover_expression_refuted.

(** A filter and a request with something in every place meet the hypotheses. *)
Example C80_instance :
  let f := @MkFilter unit ["a"; "b"] ["01H"] "web" true false (Some (1500 * 1000 * 1000)) false true "x y" None in
  let r := @MkReq unit [0; 1000] f 10 (-1) in
  plain_request r /\
  RequestString r = ("Bucketing:[0s 1" ++ micro ++ "s] Filter:[Sources=[a b] IDs=[a b] Category='web' IsActive MinDuration=1.5s IsErrored Query='x y'] Limit:10 StackDepth:-1")%string /\
  RequestString (@MkReq unit DefaultBucketing (@MkFilter unit [] [] "" false false None false false "" None) 10 0) = "Filter:[(allow all)] Limit:10".
Proof.
  cbv zeta. split; [|split; reflexivity].
  unfold plain_request, plain, has_byte, int64. change two63 with 9223372036854775808. cbn.
  split; [split; [|split; [|split]]|split; [|split]]; try lia; try (intuition congruence).
  - intros s [<-|[<-|[]]]; cbn; intuition congruence.
  - intros d E. injection E as <-. lia.
Qed.

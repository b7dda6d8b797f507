(** Lemmas about the text of event streams. *)
From Verif Require Import Go L_List M_Strings L_Strings M_Json S_Json P_Json M_JsonText S_JsonText L_JsonText L_JsonRead L_JsonWrite M_EventSource S_EventSource.
Open Scope list_scope.
Open Scope string_scope.

(** *** Valid text *)
Lemma valid_iff s : valid s = true <-> utf8 s.
Proof.
  unfold valid. rewrite String.eqb_eq. split; [intros <-; apply (to_utf8_valid (String.length s)); lia|apply valid_unchanged].
Qed.
Lemma utf8_app a b : utf8 a -> utf8 b -> utf8 (a ++ b).
Proof. intros H. induction H; cbn [append]; intros Hb; [exact Hb|apply utf8_1; auto|apply utf8_2; auto|apply utf8_3; auto|apply utf8_4; auto]. Qed.
Lemma newline_byte : nat_of_ascii newline = 10%nat.
Proof. reflexivity. Qed.
Lemma utf8_split : forall s, utf8 s -> forall a b, s = a ++ String newline b -> utf8 a /\ utf8 b.
Proof.
  induction 1 as [|x s Hx H IH|x y s Hx H IH|x y z s Hx H IH|x y z w s Hx H IH]; intros a b E.
  - destruct a; discriminate.
  - destruct a as [|c a]; cbn [append] in E; injection E as E1 E2; [rewrite <- E2; split; [constructor|exact H]|].
    destruct (IH a b E2) as [I1 I2]. subst c. split; [apply utf8_1; assumption|exact I2].
  - destruct a as [|c [|c2 a]]; cbn [append] in E; injection E as E1 E2; unfold well_formed2, in_range in Hx; subst; rewrite ?newline_byte in *; try lia.
    destruct (IH a b eq_refl) as [I1 I2]. split; [apply utf8_2; [exact Hx|assumption]|exact I2].
  - destruct a as [|c [|c2 [|c3 a]]]; cbn [append] in E; injection E as E1 E2; unfold well_formed3, in_range in Hx; subst; rewrite ?newline_byte in *; try lia.
    destruct (IH a b eq_refl) as [I1 I2]. split; [apply utf8_3; [exact Hx|assumption]|exact I2].
  - destruct a as [|c [|c2 [|c3 [|c4 a]]]]; cbn [append] in E; injection E as E1 E2; unfold well_formed4, in_range in Hx; subst; rewrite ?newline_byte in *; try lia.
    destruct (IH a b eq_refl) as [I1 I2]. split; [apply utf8_4; [exact Hx|assumption]|exact I2].
Qed.

(** *** Splitting into lines *)
Definition no_nl (s : string) : Prop := all_bytes_in (fun n => n <> 10)%Z s.
Definition no_cr (s : string) : Prop := all_bytes_in (fun n => n <> 13)%Z s.
Lemma nl_iff a : Ascii.eqb a newline = true <-> code a = 10%Z.
Proof.
  rewrite Ascii.eqb_eq, code_byte. split; [intros ->; reflexivity|]. intros H. apply byte_inj. unfold newline. rewrite byte_chr by lia. lia.
Qed.
Lemma nl_false a : code a <> 10%Z -> Ascii.eqb a newline = false.
Proof. intros H. destruct (Ascii.eqb a newline) eqn:E; [|reflexivity]. apply nl_iff in E. contradiction. Qed.
Lemma split_nonnil s : split_nl s <> [].
Proof. destruct s as [|a r]; cbn [split_nl]; [discriminate|]. destruct (Ascii.eqb a newline); [discriminate|]. destruct (split_nl r); discriminate. Qed.
Fixpoint join_nl (ls : list string) : string := match ls with [] => "" | [l] => l | l :: ls => l ++ String newline (join_nl ls) end.
Lemma join_cons a l ls : join_nl (String a l :: ls) = String a (join_nl (l :: ls)).
Proof. destruct ls; reflexivity. Qed.
Lemma join_split s : join_nl (split_nl s) = s.
Proof.
  induction s as [|a r IH]; [reflexivity|]. cbn [split_nl]. pose proof (split_nonnil r) as N. destruct (split_nl r) as [|l ls]; [congruence|].
  destruct (Ascii.eqb a newline) eqn:E.
  - apply Ascii.eqb_eq in E. subst a. change (join_nl ("" :: l :: ls)) with (String newline (join_nl (l :: ls))). rewrite IH. reflexivity.
  - rewrite join_cons, IH. reflexivity.
Qed.
Lemma split_one s : no_nl s -> split_nl s = [s].
Proof. induction s as [|a r IH]; [reflexivity|]. intros [H1 H2]. cbn [split_nl]. rewrite nl_false by exact H1. rewrite IH by exact H2. reflexivity. Qed.
Lemma split_no_nl s : Forall no_nl (split_nl s).
Proof.
  induction s as [|a r IH]; [repeat constructor|]. cbn [split_nl]. destruct (Ascii.eqb a newline) eqn:E; [constructor; [exact Logic.I|exact IH]|].
  assert (N : code a <> 10%Z) by (intros X; apply nl_iff in X; congruence).
  destruct (split_nl r) as [|l ls]; [repeat constructor; exact N|]. inversion IH; subst. constructor; [split; assumption|assumption].
Qed.
Lemma split_no_cr s : no_cr s -> Forall no_cr (split_nl s).
Proof.
  induction s as [|a r IH]; [repeat constructor|]. intros [H1 H2]. specialize (IH H2). cbn [split_nl]. destruct (Ascii.eqb a newline) eqn:E; [constructor; [exact Logic.I|exact IH]|].
  destruct (split_nl r) as [|l ls]; [repeat constructor; exact H1|]. inversion IH; subst. constructor; [split; assumption|assumption].
Qed.
Lemma join_utf8 ls : ls <> [] -> utf8 (join_nl ls) -> Forall utf8 ls.
Proof.
  induction ls as [|l ls IH]; [congruence|]. intros _ H. destruct ls as [|l' ls]; [repeat constructor; exact H|].
  change (join_nl (l :: l' :: ls)) with (l ++ String newline (join_nl (l' :: ls))) in H. destruct (utf8_split _ H _ _ eq_refl) as [H1 H2]. constructor; [exact H1|]. apply IH; [discriminate|exact H2].
Qed.

(** lines, each with its newline *)
Definition line_of (field v : string) : string := field ++ (if is_empty v then "" else ": " ++ v).
Fixpoint with_nl (ls : list string) : string := match ls with [] => "" | l :: ls => l ++ String newline (with_nl ls) end.
Lemma with_nl_app a b : with_nl (a ++ b)%list = with_nl a ++ with_nl b.
Proof. induction a as [|l a IH]; [reflexivity|]. cbn [List.app with_nl]. rewrite IH, sapp_assoc. reflexivity. Qed.
Lemma concat_cons a l : String.concat "" (a :: l) = a ++ String.concat "" l.
Proof. destruct l; cbn; [rewrite str_app_nil_r|]; reflexivity. Qed.
Lemma concat_lines field vs : String.concat "" (map (write_line field) vs) = with_nl (map (line_of field) vs).
Proof.
  induction vs as [|v vs IH]; [reflexivity|]. cbn [map with_nl]. rewrite concat_cons, IH. unfold write_line, line_of. rewrite !sapp_assoc. reflexivity.
Qed.
Definition body (e : message) : list string := (map (line_of "event") (split_nl (m_type e)) ++ map (line_of "data") (split_nl (m_data e)))%list.
Lemma send_lines e : sendable e -> send e = (with_nl (body e ++ [""]), true).
Proof.
  intros (T1 & T2 & T3 & D1 & D2 & D3). unfold send, write_field. assert (V : forall s, valid s = true <-> utf8 s) by exact valid_iff.
  rewrite (proj2 (V _) T3), (proj2 (V _) D3). change (valid "event") with true. change (valid "data") with true. cbn [andb].
  destruct (m_type e) eqn:E; [congruence|]. cbn [is_empty]. rewrite <- E. unfold and_then. cbn [fst snd]. rewrite !concat_lines, with_nl_app. unfold body. rewrite with_nl_app, sapp_assoc. reflexivity.
Qed.

(** *** Reading lines *)
Lemma raw_line l r : no_nl l -> raw_lines (l ++ String newline r) = (l, true) :: raw_lines r.
Proof. induction l as [|a l IH]; [reflexivity|]. intros [H1 H2]. cbn [append raw_lines]. rewrite nl_false by exact H1. rewrite IH by exact H2. reflexivity. Qed.
Lemma raw_rest q : no_nl q -> raw_lines q = match q with "" => [] | _ => [(q, false)] end.
Proof. induction q as [|a q IH]; [reflexivity|]. intros [H1 H2]. cbn [raw_lines]. rewrite nl_false by exact H1. rewrite IH by exact H2. destruct q; reflexivity. Qed.
Lemma drop_cr_none l : no_cr l -> drop_cr l = l.
Proof.
  induction l as [|a l IH]; [reflexivity|]. intros [H1 H2]. specialize (IH H2). cbn [drop_cr]. destruct l as [|b l]; [|rewrite IH; reflexivity].
  destruct (Nat.eqb_spec (byte a) 13) as [E|_]; [|reflexivity]. rewrite code_byte in H1. lia.
Qed.
Lemma read_lines_app ls r : Forall (fun l => no_nl l /\ no_cr l) ls -> read_lines (with_nl ls ++ r) = (ls ++ read_lines r)%list.
Proof.
  induction 1 as [|l ls [H1 H2] F IH]; [reflexivity|]. cbn [with_nl]. rewrite sapp_assoc. cbn [append]. unfold read_lines in *. rewrite raw_line by exact H1. cbn [map fst snd]. rewrite drop_cr_none by exact H2. rewrite IH. reflexivity.
Qed.
Lemma read_lines_rest q : no_nl q -> read_lines q = match q with "" => [] | _ => [q] end.
Proof. intros H. unfold read_lines. rewrite raw_rest by exact H. destruct q; reflexivity. Qed.

(** *** The lines of a message *)
Lemma all_bytes_true (P : Z -> Prop) s : (forall n, P n) -> all_bytes_in P s.
Proof. intros H. induction s; [exact Logic.I|]. split; auto. Qed.
Lemma line_of_bytes (P : Z -> Prop) field v : all_bytes_in P field -> P 58%Z -> P 32%Z -> all_bytes_in P v -> all_bytes_in P (line_of field v).
Proof.
  intros H1 H2 H3 H4. unfold line_of. apply all_bytes_app. split; [exact H1|]. destruct (is_empty v); [exact Logic.I|]. apply all_bytes_app. split; [split; [exact H2|split; [exact H3|exact Logic.I]]|exact H4].
Qed.
Lemma no_both s : all_bytes_in (fun n => n <> 10 /\ n <> 13)%Z s -> no_nl s /\ no_cr s.
Proof. intros H. split; (eapply all_bytes_impl; [|exact H]); cbn; intros; lia. Qed.
Ltac plain := cbv; repeat split; discriminate.
Lemma body_plain e : sendable e -> Forall (fun l => no_nl l /\ no_cr l) (body e).
Proof.
  intros (T1 & T2 & T3 & D1 & D2 & D3). destruct (no_both _ T2) as [T4 T5]. unfold body. apply Forall_app. split; apply Forall_map.
  - rewrite (split_one _ T4). apply Forall_cons; [|apply Forall_nil]. split; (apply line_of_bytes; [plain|discriminate|discriminate|assumption]).
  - pose proof (split_no_nl (m_data e)) as A. pose proof (split_no_cr (m_data e) D2) as B. rewrite Forall_forall in *. intros v Hv.
    split; (apply line_of_bytes; [plain|discriminate|discriminate|]); [exact (A v Hv)|exact (B v Hv)].
Qed.
(** the first byte of every line but the last is not a colon *)
Definition opens (l : string) : Prop := match l with "" => False | String a _ => Ascii.eqb a ":" = false end.
Lemma body_opens e : Forall opens (body e).
Proof. unfold body. apply Forall_app. split; apply Forall_map, Forall_forall; intros v _; reflexivity. Qed.
Lemma step_opens p out l : opens l -> exists p', read_step (p, out) l = (p', out).
Proof.
  intros H. unfold read_step, read_field. destruct l as [|a l]; [destruct H|]. cbn [split_colon]. cbn in H. rewrite H. destruct (split_colon l) as [f v].
  destruct (negb _); [eexists; reflexivity|]. cbn [is_empty andb]. destruct (String.eqb _ _); [eexists; reflexivity|]. destruct (String.eqb _ _); eexists; reflexivity.
Qed.
Lemma steps_open ls : forall p out, Forall opens ls -> exists p', fold_left read_step ls (p, out) = (p', out).
Proof.
  induction ls as [|l ls IH]; intros p out H; [eexists; reflexivity|]. inversion H; subst. cbn [fold_left]. destruct (step_opens p out l) as [p1 E]; [assumption|]. rewrite E. apply IH. assumption.
Qed.

Lemma split_colon_field field v : all_bytes_in (fun n => n <> 58)%Z field -> split_colon (field ++ String ":" v) = (field, v) /\ split_colon field = (field, "").
Proof.
  induction field as [|a r IH]; [split; reflexivity|]. intros [H1 H2]. destruct (IH H2) as [I1 I2]. cbn [append split_colon].
  assert (E : Ascii.eqb a ":" = false) by (destruct (Ascii.eqb_spec a ":") as [->|]; [exfalso; apply H1; reflexivity|reflexivity]). rewrite E, I1, I2. split; reflexivity.
Qed.
Lemma read_field_line field v : all_bytes_in (fun n => n <> 58)%Z field -> read_field (line_of field v) = (field, v).
Proof.
  intros H. destruct (split_colon_field field (String " " v) H) as [H1 H2]. unfold read_field, line_of. destruct v as [|a v]; cbn [is_empty].
  - rewrite str_app_nil_r, H2. reflexivity.
  - change (": " ++ String a v) with (String ":" (String " " (String a v))). rewrite H1. reflexivity.
Qed.
Lemma read_event p out v : utf8 v -> read_step (p, out) (line_of "event" v) = (MkPartial v (p_data p), out).
Proof.
  intros H. unfold read_step. rewrite read_field_line by plain. apply valid_iff in H. rewrite H. reflexivity.
Qed.
Definition more (d : option string) (v : string) : string := match d with None => v | Some d => d ++ String newline v end.
Lemma read_data p out v : utf8 v -> read_step (p, out) (line_of "data" v) = (MkPartial (p_type p) (Some (more (p_data p) v)), out).
Proof.
  intros H. unfold read_step. rewrite read_field_line by plain. apply valid_iff in H. rewrite H. reflexivity.
Qed.
Lemma read_datas vs : forall p out, Forall utf8 vs -> vs <> [] ->
  fold_left read_step (map (line_of "data") vs) (p, out) = (MkPartial (p_type p) (Some (more (p_data p) (join_nl vs))), out).
Proof.
  induction vs as [|v vs IH]; intros p out H N; [congruence|]. inversion H; subst. cbn [map fold_left]. rewrite read_data by assumption.
  destruct vs as [|v' vs]; [reflexivity|]. rewrite IH by (assumption || discriminate). cbn [p_type p_data]. f_equal. f_equal. f_equal.
  change (join_nl (v :: v' :: vs)) with (v ++ String newline (join_nl (v' :: vs))). unfold more at 1. destruct (p_data p); cbn [more]; [rewrite sapp_assoc|]; reflexivity.
Qed.
Lemma read_message e out : sendable e -> fold_left read_step (body e ++ [""])%list (start, out) = (start, (out ++ [e])%list).
Proof.
  intros (T1 & T2 & T3 & D1 & D2 & D3). destruct (no_both _ T2) as [T4 T5]. unfold body. rewrite !fold_left_app, (split_one _ T4). cbn [map fold_left]. rewrite read_event by exact T3.
  rewrite read_datas; [|apply join_utf8; [apply split_nonnil|rewrite join_split; exact D3]|apply split_nonnil]. rewrite join_split. cbn [p_type p_data start more].
  unfold read_step, read_field. cbn [split_colon drop_space]. change (valid "") with true. cbn [negb andb is_empty]. unfold complete. cbn [p_data p_type].
  destruct e as [ty d]. cbn [m_type m_data] in *. destruct d; [congruence|reflexivity].
Qed.

(** *** A text that is cut off *)
Lemma app_prefix : forall a b p x, a ++ b = p ++ x -> (String.length p < String.length a)%nat \/ exists p', p = a ++ p' /\ b = p' ++ x.
Proof.
  induction a as [|c a IH]; intros b p x E; [right; exists p; split; [reflexivity|exact E]|]. destruct p as [|d p]; [left; cbn; lia|]. cbn [append] in E. injection E as -> E.
  destruct (IH _ _ _ E) as [L|(p' & -> & ->)]; [left; cbn; lia|right; exists p'; split; reflexivity].
Qed.
Lemma short_prefix : forall a b p x, a ++ b = p ++ x -> (String.length p <= String.length a)%nat -> exists y, a = p ++ y.
Proof.
  induction a as [|c a IH]; intros b p x E L; (destruct p as [|d p]; [eexists; reflexivity|]); cbn in L; [lia|]. cbn [append] in E. injection E as -> E.
  destruct (IH _ _ _ E) as [y ->]; [lia|]. exists y. reflexivity.
Qed.
Lemma cut_lines : forall ls p x, with_nl ls = p ++ x -> (String.length p < String.length (with_nl ls))%nat ->
  exists k l q y, nth_error ls k = Some l /\ l = q ++ y /\ p = with_nl (firstn k ls) ++ q.
Proof.
  induction ls as [|l ls IH]; intros p x E L; [cbn in L; lia|]. cbn [with_nl] in E, L. change (l ++ String newline (with_nl ls)) with (l ++ String newline "" ++ with_nl ls) in E, L. rewrite <- sapp_assoc in E, L.
  destruct (app_prefix _ _ _ _ E) as [S|(p' & -> & E')].
  - rewrite str_length_app in S. cbn [String.length] in S. rewrite sapp_assoc in E. destruct (short_prefix _ _ _ _ E) as [y Hy]; [lia|]. exists 0%nat, l, p, y. repeat split; exact Hy.
  - rewrite !str_length_app in L. destruct (IH _ _ E') as (k & l' & q & y & H1 & H2 & H3); [lia|]. exists (S k), l', q, y. split; [exact H1|]. split; [exact H2|].
    cbn [firstn with_nl]. rewrite H3, !sapp_assoc. reflexivity.
Qed.
Lemma all_bytes_prefix (P : Z -> Prop) q y : all_bytes_in P (q ++ y) -> all_bytes_in P q.
Proof. intros H. apply all_bytes_app in H. apply H. Qed.
(** a part of a message gives nothing *)
Lemma cut_message e p x out : sendable e -> fst (send e) = p ++ x -> x <> "" -> exists st, fold_left read_step (read_lines p) (start, out) = (st, out).
Proof.
  intros H E N. rewrite (send_lines e H) in E. cbn [fst] in E. pose proof (body_plain e H) as B. pose proof (body_opens e) as O.
  assert (L : (String.length p < String.length (with_nl (body e ++ [""])))%nat) by (rewrite E, str_length_app; destruct x; [congruence|cbn; lia]).
  destruct (cut_lines _ _ _ E L) as (k & l & q & y & H1 & H2 & ->).
  assert (K : (k <= length (body e))%nat). { assert (k < length (body e ++ [""]))%nat by (apply nth_error_Some; congruence). rewrite app_length in *. cbn in *. lia. }
  rewrite firstn_app. replace (k - length (body e))%nat with 0%nat by lia. cbn [firstn]. rewrite app_nil_r.
  assert (F1 : Forall (fun l => no_nl l /\ no_cr l) (firstn k (body e))) by (eapply incl_Forall; [|exact B]; intros z Hz; rewrite <- (firstn_skipn k); apply in_or_app; left; exact Hz).
  assert (F2 : Forall opens (firstn k (body e))) by (eapply incl_Forall; [|exact O]; intros z Hz; rewrite <- (firstn_skipn k); apply in_or_app; left; exact Hz).
  rewrite read_lines_app by exact F1.
  assert (Q : no_nl q /\ (q = "" \/ opens q)).
  { destruct (Nat.eq_dec k (length (body e))) as [->|NK].
    - rewrite nth_error_app2 in H1 by lia. rewrite Nat.sub_diag in H1. cbn in H1. injection H1 as <-. destruct q; [|discriminate]. split; [exact Logic.I|left; reflexivity].
    - rewrite nth_error_app1 in H1 by lia. apply nth_error_In in H1. rewrite Forall_forall in B, O. destruct (B _ H1) as [B1 _]. specialize (O _ H1). rewrite H2 in B1, O.
      split; [eapply all_bytes_prefix; exact B1|]. destruct q; [left; reflexivity|right; exact O]. }
  destruct Q as [Q1 Q2]. rewrite read_lines_rest by exact Q1. rewrite fold_left_app. destruct (steps_open _ start out F2) as [p1 ->].
  destruct q as [|a q]; [eexists; reflexivity|]. destruct Q2 as [Q2|Q2]; [discriminate|]. apply (steps_open [String a q] p1 out). repeat constructor. exact Q2.
Qed.
Lemma read_one e r out : sendable e -> fold_left read_step (read_lines (fst (send e) ++ r)) (start, out) = fold_left read_step (read_lines r) (start, (out ++ [e])%list).
Proof.
  intros H. rewrite (send_lines e H). cbn [fst]. rewrite read_lines_app; [rewrite fold_left_app, read_message by exact H; reflexivity|].
  apply Forall_app. split; [apply body_plain; exact H|]. repeat constructor.
Qed.
Lemma cut_stream : forall es p x out, Forall sendable es -> stream_text es = p ++ x ->
  exists n st, (n <= length es)%nat /\ fold_left read_step (read_lines p) (start, out) = (st, (out ++ firstn n es)%list) /\
    (exists y, p = stream_text (firstn n es) ++ y) /\ ((n < length es)%nat -> (String.length p < String.length (stream_text (firstn (S n) es)))%nat).
Proof.
  induction es as [|e es IH]; intros p x out H E.
  - destruct p; [|discriminate]. exists 0%nat, start. cbn. rewrite app_nil_r. repeat split; [lia|exists ""; reflexivity|lia].
  - inversion H as [|? ? He Hes]; subst. cbn [stream_text] in E. destruct (app_prefix _ _ _ _ E) as [L|(p' & -> & E')].
    + destruct (short_prefix _ _ _ _ E) as [y Hy]; [lia|]. destruct (cut_message e p y out He Hy) as [st Est].
      { intros ->. rewrite Hy, str_length_app in L. cbn in L. lia. }
      exists 0%nat, st. cbn [firstn stream_text]. rewrite app_nil_r. split; [cbn; lia|]. split; [exact Est|]. split; [exists p; reflexivity|]. intros _. rewrite str_length_app. lia.
    + destruct (IH p' x (out ++ [e])%list Hes E') as (n & st & H1 & H2 & (y & H3) & H4). exists (S n), st. split; [cbn; lia|].
      rewrite read_one by exact He. split; [rewrite H2, <- app_assoc; reflexivity|]. split.
      * exists y. change (firstn (S n) (e :: es)) with (e :: firstn n es). cbn [stream_text]. rewrite sapp_assoc, <- H3. reflexivity.
      * intros L. change (firstn (S (S n)) (e :: es)) with (e :: firstn (S n) es). cbn [stream_text]. rewrite !str_length_app. cbn [length] in L. specialize (H4 ltac:(lia)). lia.
Qed.

(** *** JSON text is valid *)
Lemma ascii_utf8 s : all_bytes_in (fun n => 0 <= n < 128)%Z s -> utf8 s.
Proof. induction s as [|a s IH]; [constructor|]. intros [H1 H2]. apply utf8_1; [|auto]. rewrite code_byte in H1. unfold in_range. unfold byte in H1. lia. Qed.
Definition low7 (n : Z) : Prop := (0 <= n < 128)%Z.
Ltac ascii_text := cbv; repeat split; discriminate.
Lemma esc_low short a : (byte a < 128)%nat -> all_bytes_in low7 (esc short a).
Proof.
  intros B. unfold esc. assert (A : low7 (code a)) by (unfold low7; rewrite code_byte; lia).
  destruct (_ || _); [split; [ascii_text|]; split; [exact A|exact Logic.I]|].
  do 2 (destruct (_ && _); [ascii_text|]). do 3 (destruct (Nat.eqb (byte a) _); [ascii_text|]).
  destruct (_ || _); [|split; [exact A|exact Logic.I]].
  assert (H : forall n, (n < 16)%nat -> low7 (code (hex_digit n))) by (intros n Hn; do 16 (destruct n as [|n]; [ascii_text|]); lia).
  pose proof (Nat.div_mod (byte a) 16 ltac:(lia)) as D. pose proof (Nat.mod_upper_bound (byte a) 16 ltac:(lia)) as M.
  do 4 (split; [ascii_text|]). split; [apply H; lia|]. split; [apply H; lia|exact Logic.I].
Qed.
Lemma esc_high short a : (128 <= byte a)%nat -> esc short a = String a "".
Proof.
  intros H. unfold esc. assert (N : forall k, (k < 128)%nat -> Nat.eqb (byte a) k = false) by (intros k Hk; apply Nat.eqb_neq; lia).
  rewrite !N by lia. cbn [orb andb]. destruct (Nat.ltb_spec (byte a) 32); [lia|]. reflexivity.
Qed.
Lemma escaped_cons short a r : byte a <> 226%nat -> escaped short (String a r) = esc short a ++ escaped short r.
Proof.
  intros H. cbn [escaped]. destruct r as [|b [|c r]]; try reflexivity. unfold separator. apply Nat.eqb_neq in H. rewrite H. reflexivity.
Qed.
Lemma escaped_utf8 short s : utf8 s -> utf8 (escaped short s).
Proof.
  induction 1 as [|a s Ha H IH|a b s Ha H IH|a b c s Ha H IH|a b c d s Ha H IH]; [constructor|..].
  - unfold in_range in Ha. rewrite escaped_cons by (unfold byte; lia). apply utf8_app; [|exact IH]. apply ascii_utf8. apply esc_low. unfold byte. lia.
  - pose proof Ha as W. unfold well_formed2, in_range in Ha. rewrite !escaped_cons by (unfold byte; lia). rewrite !esc_high by (unfold byte; lia). apply utf8_2; assumption.
  - pose proof Ha as W. unfold well_formed3, in_range in Ha. destruct (Nat.eq_dec (byte a) 226) as [E|N].
    + cbn [escaped]. destruct (separator a b c) as [e|] eqn:S.
      * apply utf8_app; [|exact IH]. unfold separator in S. destruct (_ && _); [|discriminate]. destruct (Nat.eqb (byte c) 168); [injection S as <-; apply ascii_utf8; ascii_text|].
        destruct (Nat.eqb (byte c) 169); [injection S as <-; apply ascii_utf8; ascii_text|discriminate].
      * change (utf8 (esc short a ++ escaped short (String b (String c s)))). rewrite !escaped_cons by (unfold byte; lia). rewrite !esc_high by (unfold byte; lia). apply utf8_3; assumption.
    + rewrite !escaped_cons by (unfold byte in *; lia). rewrite !esc_high by (unfold byte; lia). apply utf8_3; assumption.
  - pose proof Ha as W. unfold well_formed4, in_range in Ha. rewrite !escaped_cons by (unfold byte; lia). rewrite !esc_high by (unfold byte; lia). apply utf8_4; assumption.
Qed.
Lemma quote_utf8 short s : utf8 s -> utf8 (quote short s).
Proof. intros H. unfold quote. apply utf8_1; [cbv; lia|]. apply utf8_app; [apply escaped_utf8; exact H|]. apply utf8_1; [cbv; lia|constructor]. Qed.
Lemma digits_low d : all_bytes_in is_digit_code d -> all_bytes_in low7 d.
Proof. apply all_bytes_impl. unfold is_digit_code, low7. lia. Qed.
Lemma sign_low sg : sign_part sg -> all_bytes_in low7 sg.
Proof. intros [->| ->]; [exact Logic.I|ascii_text]. Qed.
Lemma integer_low s n : integer s n -> all_bytes_in low7 s.
Proof.
  intros (sg & ip & m & -> & Hi & _ & Hn). apply all_bytes_app. split; [apply sign_low; destruct Hn as [[-> _]|[-> _]]; [left|right]; reflexivity|]. apply digits_low, Hi.
Qed.
Lemma float_low s : float s -> all_bytes_in low7 s.
Proof.
  intros (sg & ip & fp & ep & -> & Hs & Hi & Hf & He & _). rewrite !all_bytes_app. split; [apply sign_low; exact Hs|]. split; [apply digits_low, Hi|]. split.
  - destruct Hf as [->|(d & -> & Hd)]; [exact Logic.I|]. split; [ascii_text|apply digits_low, Hd].
  - destruct He as [->|(e & g & d & -> & H1 & H2 & Hd)]; [exact Logic.I|]. rewrite !all_bytes_app. split; [destruct H1 as [->| ->]; ascii_text|].
    split; [destruct H2 as [->|[->| ->]]; ascii_text|apply digits_low, Hd].
Qed.
Lemma items_utf8 sep ts : utf8 sep -> Forall utf8 ts -> utf8 (items sep ts).
Proof.
  intros Hs. induction 1 as [|t ts H F IH]; [constructor|]. destruct ts as [|t' ts]; [exact H|].
  change (items sep (t :: t' :: ts)) with (t ++ "," ++ sep ++ items sep (t' :: ts)). apply utf8_app; [exact H|]. apply utf8_app; [apply ascii_utf8; ascii_text|]. apply utf8_app; assumption.
Qed.
Lemma spaces_utf8 n : utf8 (spaces n).
Proof. induction n; [constructor|]. cbn [spaces]. apply utf8_1; [cbv; lia|assumption]. Qed.
Lemma line_utf8 ind : utf8 (line ind).
Proof. destruct ind; [|constructor]. apply utf8_1; [cbv; lia|apply spaces_utf8]. Qed.
Lemma wrap_utf8 ind o c ts : utf8 o -> utf8 c -> Forall utf8 ts -> utf8 (wrap ind o c ts).
Proof.
  intros Ho Hc F. unfold wrap. destruct ts as [|t ts]; [apply utf8_app; assumption|]. repeat (apply utf8_app; [first [assumption|apply line_utf8|apply items_utf8; [apply line_utf8|exact F]]|]). exact Hc.
Qed.
Lemma text_utf8 short : forall v, writable_json v -> forall ind, utf8 (text short ind v).
Proof.
  induction v as [|b|n|s|s|l IH|l IH] using json_induction; intros W ind; inversion W; subst; cbn [text].
  - apply ascii_utf8. ascii_text.
  - destruct b; apply ascii_utf8; ascii_text.
  - apply ascii_utf8. eapply integer_low, itoa_integer.
  - apply ascii_utf8, float_low. assumption.
  - apply quote_utf8. assumption.
  - apply wrap_utf8; [apply ascii_utf8; ascii_text..|]. apply Forall_map.
    match goal with F : Forall writable_json _ |- _ => apply Forall_forall; intros x I; apply (proj1 (Forall_forall _ _) IH x I); apply (proj1 (Forall_forall _ _) F x I) end.
  - apply wrap_utf8; [apply ascii_utf8; ascii_text..|]. apply Forall_map.
    match goal with F : Forall (fun kv => utf8 (fst kv) /\ _) _ |- _ => apply Forall_forall; intros x I; pose proof (proj1 (Forall_forall _ _) F x I) as [U X] end.
    apply utf8_app; [apply quote_utf8; exact U|]. apply utf8_app; [destruct ind; apply ascii_utf8; ascii_text|]. apply (proj1 (Forall_forall _ _) IH x I). exact X.
Qed.

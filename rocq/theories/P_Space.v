(** Trimming white space, which decides what is asked (C72) and which prefixes count (C45). *)
From Verif Require Import Go M_Strings M_Decor L_Strings L_Text S_Space.
Open Scope string_scope.
Open Scope list_scope.

Lemma prefix_split s p : HasPrefix s p = true -> exists q, s = (p ++ q)%string.
Proof.
  revert s. induction p as [|b p IHp]; intros s Hp; [exists s; reflexivity|]. destruct s as [|c s]; [discriminate|]. unfold HasPrefix in *. cbn in Hp.
  destruct (ascii_dec b c) as [->|]; [|discriminate]. destruct (IHp s Hp) as [q ->]. exists q. reflexivity.
Qed.
Lemma prefix_join p q : HasPrefix (p ++ q) p = true.
Proof. unfold HasPrefix. induction p as [|a p IH]; cbn; [destruct q; reflexivity|]. destruct (ascii_dec a a); [exact IH|contradiction]. Qed.

(** what strip takes away, and what it leaves *)
Inductive made_of (spaces : list string) : string -> Prop :=
| made_nil : made_of spaces ""
| made_cons : forall w s, In w spaces -> made_of spaces s -> made_of spaces (w ++ s)%string.
Lemma strip_spec spaces : (forall w, In w spaces -> w <> "") ->
  forall fuel s, (String.length s <= fuel)%nat ->
    (exists a, s = (a ++ strip spaces fuel s)%string /\ made_of spaces a) /\
    (forall w q, In w spaces -> strip spaces fuel s <> (w ++ q)%string).
Proof.
  intros Hne. induction fuel as [|fuel IH]; intros s L; cbn [strip].
  - destruct s; [|cbn in L; lia]. split; [exists ""; split; [reflexivity|constructor]|]. intros w q I E. specialize (Hne w I). destruct w; [contradiction|discriminate].
  - destruct (find (HasPrefix s) spaces) as [p|] eqn:F.
    + apply find_some in F as [Ip Hp]. apply prefix_split in Hp as [q ->]. rewrite str_skip_app. pose proof (Hne p Ip) as N.
      destruct (IH q) as [(a & E & M) H]. { rewrite str_length_app in L. destruct p; [contradiction|cbn in L; lia]. }
      split; [|exact H]. exists (p ++ a)%string. split; [rewrite <- str_app_assoc, <- E; reflexivity|constructor; assumption].
    + split; [exists ""; split; [reflexivity|constructor]|]. intros w q I E. pose proof (find_none _ _ F w I) as H. cbv beta in H. rewrite E, prefix_join in H. discriminate.
Qed.
Lemma bytes_app a b : list_ascii_of_string (a ++ b) = list_ascii_of_string a ++ list_ascii_of_string b.
Proof. induction a as [|c a IH]; cbn; [reflexivity|]. rewrite IH. reflexivity. Qed.
Lemma of_bytes_app a b : string_of_list_ascii (a ++ b) = (string_of_list_ascii a ++ string_of_list_ascii b)%string.
Proof. induction a as [|c a IH]; cbn; [reflexivity|]. rewrite IH. reflexivity. Qed.
Lemma rev_string_app a b : rev_string (a ++ b) = (rev_string b ++ rev_string a)%string.
Proof. unfold rev_string. rewrite bytes_app, rev_app_distr. apply of_bytes_app. Qed.
Lemma rev_string_invol s : rev_string (rev_string s) = s.
Proof. unfold rev_string. rewrite list_ascii_of_string_of_list_ascii, rev_involutive. apply string_of_list_ascii_of_string. Qed.
Lemma rev_string_length s : String.length (rev_string s) = String.length s.
Proof.
  assert (L : forall s, length (list_ascii_of_string s) = String.length s) by (induction s0 as [|c s0 IH]; cbn; congruence).
  rewrite <- (L (rev_string s)). unfold rev_string. rewrite list_ascii_of_string_of_list_ascii, rev_length. apply L.
Qed.
Lemma white_space_points : white_space = map encode space_points.
Proof. reflexivity. Qed.
Lemma in_white w : In w white_space <-> is_space w.
Proof. rewrite white_space_points. unfold is_space. rewrite in_map_iff. split; intros (c & A & B); exists c; auto. Qed.
Lemma blank_app a b : blank a -> blank b -> blank (a ++ b).
Proof. intros A B. induction A as [|w s W A IH]; [exact B|]. rewrite <- str_app_assoc. constructor; assumption. Qed.
Lemma made_blank a : made_of white_space a -> blank a.
Proof. induction 1 as [|w s I M IH]; constructor; [apply in_white; exact I|exact IH]. Qed.
Lemma made_blank_rev a : made_of (map rev_string white_space) a -> blank (rev_string a).
Proof.
  induction 1 as [|w s I M IH]; [constructor|]. rewrite rev_string_app. apply in_map_iff in I as (v & <- & I). rewrite rev_string_invol.
  apply blank_app; [exact IH|]. rewrite <- (str_app_nil_r v). constructor; [apply in_white; exact I|constructor].
Qed.

(** What TrimSpace returns is the text without the white space around it. *)
Theorem C72_surrounding_space : forall s, trimmed s (TrimSpace s).
Proof.
  intros s. assert (NE : forall w, In w white_space -> w <> "").
  { intros w I. assert (B : forallb (fun w => negb (String.eqb w "")) white_space = true) by reflexivity. rewrite forallb_forall in B. specialize (B w I). intros ->. discriminate. }
  assert (NE' : forall w, In w (map rev_string white_space) -> w <> "").
  { intros w I. apply in_map_iff in I as (v & <- & I). intros E. apply (NE v I). rewrite <- (rev_string_invol v), E. reflexivity. }
  unfold TrimSpace. set (u := strip white_space (String.length s) s).
  destruct (strip_spec _ NE (String.length s) s (le_n _)) as [(a & Ea & Ma) Ha]. fold u in Ea, Ha.
  destruct (strip_spec _ NE' (String.length u) (rev_string u)) as [(b & Eb & Mb) Hb]. { rewrite rev_string_length. apply le_n. }
  set (v := strip (map rev_string white_space) (String.length u) (rev_string u)) in *. cbv zeta.
  assert (Eu : u = (rev_string v ++ rev_string b)%string) by (rewrite <- rev_string_app, <- Eb, rev_string_invol; reflexivity).
  split.
  - exists a, (rev_string b). split; [rewrite <- Eu; exact Ea|]. split; [apply made_blank; exact Ma|apply made_blank_rev; exact Mb].
  - intros w q W. apply in_white in W. split; intros E.
    + apply (Ha w (q ++ rev_string b)%string W). rewrite Eu, E, <- str_app_assoc. reflexivity.
    + apply (Hb (rev_string w) (rev_string q)); [apply in_map; exact W|]. rewrite <- rev_string_app, <- E, rev_string_invol. reflexivity.
Qed.
Print Assumptions C72_surrounding_space.
Example C72_space_instance : TrimSpace (bytes [32; 227; 128; 128; 97; 32; 98; 194; 160; 10]%nat) = "a b".
Proof. reflexivity. Qed.

Lemma blank_no_http uri : TrimSpace uri = "" -> HasPrefix uri "http" = false.
Proof.
  intros E. destruct (HasPrefix uri "http") eqn:H; [|reflexivity]. exfalso. apply prefix_split in H as [q ->].
  destruct (C72_surrounding_space ("http" ++ q)) as [(a & b & Es & A & B) _]. rewrite E in Es.
  assert (X : blank ("http" ++ q)) by (rewrite Es; apply blank_app; [exact A|exact B]).
  remember ("http" ++ q)%string as x eqn:Ex. clear Es E. destruct X as [|w s W X]; [discriminate|]. apply in_white in W.
  assert (F : forallb (fun w => match w with String c _ => negb (Ascii.eqb c "h") | "" => false end) white_space = true) by reflexivity.
  rewrite forallb_forall in F. specialize (F w W). destruct w as [|c w]; [discriminate|]. cbn in Ex. injection Ex as -> _. discriminate.
Qed.

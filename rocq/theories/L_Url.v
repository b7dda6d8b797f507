(** Lemmas about query strings: what is encoded is what is parsed. *)
From Verif Require Import Go M_Strings M_Types M_Frame M_Filter S_Order L_Order M_Humanize M_Text M_Search M_Url L_Strings L_Text.
Open Scope string_scope.
Open Scope list_scope.
Open Scope Z_scope.

(** facts about single bytes, by going through all 256 of them *)
Ltac all_bytes c := destruct c as [[|] [|] [|] [|] [|] [|] [|] [|]].

Lemma escape_byte c : Ascii.eqb c " " = false -> unreserved c = true -> Ascii.eqb c "%" = false /\ Ascii.eqb c "+" = false.
Proof. all_bytes c; vm_compute; intros; auto; discriminate. Qed.
Lemma hex_byte c : unhex (upperhex (N_of_ascii c / 16)) = Some (N_of_ascii c / 16)%N /\
                   unhex (upperhex (N_of_ascii c mod 16)) = Some (N_of_ascii c mod 16)%N /\
                   ascii_of_N (N_of_ascii c / 16 * 16 + N_of_ascii c mod 16) = c.
Proof. all_bytes c; vm_compute; auto. Qed.

Lemma unescape_escape s : QueryUnescape (QueryEscape s) = Some s.
Proof.
  induction s as [|c s IH]; [reflexivity|]. cbn [QueryEscape].
  destruct (Ascii.eqb_spec c " ") as [->|Hne].
  - cbn [QueryUnescape]. change (Ascii.eqb "+" "%") with false. cbv iota. rewrite IH. reflexivity.
  - assert (Hs : Ascii.eqb c " " = false) by (apply Ascii.eqb_neq; exact Hne). destruct (unreserved c) eqn:U.
    + destruct (escape_byte c Hs U) as [A B]. cbn [QueryUnescape]. rewrite A, B, IH. reflexivity.
    + destruct (hex_byte c) as (A & B & C). cbn [QueryUnescape]. change (Ascii.eqb "%" "%") with true. cbv iota. rewrite A, B, IH, C. reflexivity.
Qed.

(** the three bytes that separate pairs and their parts *)
Definition separator (x : ascii) : Prop := x = "&"%char \/ x = ";"%char \/ x = "="%char.
Lemma byte_no_separator c x : separator x ->
  (unreserved c = true -> Ascii.eqb c x = false) /\
  Ascii.eqb (upperhex (N_of_ascii c / 16)) x = false /\ Ascii.eqb (upperhex (N_of_ascii c mod 16)) x = false.
Proof. intros [->|[->| ->]]; all_bytes c; vm_compute; auto. Qed.
Lemma escape_no_separator x s : separator x -> contains_byte x (QueryEscape s) = false.
Proof.
  intros Hx. induction s as [|c s IH]; [reflexivity|]. cbn [QueryEscape].
  destruct (byte_no_separator c x Hx) as (A & B & C).
  destruct (Ascii.eqb c " "); [|destruct (unreserved c)]; cbn [contains_byte]; rewrite IH, ?orb_false_r.
  - destruct Hx as [->|[->| ->]]; reflexivity.
  - auto.
  - rewrite B, C. destruct Hx as [->|[->| ->]]; reflexivity.
Qed.

Lemma contains_app x a b : contains_byte x (a ++ b) = contains_byte x a || contains_byte x b.
Proof. induction a as [|c a IH]; [reflexivity|]. cbn. rewrite IH, orb_assoc. reflexivity. Qed.

Lemma CutByte_app x a b : contains_byte x a = false -> CutByte (a ++ String x b) x = (a, b, true).
Proof.
  induction a as [|c a IH]; cbn.
  - rewrite Ascii.eqb_refl. reflexivity.
  - intros H. apply orb_false_iff in H as [A B]. rewrite A, IH by exact B. reflexivity.
Qed.

(** joining and splitting *)
Fixpoint join_amp (l : list string) : string :=
  match l with [] => "" | [w] => w | w :: ws => (w ++ String "&" (join_amp ws))%string end.
Lemma split_none x s : contains_byte x s = false -> split_on x s = [s].
Proof. induction s as [|c s IH]; [reflexivity|]. cbn. intros H. apply orb_false_iff in H as [A B]. rewrite A, IH by exact B. reflexivity. Qed.
Lemma split_app x a b : contains_byte x a = false -> split_on x (a ++ String x b) = a :: split_on x b.
Proof.
  induction a as [|c a IH]; cbn.
  - rewrite Ascii.eqb_refl. reflexivity.
  - intros H. apply orb_false_iff in H as [A B]. rewrite A, IH by exact B. reflexivity.
Qed.
Lemma split_join l : l <> [] -> Forall (fun w => contains_byte "&" w = false) l -> split_on "&" (join_amp l) = l.
Proof.
  induction l as [|w ws IH]; [congruence|]. intros _ HF. inversion HF as [|? ? Hw Hws]; subst. destruct ws as [|w' ws].
  - apply split_none. exact Hw.
  - change (join_amp (w :: w' :: ws)) with (w ++ String "&" (join_amp (w' :: ws)))%string.
    rewrite split_app by exact Hw. rewrite IH; auto. discriminate.
Qed.
Lemma join_app l w : l <> [] -> join_amp (l ++ [w]) = (join_amp l ++ String "&" w)%string.
Proof.
  induction l as [|a l IH]; [congruence|]. intros _. destruct l as [|b l]; [reflexivity|].
  change (join_amp ((a :: b :: l) ++ [w])) with (a ++ String "&" (join_amp ((b :: l) ++ [w])))%string. rewrite IH by discriminate.
  change (join_amp (a :: b :: l)) with (a ++ String "&" (join_amp (b :: l)))%string. rewrite <- str_app_assoc. reflexivity.
Qed.

(** the pairs, in the order they are written *)
Definition pairs_of (v : Values) : list (string * string) :=
  flat_map (fun k => map (pair k) (values v k)) (sort_strings (map_keys v)).
Definition text_of (p : string * string) : string := pair_text (fst p) (snd p).

Lemma app_eq_empty a b : (a ++ b)%string = "" -> b = "".
Proof. destruct a; cbn; [auto|discriminate]. Qed.
Lemma pair_text_ne k v : pair_text k v <> "".
Proof. unfold pair_text. intros H. apply app_eq_empty in H. discriminate. Qed.
Lemma join_ne l : l <> [] -> (forall w, In w l -> w <> "") -> join_amp l <> "".
Proof.
  destruct l as [|a [|b l]]; [congruence| |]; intros _ H; [apply H; left; reflexivity|].
  change (join_amp (a :: b :: l)) with (a ++ String "&" (join_amp (b :: l)))%string. intros E. apply app_eq_empty in E. discriminate.
Qed.

Lemma write_pairs ps buf0 : (forall w, In w buf0 -> w <> "") ->
  fold_left (fun buf p => write_pair (fst p) buf (snd p)) ps (join_amp buf0) = join_amp (buf0 ++ map text_of ps).
Proof.
  revert buf0; induction ps as [|[k x] ps IH]; intros buf0 Hb; [cbn; rewrite app_nil_r; reflexivity|].
  cbn [fold_left fst snd map]. unfold write_pair at 2.
  assert (E : (join_amp buf0 ++ (if String.eqb (join_amp buf0) "" then "" else "&") ++ pair_text k x)%string = join_amp (buf0 ++ [pair_text k x])).
  { destruct buf0 as [|a l]; [reflexivity|]. rewrite join_app by discriminate.
    destruct (String.eqb_spec (join_amp (a :: l)) "") as [C|_]; [|reflexivity]. exfalso. revert C. apply join_ne; [discriminate|exact Hb]. }
  rewrite E, IH.
  - rewrite <- app_assoc. reflexivity.
  - intros w Hw. apply in_app_iff in Hw as [Hw|[<-|[]]]; [auto|apply pair_text_ne].
Qed.
Lemma fold_flat {A B C} (f : C -> A * B -> C) (g : A -> list B) l c :
  fold_left (fun c k => fold_left (fun c x => f c (k, x)) (g k) c) l c = fold_left f (flat_map (fun k => map (pair k) (g k)) l) c.
Proof.
  revert c; induction l as [|k l IH]; intros c; [reflexivity|]. cbn [fold_left flat_map]. rewrite fold_left_app, IH. f_equal.
  generalize c. induction (g k) as [|x xs IHx]; intros c'; [reflexivity|]. cbn. apply IHx.
Qed.
Lemma Encode_join v : Encode v = join_amp (map text_of (pairs_of v)).
Proof.
  unfold Encode, pairs_of. pose proof (write_pairs (flat_map (fun k => map (pair k) (values v k)) (sort_strings (map_keys v))) [] ltac:(intros ? [])) as W.
  cbn [join_amp app] in W. rewrite <- W. clear W.
  rewrite <- (fold_flat (fun buf p => write_pair (fst p) buf (snd p)) (values v)). reflexivity.
Qed.

Lemma parse_text m k x : parse_pair m (pair_text k x) = vAdd m k x.
Proof.
  unfold parse_pair. assert (S : contains_byte ";" (pair_text k x) = false).
  { unfold pair_text. rewrite contains_app. cbn. rewrite !escape_no_separator by (unfold separator; auto). reflexivity. }
  rewrite S. destruct (String.eqb_spec (pair_text k x) "") as [C|_]; [apply pair_text_ne in C; contradiction|].
  unfold pair_text. change ("=" ++ QueryEscape x)%string with (String "=" (QueryEscape x)).
  rewrite CutByte_app by (apply escape_no_separator; unfold separator; auto). rewrite !unescape_escape. reflexivity.
Qed.

Definition add_pair (m : Values) (p : string * string) : Values := vAdd m (fst p) (snd p).
Lemma Query_Encode_pairs v : Query_of (Encode v) = fold_left add_pair (pairs_of v) [].
Proof.
  unfold Query_of. rewrite Encode_join. destruct (pairs_of v) as [|p ps] eqn:E; [reflexivity|].
  rewrite split_join.
  - generalize (@nil (string * list string)). generalize (p :: ps). clear. induction l as [|[k x] l IH]; intros m; [reflexivity|].
    cbn [map fold_left]. change (text_of (k, x)) with (pair_text k x). rewrite parse_text. apply IH.
  - discriminate.
  - apply Forall_forall. intros w Hw. apply in_map_iff in Hw as ([k x] & <- & _). unfold text_of, pair_text. cbn [fst snd].
    rewrite contains_app. cbn. rewrite !escape_no_separator by (unfold separator; auto). reflexivity.
Qed.

(** maps whose keys all have values and occur once *)
Definition good (v : Values) : Prop := NoDup (map_keys v) /\ forall k l, map_get k v = Some l -> l <> [].

Lemma good_nil : good [].
Proof. split; [constructor|discriminate]. Qed.
Lemma good_set v k l : good v -> l <> [] -> good (map_set k l v).
Proof.
  intros [A B] Hl. split; [apply map_keys_set_NoDup; exact A|]. intros k' l'. rewrite map_get_set. destruct (String.eqb k' k); [congruence|apply B].
Qed.
Lemma good_vSet v k x : good v -> good (vSet v k x).
Proof. intros H. apply good_set; [exact H|discriminate]. Qed.
Lemma good_vAdd v k x : good v -> good (vAdd v k x).
Proof. intros H. apply good_set; [exact H|]. destruct (values v k); discriminate. Qed.
Lemma good_Query raw : good (Query_of raw).
Proof.
  unfold Query_of. generalize (split_on "&" raw). intros l. assert (G : forall m, good m -> good (fold_left parse_pair l m)); [|apply G, good_nil].
  induction l as [|w l IH]; intros m Hm; [exact Hm|]. cbn [fold_left]. apply IH. unfold parse_pair.
  destruct (contains_byte ";" w); [exact Hm|]. destruct (String.eqb w ""); [exact Hm|]. destruct (CutByte w "=") as [[k v] b].
  destruct (QueryUnescape k); [|exact Hm]. destruct (QueryUnescape v); [|exact Hm]. apply good_vAdd. exact Hm.
Qed.
Lemma vHas_values v k : good v -> vHas v k = negb (match values v k with [] => true | _ => false end).
Proof. intros [_ B]. unfold vHas, values. destruct (map_get k v) as [l|] eqn:E; [|reflexivity]. specialize (B k l E). destruct l; [congruence|reflexivity]. Qed.

Lemma values_set v k l k' : values (map_set k l v) k' = if String.eqb k' k then l else values v k'.
Proof. unfold values. rewrite map_get_set. destruct (String.eqb k' k); reflexivity. Qed.
Lemma values_vSet v k x k' : values (vSet v k x) k' = if String.eqb k' k then [x] else values v k'.
Proof. apply values_set. Qed.
Lemma values_vAdd v k x k' : values (vAdd v k x) k' = if String.eqb k' k then values v k ++ [x] else values v k'.
Proof. apply values_set. Qed.

Lemma values_adds ps m k : values (fold_left add_pair ps m) k = values m k ++ map snd (filter (fun p => String.eqb k (fst p)) ps).
Proof.
  revert m; induction ps as [|[k0 x] ps IH]; intros m; [cbn; rewrite app_nil_r; reflexivity|].
  cbn [fold_left filter fst]. rewrite IH. unfold add_pair. cbn [fst snd]. rewrite values_vAdd.
  destruct (String.eqb_spec k k0) as [->|_]; [|reflexivity]. cbn [map snd]. rewrite <- app_assoc. reflexivity.
Qed.
Lemma filter_pairs k (g : string -> list string) ks : NoDup ks ->
  map snd (filter (fun p => String.eqb k (fst p)) (flat_map (fun k => map (pair k) (g k)) ks)) = if in_dec string_dec k ks then g k else [].
Proof.
  assert (A : forall k0 l, map snd (filter (fun p : string * string => String.eqb k (fst p)) (map (pair k0) l)) = if String.eqb k k0 then l else []).
  { intros k0 l. induction l as [|x l IH]; [cbn; destruct (String.eqb k k0); reflexivity|]. cbn. destruct (String.eqb k k0); cbn; rewrite IH; reflexivity. }
  induction ks as [|k0 ks IH]; intros ND; [reflexivity|]. inversion ND as [|? ? H1 H2]; subst. cbn [flat_map]. rewrite filter_app, map_app, A, IH by exact H2.
  destruct (String.eqb_spec k k0) as [->|Hne].
  - destruct (in_dec string_dec k0 ks); [contradiction|]. rewrite app_nil_r. destruct (in_dec string_dec k0 (k0 :: ks)) as [|C]; [reflexivity|]. exfalso; apply C; left; reflexivity.
  - destruct (in_dec string_dec k ks) as [i|n]; destruct (in_dec string_dec k (k0 :: ks)) as [i'|n']; try reflexivity.
    + exfalso; apply n'; right; exact i.
    + exfalso. destruct i' as [C|C]; [congruence|contradiction].
Qed.

(** What is written is what is read. *)
Lemma values_Query_Encode v k : NoDup (map_keys v) -> values (Query_of (Encode v)) k = values v k.
Proof.
  intros ND. rewrite Query_Encode_pairs, values_adds. cbn [app]. change (values [] k) with (@nil string). cbn [app]. unfold pairs_of.
  assert (P : Permutation (sort_strings (map_keys v)) (map_keys v)) by apply isort_perm.
  rewrite filter_pairs by (eapply Permutation_NoDup; [apply Permutation_sym; exact P|exact ND]).
  destruct (in_dec string_dec k (sort_strings (map_keys v))) as [|N]; [reflexivity|].
  unfold values. destruct (map_get k v) eqn:E; [|reflexivity]. exfalso. apply N. apply (Permutation_in _ (Permutation_sym P)).
  apply map_get_in. congruence.
Qed.

Lemma good_encodes v : good v -> forall k, values (Query_of (Encode v)) k = values v k.
Proof. intros [ND _] k. apply values_Query_Encode. exact ND. Qed.

Lemma values_fold_vAdd k l q k' : values (fold_left (fun q x => vAdd q k x) l q) k' = if String.eqb k' k then values q k ++ l else values q k'.
Proof.
  revert q; induction l as [|x l IH]; intros q; [cbn; rewrite app_nil_r; destruct (String.eqb_spec k' k) as [->|]; reflexivity|].
  cbn [fold_left]. rewrite IH, !values_vAdd, String.eqb_refl. destruct (String.eqb k' k); [rewrite <- app_assoc; reflexivity|reflexivity].
Qed.
Lemma good_fold_vAdd k l q : good q -> good (fold_left (fun q x => vAdd q k x) l q).
Proof. revert q; induction l as [|x l IH]; intros q H; [exact H|]. cbn. apply IH, good_vAdd, H. Qed.
Lemma good_set_if b k x q : good q -> good (set_if b k x q).
Proof. intros H. unfold set_if. destruct b; [apply good_vSet|]; exact H. Qed.
Lemma values_set_if b k x q k' : values (set_if b k x q) k' = if b && String.eqb k' k then [x] else values q k'.
Proof. unfold set_if. destruct b; [apply values_vSet|reflexivity]. Qed.

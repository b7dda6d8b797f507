From Verif Require Import Go L_List M_Strings L_Strings M_Types S_Path M_Frame.
From Coq Require Import ZifyBool.
Open Scope string_scope.

Lemma str_app_assoc a b c : ((a ++ b) ++ c = a ++ (b ++ c))%string.
Proof. induction a; cbn; congruence. Qed.

Lemma LastIndexByte_none s c : LastIndexByte s c = None <-> has_byte c s = false.
Proof.
  induction s as [|x s IH]; cbn; [tauto|].
  destruct (LastIndexByte s c); destruct (Ascii.eqb x c), (has_byte c s); cbn; intuition congruence.
Qed.

Lemma LastIndexByte_some s c i : LastIndexByte s c = Some i ->
  exists p r, s = p ++ String c r /\ String.length p = i /\ has_byte c r = false.
Proof.
  revert i; induction s as [|x s IH]; intros i H; cbn in H; [discriminate|].
  destruct (LastIndexByte s c) as [k|] eqn:E.
  - injection H as <-. destruct (IH k eq_refl) as (p & r & -> & <- & Hr). exists (String x p), r. auto.
  - destruct (Ascii.eqb_spec x c) as [->|]; [|discriminate]. injection H as <-.
    exists "", s. split; [reflexivity|]. split; [reflexivity|]. apply LastIndexByte_none. exact E.
Qed.

Lemma split_nonempty c s : split c s <> [].
Proof. induction s as [|x s IH]; cbn; [discriminate|]. destruct (Ascii.eqb x c); [discriminate|]. destruct (split c s); discriminate. Qed.

Lemma split_nosep c s : has_byte c s = false -> split c s = [s].
Proof.
  induction s as [|x s IH]; cbn; [reflexivity|]. destruct (Ascii.eqb x c); cbn; [discriminate|].
  intros H. rewrite IH by assumption. reflexivity.
Qed.

Lemma split_app c p r : split c (p ++ String c r) = (split c p ++ split c r)%list.
Proof.
  induction p as [|x p IH]; cbn; [rewrite Ascii.eqb_refl; reflexivity|].
  destruct (Ascii.eqb x c); [rewrite IH; reflexivity|]. rewrite IH.
  pose proof (split_nonempty c p). destruct (split c p); [contradiction|reflexivity].
Qed.

Lemma join_app sep l l' : l <> [] -> l' <> [] -> join sep (l ++ l') = join sep l ++ sep ++ join sep l'.
Proof.
  intros Hl Hl'. induction l as [|x l IH]; [contradiction|]. destruct l as [|y l].
  - destruct l'; [contradiction|reflexivity].
  - change (join sep ((x :: y :: l) ++ l')) with (x ++ sep ++ join sep ((y :: l) ++ l')).
    rewrite IH by discriminate. change (join sep (x :: y :: l)) with (x ++ sep ++ join sep (y :: l)).
    rewrite !str_app_assoc. reflexivity.
Qed.

Lemma join_split c s : join (String c "") (split c s) = s.
Proof.
  induction s as [|x s IH]; cbn; [reflexivity|].
  pose proof (split_nonempty c s) as Hne. destruct (split c s) as [|e es] eqn:E; [contradiction|].
  destruct (Ascii.eqb_spec x c) as [->|].
  - change (join (String c "") ("" :: e :: es)) with ("" ++ String c "" ++ join (String c "") (e :: es)).
    rewrite IH. reflexivity.
  - destruct es as [|e' es]; cbn in IH |- *; [congruence|]. f_equal. exact IH.
Qed.

Lemma str_slice_prefix p r : str_slice (p ++ r) 0 (Z.of_nat (String.length p)) = Ok p.
Proof.
  unfold str_slice. rewrite str_length_app.
  destruct (_ && _)%bool eqn:E; [|lia]. f_equal.
  replace (Z.to_nat (Z.of_nat (String.length p) - 0)) with (String.length p) by lia.
  apply substring_prefix.
Qed.
Lemma str_slice_suffix p r : str_slice (p ++ r) (Z.of_nat (String.length p)) (Z.of_nat (String.length (p ++ r))) = Ok r.
Proof.
  unfold str_slice. rewrite str_length_app.
  destruct (_ && _)%bool eqn:E; [|lia]. f_equal.
  rewrite Nat2Z.id. etransitivity; [|exact (str_skip_app p r)]. unfold str_skip. rewrite str_length_app.
  f_equal. lia.
Qed.

Lemma pkgPrefix_spec f : pkgPrefix f = Ok (parent f).
Proof.
  unfold pkgPrefix, parent. destruct (LastIndexByte f "/") as [i|] eqn:E; cbn [index_of].
  - destruct (LastIndexByte_some _ _ _ E) as (p & r & -> & <- & Hr).
    destruct (Z.eqb_spec (Z.of_nat (String.length p)) (-1)); [lia|].
    rewrite str_slice_prefix. unfold slash. rewrite split_app, (split_nosep _ r Hr), removelast_last.
    rewrite join_split. reflexivity.
  - cbn. apply LastIndexByte_none in E. unfold slash. rewrite split_nosep by exact E. reflexivity.
Qed.

Lemma pathSuffix_spec path : pathSuffix path = Ok (last_two path).
Proof.
  unfold pathSuffix, last_two, slash. destruct (LastIndexByte path "/") as [i|] eqn:E; cbn [index_of].
  - destruct (LastIndexByte_some _ _ _ E) as (p & r & -> & <- & Hr).
    destruct (Z.eqb_spec (Z.of_nat (String.length p)) (-1)); [lia|].
    rewrite str_slice_prefix. cbn [bind]. rewrite split_app, (split_nosep _ r Hr).
    destruct (LastIndexByte p "/") as [j|] eqn:E2; cbn [index_of].
    + destruct (LastIndexByte_some _ _ _ E2) as (q & a & -> & <- & Ha).
      rewrite split_app, (split_nosep _ a Ha), <- app_assoc. cbn [app].
      rewrite app_length. cbn [length]. replace (_ + 2 - 2)%nat with (length (split "/" q)) by lia.
      rewrite skipn_app, skipn_all, Nat.sub_diag. cbn [app skipn join].
      replace ((q ++ String "/" a) ++ String "/" r) with ((q ++ "/") ++ (a ++ String "/" r)).
      2:{ rewrite !str_app_assoc. reflexivity. }
      replace (Z.of_nat (String.length q) + 1)%Z with (Z.of_nat (String.length (q ++ "/"))).
      2:{ rewrite str_length_app. cbn. lia. }
      rewrite str_slice_suffix. reflexivity.
    + change (-1 + 1)%Z with (Z.of_nat (String.length "")). change (p ++ String "/" r) with ("" ++ (p ++ String "/" r)).
      rewrite str_slice_suffix. apply LastIndexByte_none in E2. rewrite (split_nosep _ p E2). reflexivity.
  - cbn. apply LastIndexByte_none in E. rewrite split_nosep by exact E. reflexivity.
Qed.

Lemma CutByte_found c a b : has_byte c a = false -> CutByte (a ++ String c b) c = (a, b, true).
Proof.
  induction a as [|x a IH]; cbn; [rewrite Ascii.eqb_refl; reflexivity|].
  destruct (Ascii.eqb x c); cbn; [discriminate|]. intros H. rewrite IH by assumption. reflexivity.
Qed.
Lemma CutByte_missing c a : has_byte c a = false -> CutByte a c = (a, "", false).
Proof.
  induction a as [|x a IH]; cbn; [reflexivity|].
  destruct (Ascii.eqb x c); cbn; [discriminate|]. intros H. rewrite IH by assumption. reflexivity.
Qed.

Lemma CompactFileLine_any fr :
  let '(file, line, _) := CutByte (FileLine fr) ":" in
  CompactFileLine fr =
  Ok ((if String.eqb (parent (Function fr)) "" then "" else parent (Function fr) ++ "/") ++ last_two file ++ ":" ++ line).
Proof.
  unfold CompactFileLine. destruct (CutByte (FileLine fr) ":") as [[file line] b].
  rewrite pkgPrefix_spec, pathSuffix_spec. cbn [bind].
  destruct (String.eqb (parent (Function fr)) ""); rewrite ?str_app_assoc; reflexivity.
Qed.

Lemma CompactFileLine_total fr : exists s, CompactFileLine fr = Ok s.
Proof.
  pose proof (CompactFileLine_any fr) as H. destruct (CutByte (FileLine fr) ":") as [[file line] b]. eauto.
Qed.

Lemma CompactFileLine_spec function file line :
  has_byte colon file = false ->
  CompactFileLine (MkFrame function (file ++ ":" ++ line)) =
  Ok ((if String.eqb (parent function) "" then "" else parent function ++ "/") ++ last_two file ++ ":" ++ line).
Proof.
  intros H. pose proof (CompactFileLine_any (MkFrame function (file ++ ":" ++ line))) as Ha. cbn [FileLine Function] in Ha.
  change (":" ++ line) with (String ":" line) in *. rewrite CutByte_found in Ha by exact H. exact Ha.
Qed.

(** C66: the text of a duration on a page or in a log line. *)
From Verif Require Import Go M_Strings M_Humanize M_Text M_Decor L_Strings L_Text P_Humanize.
Open Scope string_scope.
Open Scope Z_scope.

Lemma trunc_bounds d : int64 d -> int64 (TruncateDuration d) /\ (Hour <= TruncateDuration d <-> Hour <= d) /\
  (Hour <= d -> exists m, TruncateDuration d = m * Minute /\ 60 <= m).
Proof.
  intros H. pose proof (C61_truncated_to_the_precision d) as (H1 & H2 & H3).
  assert (Hb : Hour <= d -> exists m, TruncateDuration d = m * Minute /\ 60 <= m).
  { intros Hd. assert (Hp : (Minute | precision d)).
    { unfold precision. consts. repeat match goal with |- context [d <? ?y] => destruct (Z.ltb_spec d y); [try lia|] end;
        match goal with |- (?m | ?lo) => exists (Z.div lo m); reflexivity end. }
    destruct (Z.divide_trans _ _ _ Hp H3) as [m Hm]. exists m. split; [exact Hm|].
    pose proof (C61_monotone Hour d Hd) as Hmono. change (TruncateDuration Hour) with (60 * Minute) in Hmono. rewrite Hm in Hmono. consts. lia. }
  split; [|split; [split; intros Hx; [lia|]|exact Hb]].
  - unfold int64 in *. destruct (Z.leb_spec Hour d) as [L|L].
    + destruct (Hb L) as (m & E & Hm). rewrite E in *. consts. lia.
    + split; [|lia]. destruct (Z.ltb_spec d Microsecond) as [L2|L2]; [rewrite C61_small_and_negative_unchanged by exact L2; lia|].
      pose proof (C61_monotone 0 d ltac:(consts; lia)) as Hmono. change (TruncateDuration 0) with 0 in Hmono. change two63 with 9223372036854775808. lia.
  - destruct (Hb Hx) as (m & E & Hm). rewrite E. consts. lia.
Qed.

(** whole minutes, from one hour up: hours, minutes and "0s" *)
Lemma magnitude_hours m : 60 <= m -> DurationString (m * Minute) = (itoa (m / 60) ++ "h" ++ itoa (m mod 60) ++ "m0s")%string.
Proof.
  intros Hm. rewrite DurationString_eq. destruct (Z.ltb_spec (m * Minute) 0) as [L|L]; [consts; lia|]. rewrite Z.abs_eq by lia. unfold magnitude.
  destruct (Z.ltb_spec (m * Minute) Second) as [L2|_]; [consts; lia|].
  destruct (fmtFrac_spec 9 (m * Minute) "s" L) as [S1 S2]. change (10 ^ Z.of_nat 9) with Second in S1, S2.
  assert (E0 : (m * Minute) mod Second = 0) by (replace (m * Minute) with ((m * 60) * Second) by (consts; lia); apply Z.mod_mul; discriminate).
  assert (E1 : m * Minute / Second = m * 60) by (replace (m * Minute) with ((m * 60) * Second) by (consts; lia); apply Z.div_mul; discriminate).
  destruct (fmtFrac 9 (m * Minute) false "s") as [buf u]. cbn [fst snd] in S1, S2. rewrite E1 in S1. subst u.
  destruct S2 as [(_ & ->)|(k & x & j & _ & Hx & Hk & Hmx & _)].
  - rewrite Z.mod_mul, Z.div_mul by lia. destruct (Z.ltb_spec 0 m); [|lia].
    destruct (Z.ltb_spec 0 (m / 60)) as [_|L3]; [reflexivity|]. pose proof (Z.div_mod m 60 ltac:(lia)). pose proof (Z.mod_pos_bound m 60 ltac:(lia)). lia.
  - exfalso. rewrite E0 in Hmx. assert (0 < 10 ^ Z.of_nat j) by (apply Z.pow_pos_nonneg; lia). nia.
Qed.
Lemma substring_prefix a b : substring 0 (String.length a) (a ++ b) = a.
Proof. induction a as [|c a IH]; cbn; [destruct b; reflexivity|]. rewrite IH. reflexivity. Qed.

(** A duration of an hour or more is written in hours and minutes, without seconds... *)
Theorem C66_hours_and_minutes :
  forall d, int64 d -> Hour <= d ->
    exists h m, TruncateDuration d = h * Hour + m * Minute /\ 0 < h /\ 0 <= m < 60 /\
      HumanizeDuration d = (itoa h ++ "h" ++ itoa m ++ "m")%string.
Proof.
  intros d Hi Hd. destruct (trunc_bounds d Hi) as (_ & Hh & Hm). destruct (Hm Hd) as (m & E & H60). apply Hh in Hd.
  exists (m / 60), (m mod 60). pose proof (Z.div_mod m 60 ltac:(lia)) as Hdm. pose proof (Z.mod_pos_bound m 60 ltac:(lia)) as Hb.
  split; [rewrite E; unfold Hour; lia|]. split; [lia|]. split; [exact Hb|].
  unfold HumanizeDuration. destruct (Z.leb_spec Hour (TruncateDuration d)); [|lia]. rewrite E, magnitude_hours by exact H60.
  set (a := (itoa (m / 60) ++ "h" ++ itoa (m mod 60) ++ "m")%string).
  assert (Ea : (itoa (m / 60) ++ "h" ++ itoa (m mod 60) ++ "m0s")%string = (a ++ "0s")%string).
  { unfold a. rewrite <- !str_app_assoc. reflexivity. }
  rewrite Ea. assert (HS : HasSuffix (a ++ "0s") "0s" = true) by (apply HasSuffix_iff; exists a; reflexivity).
  unfold TrimSuffix. rewrite HS. cbn [andb]. rewrite str_length_app. replace (String.length a + String.length "0s" - String.length "0s")%nat with (String.length a) by lia.
  apply substring_prefix.
Qed.
Print Assumptions C66_hours_and_minutes.

(** ... and in every case the text, read as a duration, is exactly the truncated
    duration: nothing else is lost, and two durations have the same text only if they
    are truncated to the same value. *)
Theorem C66_text_is_the_truncated_duration :
  forall float_part d, float_exact float_part -> int64 d ->
    ParseDuration float_part (HumanizeDuration d) = Some (TruncateDuration d).
Proof.
  intros fl d Hfl Hi. destruct (trunc_bounds d Hi) as (Ht & Hh & _). destruct (Z.leb_spec Hour d) as [L|L].
  - destruct (C66_hours_and_minutes d Hi L) as (h & m & E & Hp & Hm & ->). rewrite E in *.
    unfold ParseDuration. destruct (itoa_first h ltac:(lia)) as (c & s & Es & Hc & A & B).
    assert (SG : sign (itoa h ++ "h" ++ itoa m ++ "m") = (false, (itoa h ++ "h" ++ itoa m ++ "m")%string)) by (rewrite Es; cbn [append]; apply sign_first; auto).
    rewrite SG. destruct (String.eqb_spec (itoa h ++ "h" ++ itoa m ++ "m") "0") as [E0|_].
    { exfalso. apply (f_equal String.length) in E0. rewrite !str_length_app in E0. cbn [String.length] in E0. pose proof (itoa_length h ltac:(lia)). lia. }
    destruct (String.eqb_spec (itoa h ++ "h" ++ itoa m ++ "m") "") as [E0|_]; [rewrite Es in E0; discriminate|].
    assert (LEN : (2 <= String.length (itoa h ++ "h" ++ itoa m ++ "m"))%nat).
    { rewrite !str_length_app. cbn [String.length]. pose proof (itoa_length h ltac:(lia)). lia. }
    destruct (String.length (itoa h ++ "h" ++ itoa m ++ "m")) as [|[|n]]; try lia.
    unfold int64 in Ht. assert (S9 : 0 < Minute /\ 0 < Hour) by (split; reflexivity).
    rewrite (parse_whole fl _ h "h" Hour); [|exact unit_h|lia|lia|nia|apply itoa_head; lia].
    replace (itoa m ++ "m")%string with (itoa m ++ "m" ++ "")%string by reflexivity.
    rewrite (parse_whole fl _ m "m" Minute); [|exact unit_m|lia|nia|nia|exact I].
    assert (PE : forall f x, parse_loop fl f "" x = Some x) by (intros [|f] x; reflexivity). rewrite PE.
    destruct (Z.ltb_spec (two63 - 1) (0 + h * Hour + m * Minute)); [lia|]. f_equal; try lia.
  - unfold HumanizeDuration. destruct (Z.leb_spec Hour (TruncateDuration d)) as [L2|_]; [apply Hh in L2; lia|]. cbn [andb].
    apply ParseDuration_String; assumption.
Qed.
Print Assumptions C66_text_is_the_truncated_duration.

Example C66_instance :
  int64 (25 * Hour + 61 * Second) /\ HumanizeDuration (25 * Hour + 61 * Second) = "25h0m" /\
  HumanizeDuration (Hour + 10 * Minute + 20 * Second) = "1h10m" /\ HumanizeDuration (61 * Second + 7) = "1m1s" /\
  HumanizeDuration (-1500 * Millisecond) = "-1.5s" /\ HumanizeDuration 1999999 = "1.9ms" /\ HumanizeDuration 0 = "0s".
Proof. split; [unfold int64; vm_compute; split; congruence|]. repeat split; vm_compute; reflexivity. Qed.

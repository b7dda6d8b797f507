(** C92: times in JSON. *)
From Verif Require Import Go L_List M_Strings L_Strings M_Types M_RingBuf M_RingBufs M_Filter M_Stats M_Search M_Humanize M_Text L_Text M_Web S_Search S_Collector S_Filter L_Search P_Filter P_Search P_Web M_Json S_Json P_Json M_JsonText S_JsonText L_JsonText L_JsonRead L_JsonWrite P_JsonText D_Demo P_JsonFindings M_Time S_Time L_Time L_TimeText.
Open Scope list_scope.
Open Scope string_scope.
Open Scope Z_scope.

(** The day that is found for a number of days is the date that so many days lead to, forwards
    or backwards, and the other way around; every date is the date of some day. *)
Theorem C92_calendar :
  (forall n a, absDate n = a <-> day_is n a) /\
  (forall n y m d, is_date (y, m, d) -> (day_of y m d = n <-> day_is n (y, m, d))).
Proof.
  split; [intros n a; symmetry; apply day_is_spec|]. intros n y m d D. rewrite day_is_date. cbn [day_of_date]. tauto.
Qed.

(** What is read as a time is exactly the text of that time. *)
Theorem C92_read : forall s t, parseRFC3339 s = Some t <-> means s t.
Proof. exact parse_spec. Qed.

(** What is written is the text of that time.  It is written exactly if the year has four
    digits. *)
Theorem C92_written :
  forall t, (forall s, rfc3339 t = Some s -> means s t) /\ (rfc3339 t <> None <-> four_digit_year t).
Proof.
  intros t. split; [intros s; apply rfc3339_means|]. unfold rfc3339. change Second with (10 ^ 9). destruct (absDate (t / 10 ^ 9 / 86400)) as [[y m] d] eqn:E.
  assert (D : forall n, n * 86400 * 10 ^ 9 <= t < (n + 1) * 86400 * 10 ^ 9 <-> n = t / 10 ^ 9 / 86400).
  { intros n. rewrite Z.div_div by lia. change (10 ^ 9 * 86400) with (86400 * 10 ^ 9). split; [intros H; apply (Z.div_unique t (86400 * 10 ^ 9) n (t - n * 86400 * 10 ^ 9)); lia|intros ->; Zdm]. }
  split.
  - intros H. destruct ((0 <=? y) && (y <=? 9999)) eqn:B; [|congruence]. rewrite andb_true_iff, !Z.leb_le in B. exists y, m, d. split; [|exact B]. exists (t / 10 ^ 9 / 86400). split; [apply day_is_spec; exact E|apply D; reflexivity].
  - intros (y' & m' & d' & (n & H1 & H2) & B). apply D in H2. subst n. apply day_is_spec in H1. rewrite E in H1. injection H1 as -> -> ->.
    assert (X : (0 <=? y') && (y' <=? 9999) = true) by (rewrite andb_true_iff, !Z.leb_le; exact B). rewrite X. discriminate.
Qed.

Lemma ascii_app a b : ascii_only a = true -> ascii_only b = true -> ascii_only (a ++ b) = true.
Proof. induction a as [|c a IH]; cbn [append ascii_only]; [auto|]. rewrite !andb_true_iff. intros [H1 H2] H3. auto. Qed.
Lemma ascii_digits s x : decimal_value s x -> ascii_only s = true.
Proof.
  rewrite <- read_value. generalize 0. revert x. induction s as [|c s IH]; intros x z; cbn [read_digits ascii_only]; [reflexivity|].
  destruct (digit c) as [v|] eqn:E; [|discriminate]. intros H. rewrite (IH _ _ H), andb_true_r. apply digit_spec in E. destruct E as [E _]. apply Nat.ltb_lt. unfold is_digit_code, code, byte in *. lia.
Qed.
Lemma means_utf8 s t : means s t -> utf8 s.
Proof.
  intros (Y & M & D & h & m & sc & frac & zone & year & month & day & hour & mi & sec & ns & o & n & -> & HY & HM & HD & Hh & Hm & Hs & _ & _ & _ & Fr & Zn & _). apply utf8_ascii.
  assert (F : ascii_only frac = true) by (destruct Fr as [[-> _]|(d & x & -> & _ & Dx & _)]; [reflexivity|cbn [ascii_only]; rewrite (ascii_digits _ _ Dx); reflexivity]).
  assert (Z : ascii_only zone = true).
  { destruct Zn as [[-> _]|(sg & hh & h' & mm & m' & -> & [_ H1] & [_ H2] & _ & _ & S)]; [reflexivity|]. cbn [ascii_only]. rewrite (ascii_app hh _ (ascii_digits _ _ H1)).
    - destruct S as [[-> _]|[-> _]]; reflexivity.
    - cbn [append ascii_only]. rewrite (ascii_digits _ _ H2). reflexivity. }
  repeat (apply ascii_app; [first [reflexivity|eapply ascii_digits; match goal with H : digits_of _ _ _ |- _ => exact (proj2 H) end|exact F]|]). exact Z.
Qed.

(** So times are read back as they were written, which is what C56, C67, C87, C90 and C91 ask of
    the time package, and two times have different texts. *)
Theorem C92_times_read_back :
  forall other, times_read_back rfc3339 (parse_time other) /\ times_are_text rfc3339 /\
    forall t t' s, rfc3339 t = Some s -> rfc3339 t' = Some s -> t = t'.
Proof.
  intros other. assert (R : forall t s, rfc3339 t = Some s -> parseRFC3339 s = Some t) by (intros t s H; apply parse_spec, rfc3339_means, H).
  split; [intros t s H; unfold parse_time; rewrite (R t s H); reflexivity|]. split; [intros t s H; eapply means_utf8, rfc3339_means; exact H|].
  intros t t' s H H'. apply R in H, H'. congruence.
Qed.
Lemma years_writable t : writable_trace four_digit_year t -> writable_trace (fun t => rfc3339 t <> None) t.
Proof. intros [H1 H2]. split; [apply C92_written; exact H1|]. eapply Forall_impl; [|exact H2]. intros e He. apply C92_written. exact He. Qed.

(** A trace with any texts and with times in the years 0 to 9999 has a JSON text, and reading that
    text gives the trace. *)
Theorem C92_trace_text :
  forall other short ind t, writable_trace four_digit_year t ->
    (exists j, enc_static rfc3339 t j) /\
    forall j, enc_static rfc3339 t j ->
      (forall rest, read (dec_static (parse_time other)) (text short ind j ++ rest) = Some (sent_trace t)) /\
      (valid_trace t -> sent_trace t = t).
Proof.
  intros other short ind t W. destruct (C92_times_read_back other) as (R & U & _). split.
  - apply (proj1 (C56_trace_roundtrip rfc3339 (parse_time other) R t)), years_writable, W.
  - intros j E. split; [apply (C90_trace_text rfc3339 (parse_time other) R U short ind t j E)|apply valid_sent_trace].
Qed.

(** Searching a collector through the client, with the text of the request and of the response,
    gives what searching it directly gives, without the problems. *)
Theorem C92_remote_equals_local :
  forall (RE : Type) (Compile : string -> RE + string) MatchString float_part other short short',
  forall (T : Type) (zero : T) (view : T -> StaticTrace) sort order source ops s freed (req : SearchRequest RE),
    Forall valid_op ops -> coll_run zero new_collector_storage ops = Ok (s, freed) -> is_order order ->
    (forall b, In b (req_Bucketing req) -> 0 <= b) -> valid_filter (req_Filter req) -> unused (req_Filter req) ->
    exists req' local,
      Search Compile MatchString view sort order source s req = Ok (req', local) /\
      (valid_response local -> writable_response four_digit_year local ->
         let remotely w := remote_text short short' rfc3339 (parse_time other) Compile float_part (collector_searcher Compile MatchString view sort order source s) req w in
         (exists w, remotely w) /\ forall w, remotely w -> same_response (without_problems local) (wr_Response w)).
Proof.
  intros RE C M fp other short short' T zero view sort order source ops s freed req H1 H2 H3 H4 H5 H6.
  destruct (C92_times_read_back other) as (R & U & _).
  destruct (C56_remote_equals_local RE C M fp rfc3339 (parse_time other) R T zero view sort order source ops s freed req H1 H2 H3 H4 H5 H6) as (req' & local & E & G).
  exists req', local. split; [exact E|]. intros V W. destruct (G V) as [G1 G2]. cbn zeta. split.
  - destruct G2 as [w G2].
    + destruct W as [W1 W2]. split; [eapply Forall_impl; [|exact W1]; intros t; apply years_writable|]. destruct (resp_Stats local) as [st|]; [|exact Logic.I].
      eapply Forall_impl; [|exact W2]. intros kc [K1 K2]. split; apply C92_written; assumption.
    + exists w. apply C90_search_text; assumption.
  - intros w Hw. apply G1. apply C90_search_text in Hw; assumption.
Qed.

(** Finding: the texts are not in the order of the times, since a fraction of a second has only
    as many digits as it needs. *)
Theorem C92_order_of_texts_refuted :
  exists t t' s s', rfc3339 t = Some s /\ rfc3339 t' = Some s' /\ t < t' /\ String.ltb s' s = true.
Proof. exists 0, 1. do 2 eexists. split; [vm_compute; reflexivity|]. split; [vm_compute; reflexivity|]. split; [lia|reflexivity]. Qed.

Example C92_instance :
  rfc3339 63835596800123456000 = Some "2023-11-14T22:13:20.123456Z" /\
  parseRFC3339 "2024-02-29T00:00:00.5+01:30" = Some 63844756200500000000 /\ parseRFC3339 "2023-02-29T00:00:00Z" = None /\
  day_is 0 (1, 1, 1) /\ is_date (2024, 2, 29) /\ ~ is_date (1900, 2, 29) /\
  four_digit_year 0 /\ ~ four_digit_year (- 366 * 86400 * 10 ^ 9 - 1) /\
  writable_trace four_digit_year (demo_seven "x").
Proof.
  assert (F : forall t, rfc3339 t <> None -> four_digit_year t) by (intros t; apply C92_written).
  split; [vm_compute; reflexivity|]. split; [vm_compute; reflexivity|]. split; [vm_compute; reflexivity|]. split; [constructor|].
  split; [apply is_date_spec; vm_compute; intuition congruence|]. split; [intros H; apply is_date_spec in H; destruct H as [_ [_ H]]; vm_compute in H; congruence|].
  split; [apply F; vm_compute; discriminate|]. split; [intros H; apply C92_written in H; apply H; vm_compute; reflexivity|].
  split; [apply F; vm_compute; discriminate|]. repeat constructor. apply F. vm_compute. discriminate.
Qed.

Print Assumptions C92_calendar.
Print Assumptions C92_read.
Print Assumptions C92_written.
Print Assumptions C92_times_read_back.
Print Assumptions C92_trace_text.
Print Assumptions C92_remote_equals_local.
Print Assumptions C92_order_of_texts_refuted.

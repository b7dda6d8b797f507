(** C116: the times and the ages on the search page. *)
From Coq Require Import String.
From Verif Require Import Go L_List M_Strings L_Strings M_Humanize M_Time S_Time L_Time L_TimeText M_Ages S_Ages L_Ages.
Open Scope string_scope.
Open Scope Z_scope.

(** The time next to an event is its time of day, to the microsecond, rounded down. *)
Theorem C116_timestamp :
  forall t, exists n hour min sec us,
    clock_reads (TimeTrunc t) hour min sec us /\
    let told := (n * 86400 + hour * 3600 + min * 60 + sec) * 10 ^ 9 + us * 1000 in told <= t < told + 1000.
Proof.
  intros t. set (clock := t / 10 ^ 9 mod 86400). assert (C : 0 <= clock < 86400) by (apply Z.mod_pos_bound; lia).
  assert (F : 0 <= t mod 10 ^ 9 < 10 ^ 9) by (apply Z.mod_pos_bound; lia).
  exists (t / 10 ^ 9 / 86400), (clock / 3600), (clock mod 3600 / 60), (clock mod 60), (t mod 10 ^ 9 / 1000). split.
  - unfold TimeTrunc. change Second with (10 ^ 9). fold clock.
    destruct (pad_spec 6 (t mod 10 ^ 9 / 1000) "") as (p4 & -> & D4); [change (10 ^ Z.of_nat 6) with 1000000; Zdm|].
    destruct (pad_spec 2 (clock mod 60) ("." ++ p4 ++ "")) as (p3 & -> & D3); [change (10 ^ Z.of_nat 2) with 100; Zdm|].
    destruct (pad_spec 2 (clock mod 3600 / 60) (":" ++ p3 ++ "." ++ p4 ++ "")) as (p2 & -> & D2); [change (10 ^ Z.of_nat 2) with 100; Zdm|].
    destruct (pad_spec 2 (clock / 3600) (":" ++ p2 ++ ":" ++ p3 ++ "." ++ p4 ++ "")) as (p1 & -> & D1); [change (10 ^ Z.of_nat 2) with 100; Zdm|].
    exists p1, p2, p3, p4. rewrite str_app_nil_r. split; [reflexivity|]. do 4 (split; [assumption|]). split; [Zdm|]. split; Zdm.
  - cbn zeta. assert (T : t = (t / 10 ^ 9 / 86400 * 86400 + clock) * 10 ^ 9 + t mod 10 ^ 9) by (unfold clock; clear; Zdm).
    assert (K : clock = clock / 3600 * 3600 + clock mod 3600 / 60 * 60 + clock mod 60) by (clear; Zdm).
    set (q := t / 10 ^ 9 / 86400) in *. set (f := t mod 10 ^ 9) in *. clearbody q f clock. revert T K F. clear. Zdm.
Qed.

(** So on one day the texts are in the order of the times. *)
Theorem C116_order :
  forall t t' a, on_day t a -> on_day t' a -> String.compare (TimeTrunc t) (TimeTrunc t') = (t / 1000 ?= t' / 1000).
Proof.
  intros t t' a (n & D & H) (n' & D' & H'). apply day_is_date in D, D'. destruct D as [_ <-], D' as [_ <-]. set (n := day_of_date a) in *. clearbody n.
  rewrite clock_compare. assert (E : t mod (86400 * 10 ^ 9) = t - n * (86400 * 10 ^ 9)) by (symmetry; apply (Z.mod_unique t _ n); lia).
  assert (E' : t' mod (86400 * 10 ^ 9) = t' - n * (86400 * 10 ^ 9)) by (symmetry; apply (Z.mod_unique t' _ n); lia). rewrite E, E'.
  replace (t - n * (86400 * 10 ^ 9)) with (t + - (n * 86400000000) * 1000) by lia. replace (t' - n * (86400 * 10 ^ 9)) with (t' + - (n * 86400000000) * 1000) by lia.
  rewrite !Z.div_add by lia. destruct (Z.compare_spec (t / 1000) (t' / 1000)) as [X|X|X]; [apply Z.compare_eq_iff|apply Z.compare_lt_iff|apply Z.compare_gt_iff]; lia.
Qed.

(** Finding: the date is not there.  Times that are whole days apart have the same text, and in a
    trace that goes past midnight the later event has the smaller one. *)
Theorem C116_date_refuted :
  (forall t days, TimeTrunc (t + days * (86400 * 10 ^ 9)) = TimeTrunc t) /\
  (forall t t' a b, on_day t a -> on_day t' b -> next_day a b -> t' + 1000 <= t + 86400 * 10 ^ 9 ->
     t < t' /\ String.compare (TimeTrunc t') (TimeTrunc t) = Lt).
Proof.
  split.
  - intros t days. apply String.compare_eq_iff. rewrite clock_compare. rewrite Z.mod_add by lia. apply Z.compare_refl.
  - intros t t' a b (n & D & H) (n' & D' & H') N L. apply next_day_ok in N. destruct N as (_ & _ & N). apply day_is_date in D, D'. destruct D as [_ <-], D' as [_ <-]. rewrite N in H'.
    set (n := day_of_date a) in *. clearbody n. split; [lia|]. rewrite clock_compare.
    assert (E : t mod (86400 * 10 ^ 9) = t - n * (86400 * 10 ^ 9)) by (symmetry; apply (Z.mod_unique t _ n); lia).
    assert (E' : t' mod (86400 * 10 ^ 9) = t' - (n + 1) * (86400 * 10 ^ 9)) by (symmetry; apply (Z.mod_unique t' _ (n + 1)); lia). rewrite E, E'. apply Z.compare_lt_iff.
    assert (G : t' - (n + 1) * (86400 * 10 ^ 9) + 1000 <= t - n * (86400 * 10 ^ 9)) by lia. revert G. generalize (t' - (n + 1) * (86400 * 10 ^ 9)) (t - n * (86400 * 10 ^ 9)). clear. intros x y G. Zdm.
Qed.

(** The title of the age of a trace is the time at which it started, rounded down to the second. *)
Lemma title_rfc3339 t : four_digit_year t -> rfc3339 (t - t mod 10 ^ 9) = Some (TimeRFC3339 t).
Proof.
  intros (y & m & d & (n & D & H) & Y). unfold rfc3339, TimeRFC3339. change Second with (10 ^ 9). replace ((t - t mod 10 ^ 9) / 10 ^ 9) with (t / 10 ^ 9) by (clear; Zdm).
  assert (E : t / 10 ^ 9 / 86400 = n) by (rewrite Z.div_div by lia; symmetry; apply (Z.div_unique t _ n (t - n * 86400 * 10 ^ 9)); lia). rewrite E.
  apply day_is_spec in D. rewrite D. assert (X : (0 <=? y) && (y <=? 9999) = true) by (rewrite andb_true_iff, !Z.leb_le; exact Y). rewrite X.
  replace ((t - t mod 10 ^ 9) mod 10 ^ 9) with 0 by (clear; Zdm). unfold appendNano. cbn [Z.eqb append]. f_equal. unfold appendYear. destruct (Z.ltb_spec y 0); [lia|]. destruct (Z.leb_spec y 9999); [reflexivity|lia].
Qed.
Lemma pad_length k : forall x r, String.length (pad k x r) = (k + String.length r)%nat.
Proof. induction k as [|k IH]; intros x r; cbn [pad]; [reflexivity|]. rewrite IH. cbn [String.length]. lia. Qed.
Theorem C116_title :
  forall t, four_digit_year t -> means (TimeRFC3339 t) (t - t mod 10 ^ 9) /\ String.length (TimeRFC3339 t) = 20%nat.
Proof.
  intros t Y. split; [apply rfc3339_means, title_rfc3339, Y|]. destruct Y as (y & m & d & (n & D & H) & Y). unfold TimeRFC3339. change Second with (10 ^ 9).
  assert (E : t / 10 ^ 9 / 86400 = n) by (rewrite Z.div_div by lia; symmetry; apply (Z.div_unique t _ n (t - n * 86400 * 10 ^ 9)); lia). rewrite E.
  apply day_is_spec in D. rewrite D. unfold appendYear. destruct (Z.ltb_spec y 0); [lia|]. destruct (Z.leb_spec y 9999); [|lia].
  rewrite pad_length. cbn [append String.length]. rewrite pad_length. cbn [append String.length]. rewrite pad_length. cbn [append String.length]. rewrite pad_length. cbn [append String.length]. rewrite pad_length. cbn [append String.length]. rewrite pad_length. reflexivity.
Qed.

Definition epoch : Z := 719162 * 86400 * 10 ^ 9.
Lemma epoch_ok e : unix_epoch e <-> e = epoch.
Proof.
  unfold unix_epoch. split.
  - intros (n & D & ->). apply day_is_date in D. destruct D as [_ <-]. reflexivity.
  - intros ->. exists 719162. split; [apply day_is_spec; vm_compute; reflexivity|reflexivity].
Qed.
(** The four-digit years are within the times of a browser. *)
Lemma years_range t : four_digit_year t -> -366 * 86400 * 10 ^ 9 <= t < 3652059 * 86400 * 10 ^ 9.
Proof.
  intros (y & m & d & (n & D & H) & Y). apply day_is_date in D. destruct D as [V E]. cbn [day_of_date] in E. rewrite day_of_yday in E. apply is_date_spec in V. destruct V as [V1 V2].
  pose proof (yday_range (isLeap y) m d V1 V2) as R.
  assert (B : -366 <= n < 3652059).
  { assert (L0 : daysSinceEpoch 0 <= daysSinceEpoch y /\ daysSinceEpoch y + year_length y <= daysSinceEpoch 10000).
    { assert (MONO : forall k a, daysSinceEpoch a <= daysSinceEpoch (a + Z.of_nat k)).
      { induction k as [|k IH]; intros a; [rewrite Z.add_0_r; lia|]. rewrite Nat2Z.inj_succ. replace (a + Z.succ (Z.of_nat k)) with (a + Z.of_nat k + 1) by lia. rewrite daysSince_next. specialize (IH a).
        assert (0 <= year_length (a + Z.of_nat k)) by (unfold year_length; destruct (isLeap (a + Z.of_nat k)); lia). lia. }
      split; [replace (daysSinceEpoch y) with (daysSinceEpoch (0 + Z.of_nat (Z.to_nat y))) by (f_equal; lia); apply MONO|]. rewrite <- daysSince_next. replace (daysSinceEpoch 10000) with (daysSinceEpoch ((y + 1) + Z.of_nat (Z.to_nat (9999 - y)))) by (f_equal; lia). apply MONO. }
    change (daysSinceEpoch 0) with (-366) in L0. change (daysSinceEpoch 10000) with 3652059 in L0. unfold year_length in L0. destruct (isLeap y); lia. }
  lia.
Qed.

Section Age.
Variables (parse : string -> option Z) (started : Z).
Hypotheses (B : browser parse) (Y : four_digit_year started).
Lemma age_since now : age parse started now = since (now - (started - started mod 10 ^ 9 - epoch) / 10 ^ 6).
Proof.
  unfold age, timeSince. destruct (C116_title started Y) as [M L]. rewrite (B _ _ epoch M L); [reflexivity|]. apply epoch_ok. reflexivity.
Qed.
Lemma elapsed now i : instant now i -> i - (started - started mod 10 ^ 9) = (now - (started - started mod 10 ^ 9 - epoch) / 10 ^ 6) * 10 ^ 6.
Proof. intros (e & E & ->). apply epoch_ok in E. subst e. unfold epoch. clear. Zdm. Qed.
Lemma elapsed_small now : browser_time now -> now - (started - started mod 10 ^ 9 - epoch) / 10 ^ 6 < 2 ^ 53.
Proof. intros H. pose proof (years_range started Y) as R. unfold browser_time in H. unfold epoch. change (2 ^ 53) with 9007199254740992. revert H R. clear. Zdm. Qed.
End Age.

(** The age of a trace is told in its largest unit and the next, rounded down, counted from the
    beginning of the second in which the trace started: at most one second too much.  The
    browser computes with float64 numbers, which does not matter. *)
Theorem C116_age :
  forall parse started now i, browser parse -> four_digit_year started -> browser_time now -> instant now i ->
    let second := started - started mod 10 ^ 9 in
    (second <= i -> exists v u, says (age parse started now) v u /\
       v * 10 ^ 6 <= i - second < (v + u) * 10 ^ 6 /\ v * 10 ^ 6 - 10 ^ 9 < i - started < (v + u) * 10 ^ 6) /\
    (i <= second -> age parse started now = "fresh").
Proof.
  intros parse started now i B Y N I second. subst second. pose proof (elapsed started now i I) as E. pose proof (elapsed_small started Y now N) as S. rewrite (age_since parse started B Y).
  set (ms := now - (started - started mod 10 ^ 9 - epoch) / 10 ^ 6) in *. clearbody ms. split; intros H.
  - assert (P : 0 <= ms) by lia. destruct (since_says ms (conj P S)) as (v & u & V & R). exists v, u. split; [exact V|]. assert (F : 0 <= started mod 10 ^ 9 < 10 ^ 9) by (apply Z.mod_pos_bound; lia). split; lia.
  - apply since_neg. lia.
Qed.

(** What an age says is one thing only, and it never gets smaller while time goes on. *)
Theorem C116_one_meaning : forall s v u v' u', says s v u -> says s v' u' -> v = v' /\ u = u'.
Proof. exact says_fun. Qed.
Theorem C116_grows :
  forall parse started now now', browser parse -> four_digit_year started -> browser_time now -> browser_time now' -> now <= now' ->
    exists v u v' u', says (age parse started now) v u /\ says (age parse started now') v' u' /\ v <= v'.
Proof.
  intros parse started now now' B Y N N' L. rewrite !(age_since parse started B Y). pose proof (elapsed_small started Y now N) as S. pose proof (elapsed_small started Y now' N') as S'.
  set (z := (started - started mod 10 ^ 9 - epoch) / 10 ^ 6) in *. clearbody z.
  destruct (Z.le_gt_cases (now' - z) 0) as [H|H]; [exists 0, 1, 0, 1; rewrite !since_neg by lia; split; [constructor|]; split; [constructor|lia]|].
  destruct (since_says (now' - z)) as (v' & u' & V' & R'); [lia|]. pose proof (says_nonneg _ _ _ V') as P'.
  destruct (Z.le_gt_cases (now - z) 0) as [K|K]; [exists 0, 1, v', u'; rewrite since_neg by lia; split; [constructor|]; split; [exact V'|exact P']|].
  destruct (since_says (now - z)) as (v & u & V & R); [lia|]. exists v, u, v', u'. split; [exact V|]. split; [exact V'|].
  rewrite (says_shown _ _ _ _ V R), (says_shown _ _ _ _ V' R'). apply shown_mono. lia.
Qed.

(** Finding: the fraction of the second is lost, so a trace that did not start with a second is
    "1s" old as soon as the next second begins, however young it is. *)
Theorem C116_one_second_refuted :
  forall parse started now, browser parse -> four_digit_year started -> started mod 10 ^ 9 <> 0 ->
    instant now (started - started mod 10 ^ 9 + 10 ^ 9) ->
    age parse started now = "1s" /\ started - started mod 10 ^ 9 + 10 ^ 9 - started < 10 ^ 9.
Proof.
  intros parse started now B Y F I. pose proof (elapsed started now _ I) as E. rewrite (age_since parse started B Y). set (ms := now - (started - started mod 10 ^ 9 - epoch) / 10 ^ 6) in *. clearbody ms.
  assert (ms = 1000) as -> by lia. split; [vm_compute; reflexivity|]. assert (0 <= started mod 10 ^ 9 < 10 ^ 9) by (apply Z.mod_pos_bound; lia). lia.
Qed.

(** A browser, and a trace that started on 16 November 2023 at 22:13:20.5 and is 26 hours and 3.5
    seconds old. *)
Definition some_browser (s : string) : option Z := option_map (fun t => (t - epoch) / 10 ^ 6) (parseRFC3339 s).
Example C116_instance :
  let started := epoch + 1700172800500 * 10 ^ 6 + 123456 in
  browser some_browser /\ four_digit_year started /\ browser_time 1700266404000 /\ instant 1700266404000 (epoch + 1700266404000 * 10 ^ 6) /\
  started mod 10 ^ 9 <> 0 /\ TimeTrunc started = "22:13:20.500123" /\ TimeRFC3339 started = "2023-11-16T22:13:20Z" /\
  age some_browser started 1700266404000 = "1d2h" /\ says "1d2h" (1 * a_day + 2 * an_hour) an_hour /\
  map (fun ms => age some_browser started (1700172800000 + ms)) [-5; 0; 7; 1000; 61000; 3599999; 3600000; 86400000]%Z =
    ["fresh"; "fresh"; "7ms"; "1s"; "1m1s"; "59m59s"; "1h0m"; "1d0h"] /\
  on_day started (2023, 11, 16) /\ TimeTrunc (started + 6400 * 10 ^ 9) = "00:00:00.500123".
Proof.
  cbn zeta. assert (D : on_day (epoch + 1700172800500 * 10 ^ 6 + 123456) (2023, 11, 16)) by (exists 738839; split; [apply day_is_spec; vm_compute; reflexivity|unfold epoch; lia]).
  split; [intros s t e M _ E; apply epoch_ok in E; subst e; unfold some_browser; rewrite (proj2 (parse_spec s t) M); reflexivity|].
  split; [exists 2023, 11, 16; split; [exact D|lia]|]. split; [unfold browser_time; lia|]. split; [exists epoch; split; [apply epoch_ok; reflexivity|reflexivity]|].
  split; [vm_compute; discriminate|]. split; [vm_compute; reflexivity|]. split; [vm_compute; reflexivity|]. split; [vm_compute; reflexivity|]. split; [apply (says_days 1 2); lia|]. split; [vm_compute; reflexivity|]. split; [exact D|vm_compute; reflexivity].
Qed.

Print Assumptions C116_timestamp.
Print Assumptions C116_order.
Print Assumptions C116_date_refuted.
Print Assumptions C116_title.
Print Assumptions C116_age.
Print Assumptions C116_one_meaning.
Print Assumptions C116_grows.
Print Assumptions C116_one_second_refuted.

(** C61: TruncateDuration. *)
From Verif Require Import Go M_Humanize.
Open Scope Z_scope.

(** The documented precision for each range: the unit durations of that size are shown in. *)
Definition precision (d : Z) : Z :=
  if d <? Microsecond then 1
  else if d <? Millisecond then Microsecond
  else if d <? 10 * Millisecond then 100 * Microsecond
  else if d <? Second then Millisecond
  else if d <? Minute then 100 * Millisecond
  else if d <? Hour then Second
  else if d <? 24 * Hour then Minute
  else if d <? 240 * Hour then Hour
  else 24 * Hour.

Ltac consts := unfold Hour, Minute, Second, Millisecond, Microsecond in *.

(** It is the largest multiple of the precision that is at most d. *)
Theorem C61_truncated_to_the_precision :
  forall d, TruncateDuration d <= d /\ d - TruncateDuration d < precision d /\ (precision d | TruncateDuration d).
Proof.
  intros d. unfold TruncateDuration, precision, Truncate. consts. cbn -[Z.rem Z.divide Z.leb Z.ltb Z.sub].
  assert (H : forall m, 0 < m -> 0 <= d -> d - Z.rem d m <= d /\ d - (d - Z.rem d m) < m /\ (m | d - Z.rem d m)).
  { intros m Hm Hd. pose proof (Z.rem_bound_pos d m Hd Hm). pose proof (Z.quot_rem' d m) as E. split; [lia|]. split; [lia|].
    exists (Z.quot d m). lia. }
  repeat match goal with |- context [?x <=? ?y] => destruct (Z.leb_spec x y); try lia end;
  repeat match goal with |- context [?x <? ?y] => destruct (Z.ltb_spec x y); try lia end;
  try (apply H; lia).
  split; [lia|]. split; [lia|]. apply Z.divide_1_l.
Qed.
Print Assumptions C61_truncated_to_the_precision.

Lemma trunc_range d m lo : 0 < m -> 0 <= lo <= d -> (m | lo) -> lo <= d - Z.rem d m <= d.
Proof.
  intros Hm Hd [k ->]. pose proof (Z.rem_bound_pos d m ltac:(lia) Hm). pose proof (Z.quot_rem' d m) as E. split; [|lia].
  assert (k <= Z.quot d m) by nia. nia.
Qed.
Lemma trunc_mono d d' m : 0 < m -> 0 <= d <= d' -> d - Z.rem d m <= d' - Z.rem d' m.
Proof.
  intros Hm Hd. pose proof (Z.quot_rem' d m). pose proof (Z.quot_rem' d' m).
  pose proof (Z.quot_le_mono d d' m Hm ltac:(lia)). nia.
Qed.
Lemma trunc_idem d m : 0 < m -> 0 <= d -> (d - Z.rem d m) - Z.rem (d - Z.rem d m) m = d - Z.rem d m.
Proof.
  intros Hm Hd. pose proof (Z.quot_rem' d m) as E. replace (d - Z.rem d m) with (Z.quot d m * m) by lia. rewrite Z.rem_mul by lia. lia.
Qed.

(** Which range a duration is in: the lower bound of the range and its precision. *)
Definition range (d : Z) : option (Z * Z) :=
  if 240 * Hour <=? d then Some (240 * Hour, 24 * Hour)
  else if 24 * Hour <=? d then Some (24 * Hour, Hour)
  else if Hour <=? d then Some (Hour, Minute)
  else if Minute <=? d then Some (Minute, Second)
  else if Second <=? d then Some (Second, 100 * Millisecond)
  else if 10 * Millisecond <=? d then Some (10 * Millisecond, 1000 * Microsecond)
  else if Millisecond <=? d then Some (Millisecond, 100 * Microsecond)
  else if Microsecond <=? d then Some (Microsecond, Microsecond)
  else None.
Lemma Truncate_range d : TruncateDuration d = match range d with Some (_, m) => d - Z.rem d m | None => d end.
Proof.
  unfold TruncateDuration, range. change (10 * 24 * Hour) with (240 * Hour). change (1 * Millisecond) with Millisecond. change (1 * Microsecond) with Microsecond.
  repeat match goal with |- context [?x <=? d] => destruct (x <=? d); [reflexivity|] end. reflexivity.
Qed.
Lemma range_spec d : match range d with Some (lo, m) => 0 < m /\ 0 < lo <= d /\ (m | lo) | None => d < Microsecond end.
Proof.
  unfold range. consts.
  repeat match goal with |- context [?x <=? d] => destruct (Z.leb_spec x d);
    [split; [reflexivity|]; split; [lia|]; match goal with |- (?m | ?lo) => exists (Z.div lo m); reflexivity end|] end. lia.
Qed.
(** the range only depends on the lower bounds passed *)
Lemma range_mono d d' : d <= d' ->
  match range d, range d' with
  | Some (lo, m), Some (lo', m') => (lo = lo' /\ m = m') \/ d < lo'
  | Some _, None => False
  | None, Some (lo', _) => d < lo'
  | None, None => True
  end.
Proof.
  intros H. unfold range. consts.
  repeat match goal with |- context [?x <=? d] => destruct (Z.leb_spec x d) end;
  repeat match goal with |- context [?x <=? d'] => destruct (Z.leb_spec x d') end; try lia; auto.
Qed.
Lemma range_same d x lo m : range d = Some (lo, m) -> lo <= x <= d -> range x = Some (lo, m).
Proof.
  unfold range. consts. intros H Hx.
  repeat match type of H with context [?y <=? d] => destruct (Z.leb_spec y d) in H; [injection H as <- <-;
    repeat match goal with |- context [?z <=? x] => destruct (Z.leb_spec z x); try lia; try reflexivity end|] end. discriminate.
Qed.

Theorem C61_monotone : forall d d', d <= d' -> TruncateDuration d <= TruncateDuration d'.
Proof.
  intros d d' H. rewrite !Truncate_range. pose proof (range_spec d) as Hd. pose proof (range_spec d') as Hd'. pose proof (range_mono d d' H) as HM.
  destruct (range d) as [[lo m]|], (range d') as [[lo' m']|]; try contradiction; try lia.
  - destruct Hd as (M & L & D), Hd' as (M' & L' & D'). destruct HM as [[-> ->]|HM].
    + apply trunc_mono; lia.
    + pose proof (trunc_range d m lo M ltac:(lia) D). pose proof (trunc_range d' m' lo' M' ltac:(lia) D'). lia.
  - destruct Hd' as (M' & L' & D'). pose proof (trunc_range d' m' lo' M' ltac:(lia) D'). lia.
Qed.
Print Assumptions C61_monotone.

Theorem C61_idempotent : forall d, TruncateDuration (TruncateDuration d) = TruncateDuration d.
Proof.
  intros d. rewrite (Truncate_range d). pose proof (range_spec d) as Hd. destruct (range d) as [[lo m]|] eqn:E.
  - destruct Hd as (M & L & D). pose proof (trunc_range d m lo M ltac:(lia) D) as Ht. rewrite Truncate_range, (range_same d _ lo m E Ht).
    apply trunc_idem; lia.
  - rewrite Truncate_range, E. reflexivity.
Qed.
Print Assumptions C61_idempotent.

Theorem C61_small_and_negative_unchanged : forall d, d < Microsecond -> TruncateDuration d = d.
Proof.
  intros d H. rewrite Truncate_range. pose proof (range_spec d) as Hd. destruct (range d) as [[lo m]|] eqn:E; [|reflexivity].
  unfold range in E. consts. repeat match type of E with context [?y <=? d] => destruct (Z.leb_spec y d) in E; [lia|] end. discriminate.
Qed.
Print Assumptions C61_small_and_negative_unchanged.

Example C61_instance :
  TruncateDuration (1 * Hour + 2 * Minute + 3 * Second) = 1 * Hour + 2 * Minute /\ TruncateDuration 1234567 = 1200000 /\
  TruncateDuration 12345678 = 12000000 /\ TruncateDuration (-5) = -5 /\ TruncateDuration (250 * Hour + 7) = 240 * Hour.
Proof. vm_compute. repeat split. Qed.

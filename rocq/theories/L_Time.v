(** Lemmas about the calendar. *)
From Verif Require Import Go M_Strings M_Humanize M_Text M_Time S_Json S_JsonText S_Time.
Open Scope string_scope.
Open Scope Z_scope.

Ltac Zdm := Z.to_euclidean_division_equations; lia.

(** *** Years *)
Lemma isLeap_spec y : isLeap y = true <-> leap y.
Proof.
  unfold isLeap, leap. rewrite andb_true_iff, orb_true_iff, negb_true_iff, Z.eqb_eq, Z.eqb_neq, Z.eqb_eq.
  rewrite <- !Z.mod_divide by lia. tauto.
Qed.
(** a year after year 1 in cycles *)
Lemma year_cycles y : exists a b c e, y = 400 * a + 100 * b + 4 * c + e /\ 0 <= b <= 3 /\ 0 <= c <= 24 /\ 0 <= e <= 3 /\
  y / 400 = a /\ (y - 400 * a) / 100 = b /\ (y - 400 * a - 100 * b) / 4 = c.
Proof.
  exists (y / 400), ((y - 400 * (y / 400)) / 100). exists ((y - 400 * (y / 400) - 100 * ((y - 400 * (y / 400)) / 100)) / 4).
  eexists. split; [|split; [|split; [|split; [|repeat split; reflexivity]]]].
  - instantiate (1 := y - 400 * (y / 400) - 100 * ((y - 400 * (y / 400)) / 100) - 4 * ((y - 400 * (y / 400) - 100 * ((y - 400 * (y / 400)) / 100)) / 4)). lia.
  - Zdm.
  - Zdm.
  - Zdm.
Qed.
Lemma leap_cycles a b c e : 0 <= b <= 3 -> 0 <= c <= 24 -> 0 <= e <= 3 ->
  isLeap (400 * a + 100 * b + 4 * c + e + 1) = (e =? 3) && ((c <? 24) || (b =? 3)).
Proof.
  intros Hb Hc He. apply eq_true_iff_eq. rewrite isLeap_spec. unfold leap.
  rewrite andb_true_iff, orb_true_iff, !Z.eqb_eq, Z.ltb_lt. rewrite <- !Z.mod_divide by lia. 
  set (r := 100 * b + 4 * c + e + 1). replace (400 * a + 100 * b + 4 * c + e + 1) with (r + a * 400) by (unfold r; lia).
  assert (M4 : (r + a * 400) mod 4 = (e + 1) mod 4) by (replace (r + a * 400) with ((e + 1) + (100 * a + 25 * b + c) * 4) by (unfold r; lia); apply Z.mod_add; lia).
  assert (M1 : (r + a * 400) mod 100 = (4 * c + e + 1) mod 100) by (replace (r + a * 400) with ((4 * c + e + 1) + (4 * a + b) * 100) by (unfold r; lia); apply Z.mod_add; lia).
  rewrite Z.mod_add by lia. rewrite M4, M1. clear M4 M1. unfold r. clear r.
  assert (X1 : (e + 1) mod 4 = 0 <-> e = 3) by Zdm. assert (X2 : (4 * c + e + 1) mod 100 = 0 <-> c = 24 /\ e = 3) by Zdm. assert (X3 : (100 * b + 4 * c + e + 1) mod 400 = 0 <-> b = 3 /\ c = 24 /\ e = 3) by Zdm.
  rewrite X1, X2, X3. lia.
Qed.
Definition year_length (y : Z) : Z := if isLeap y then 366 else 365.
Lemma absYear_daysSince y yday : 0 <= yday < year_length y -> absYear (daysSinceEpoch y + yday) = (y, yday).
Proof.
  unfold year_length, daysSinceEpoch. destruct (year_cycles (y - 1)) as (a & b & c & e & E & Hb & Hc & He & Ea & Eb & Ec).
  rewrite Ea, Eb, Ec. replace y with (400 * a + 100 * b + 4 * c + e + 1) at 1 by lia. rewrite leap_cycles by assumption.
  intros H. unfold absYear, daysPer400Years, daysPer100Years, daysPer4Years in *.
  set (d := _ + yday). 
  assert (E1 : d = 146097 * a + (36524 * b + 1461 * c + 365 * e + yday)) by (unfold d; lia). clearbody d.
  assert (L : yday <= 365 /\ (yday = 365 -> e = 3 /\ (c < 24 \/ b = 3))).
  { destruct ((e =? 3) && ((c <? 24) || (b =? 3)))%bool eqn:X; [|lia]. rewrite andb_true_iff, orb_true_iff, Z.ltb_lt, !Z.eqb_eq in X. lia. }
  assert (Q1 : d / (365 * 400 + 97) = a) by Zdm. rewrite Q1. replace (d - (365 * 400 + 97) * a) with (36524 * b + 1461 * c + 365 * e + yday) by lia. clear Q1.
  set (d1 := 36524 * b + 1461 * c + 365 * e + yday).
  assert (Q2 : d1 / (365 * 100 + 24) - d1 / (365 * 100 + 24) / 4 = b) by (unfold d1; Zdm). rewrite Q2. 
  replace (d1 - (365 * 100 + 24) * b) with (1461 * c + 365 * e + yday) by (unfold d1; lia). clear Q2 d1.
  assert (Q3 : (1461 * c + 365 * e + yday) / (365 * 4 + 1) = c) by Zdm. rewrite Q3. clear Q3.
  replace (1461 * c + 365 * e + yday - (365 * 4 + 1) * c) with (365 * e + yday) by lia.
  assert (Q4 : (365 * e + yday) / 365 - (365 * e + yday) / 365 / 4 = e) by Zdm. rewrite Q4. clear Q4.
  f_equal; lia.
Qed.
Lemma absYear_spec d : exists y yday, absYear d = (y, yday) /\ d = daysSinceEpoch y + yday /\ 0 <= yday < year_length y.
Proof.
  set (a := d / 146097). set (r := d mod 146097). assert (E : d = 146097 * a + r /\ 0 <= r < 146097) by (unfold a, r; Zdm). clearbody a r. destruct E as [E R].
  set (b := r / 36524 - r / 36524 / 4). set (r2 := r - 36524 * b). assert (B : 0 <= b <= 3 /\ 0 <= r2 < 36524 + (if b =? 3 then 1 else 0)) by (unfold r2, b; destruct (Z.eqb_spec (r / 36524 - r / 36524 / 4) 3); Zdm).
  assert (Er : r = 36524 * b + r2) by (unfold r2; lia). clearbody b r2.
  set (c := r2 / 1461). set (r3 := r2 mod 1461). assert (C : r2 = 1461 * c + r3 /\ 0 <= r3 < 1461) by (unfold c, r3; Zdm). clearbody c r3.
  assert (C2 : 0 <= c <= 24) by (destruct (Z.eqb_spec b 3); lia).
  set (e := r3 / 365 - r3 / 365 / 4). set (yday := r3 - 365 * e). assert (Y : 0 <= e <= 3 /\ 0 <= yday <= 365 /\ (yday = 365 -> e = 3)) by (unfold yday, e; Zdm).
  assert (E3 : r3 = 365 * e + yday) by (unfold yday; lia). clearbody e yday.
  assert (V : 0 <= yday < year_length (400 * a + 100 * b + 4 * c + e + 1)).
  { unfold year_length. rewrite leap_cycles by lia. destruct ((e =? 3) && ((c <? 24) || (b =? 3)))%bool eqn:X; [lia|].
    rewrite andb_false_iff, orb_false_iff, Z.ltb_ge, !Z.eqb_neq in X. split; [lia|]. destruct (Z.eqb_spec b 3); lia. }
  exists (400 * a + 100 * b + 4 * c + e + 1), yday.
  assert (D : d = daysSinceEpoch (400 * a + 100 * b + 4 * c + e + 1) + yday).
  { unfold daysSinceEpoch, daysPer400Years, daysPer100Years, daysPer4Years. replace (400 * a + 100 * b + 4 * c + e + 1 - 1) with (400 * a + 100 * b + 4 * c + e) by lia.
    replace ((400 * a + 100 * b + 4 * c + e) / 400) with a by Zdm. replace (400 * a + 100 * b + 4 * c + e - 400 * a) with (100 * b + 4 * c + e) by lia.
    replace ((100 * b + 4 * c + e) / 100) with b by Zdm. replace (100 * b + 4 * c + e - 100 * b) with (4 * c + e) by lia. replace ((4 * c + e) / 4) with c by Zdm. lia. }
  split; [rewrite D; apply absYear_daysSince; exact V|]. split; [exact D|exact V].
Qed.
Lemma daysSince_cycles a b c e : 0 <= b <= 3 -> 0 <= c <= 24 -> 0 <= e <= 3 ->
  daysSinceEpoch (400 * a + 100 * b + 4 * c + e + 1) = 146097 * a + 36524 * b + 1461 * c + 365 * e.
Proof.
  intros Hb Hc He. unfold daysSinceEpoch, daysPer400Years, daysPer100Years, daysPer4Years. replace (400 * a + 100 * b + 4 * c + e + 1 - 1) with (400 * a + 100 * b + 4 * c + e) by lia.
  replace ((400 * a + 100 * b + 4 * c + e) / 400) with a by Zdm. replace (400 * a + 100 * b + 4 * c + e - 400 * a) with (100 * b + 4 * c + e) by lia.
  replace ((100 * b + 4 * c + e) / 100) with b by Zdm. replace (100 * b + 4 * c + e - 100 * b) with (4 * c + e) by lia. replace ((4 * c + e) / 4) with c by Zdm. lia.
Qed.
Lemma daysSince_next y : daysSinceEpoch (y + 1) = daysSinceEpoch y + year_length y.
Proof.
  destruct (year_cycles (y - 1)) as (a & b & c & e & Ey & Hb & Hc & He & _). replace y with (400 * a + 100 * b + 4 * c + e + 1) by lia. clear Ey y.
  unfold year_length. rewrite leap_cycles, daysSince_cycles by assumption.
  destruct (Z.eqb_spec e 3) as [->|]; cbn [andb].
  - destruct (Z.ltb_spec c 24); cbn [orb].
    + replace (400 * a + 100 * b + 4 * c + 3 + 1 + 1) with (400 * a + 100 * b + 4 * (c + 1) + 0 + 1) by lia. rewrite daysSince_cycles by lia. lia.
    + assert (c = 24) by lia. subst c. destruct (Z.eqb_spec b 3) as [->|].
      * replace (400 * a + 100 * 3 + 4 * 24 + 3 + 1 + 1) with (400 * (a + 1) + 100 * 0 + 4 * 0 + 0 + 1) by lia. rewrite daysSince_cycles by lia. lia.
      * replace (400 * a + 100 * b + 4 * 24 + 3 + 1 + 1) with (400 * a + 100 * (b + 1) + 4 * 0 + 0 + 1) by lia. rewrite daysSince_cycles by lia. lia.
  - replace (400 * a + 100 * b + 4 * c + e + 1 + 1) with (400 * a + 100 * b + 4 * c + (e + 1) + 1) by lia. rewrite daysSince_cycles by lia. lia.
Qed.

(** *** Months *)
(** the day of a year, from 0 *)
Definition yday (l : bool) (m d : Z) : Z := daysBefore (m - 1) + (if l && (3 <=? m) then 1 else 0) + (d - 1).
Definition mlen (l : bool) (m : Z) : Z := if (m =? 2) && l then 29 else daysBefore m - daysBefore (m - 1).
Definition months : list Z := [1; 2; 3; 4; 5; 6; 7; 8; 9; 10; 11; 12].
Lemma in_months m : 1 <= m <= 12 <-> In m months.
Proof. unfold months. cbn [In]. lia. Qed.
Lemma mlen_spec y m n : month_length y m n <-> 1 <= m <= 12 /\ n = mlen (isLeap y) m.
Proof.
  split.
  - intros H. destruct H as [y m I|y m I|y L|y L].
    + cbn [In] in I. unfold mlen. repeat (destruct I as [<-|I]; [split; [lia|reflexivity]|]). destruct I.
    + cbn [In] in I. unfold mlen. repeat (destruct I as [<-|I]; [split; [lia|reflexivity]|]). destruct I.
    + apply isLeap_spec in L. rewrite L. split; [lia|reflexivity].
    + rewrite <- isLeap_spec, not_true_iff_false in L. rewrite L. split; [lia|reflexivity].
  - intros [I ->]. apply in_months in I. unfold months in I. cbn [In] in I.
    assert (F : month_length y 2 (mlen (isLeap y) 2)).
    { destruct (isLeap y) eqn:L; cbn; constructor; [apply isLeap_spec; exact L|]. rewrite <- isLeap_spec, L. discriminate. }
    repeat (destruct I as [<-|I]; [first [exact F|apply month_31; cbn; tauto|apply month_30; cbn; tauto]|]). destruct I.
Qed.
Lemma daysIn_mlen y m : daysIn m y = mlen (isLeap y) m. Proof. reflexivity. Qed.
Lemma day_of_yday y m d : day_of y m d = daysSinceEpoch y + yday (isLeap y) m d.
Proof. unfold day_of, yday. lia. Qed.
Lemma yday_first l m d : yday l m d = yday l m 1 + (d - 1). Proof. unfold yday. lia. Qed.
Ltac ev := repeat match goal with
  | |- context [yday ?l ?m 1] => let v := eval vm_compute in (yday l m 1) in change (yday l m 1) with v
  | |- context [mlen ?l ?m] => let v := eval vm_compute in (mlen l m) in change (mlen l m) with v
  end.
Lemma yday_range l m d : 1 <= m <= 12 -> 1 <= d <= mlen l m -> 0 <= yday l m d < if l then 366 else 365.
Proof.
  intros Hm. apply in_months in Hm. unfold months in Hm. cbn [In] in Hm. rewrite yday_first.
  repeat (destruct Hm as [<-|Hm]; [destruct l; ev; lia|]). destruct Hm.
Qed.
Lemma yday_next l m : 1 <= m < 12 -> yday l (m + 1) 1 = yday l m (mlen l m) + 1.
Proof.
  intros H. assert (Hm : In m months) by (apply in_months; lia). unfold months in Hm. cbn [In] in Hm.
  repeat (destruct Hm as [<-|Hm]; [destruct l; try reflexivity; lia|]). destruct Hm.
Qed.
Definition zrange (n : nat) : list Z := map Z.of_nat (seq 0 n).
Lemma in_zrange n z : 0 <= z < Z.of_nat n <-> In z (zrange n).
Proof.
  unfold zrange. rewrite in_map_iff. split.
  - intros H. exists (Z.to_nat z). rewrite in_seq. lia.
  - intros (x & <- & I). apply in_seq in I. lia.
Qed.
Lemma absMonth_yday l m d : 1 <= m <= 12 -> 1 <= d <= mlen l m -> absMonth l (yday l m d) = (m, d).
Proof.
  intros Hm Hd. 
  assert (B : mlen l m <= 31) by (apply in_months in Hm; unfold months in Hm; cbn [In] in Hm; repeat (destruct Hm as [<-|Hm]; [destruct l; vm_compute; congruence|]); destruct Hm).
  assert (C : forallb (fun m : Z => forallb (fun d : Z => (negb (1 <=? d) || negb (d <=? mlen l m) || let '(m', d') := absMonth l (yday l m d) in (m' =? m) && (d' =? d))%bool) (zrange 32)) months = true) by (destruct l; vm_compute; reflexivity).
  rewrite forallb_forall in C. specialize (C m (proj1 (in_months m) Hm)). cbv beta in C. rewrite forallb_forall in C. specialize (C d). cbv beta in C.
  rewrite <- in_zrange in C. specialize (C ltac:(lia)). rewrite !orb_true_iff, !negb_true_iff, !Z.leb_gt in C.
  destruct (absMonth l (yday l m d)) as [m' d']. rewrite andb_true_iff, !Z.eqb_eq in C. destruct C as [[C|C]|[-> ->]]; [lia|lia|reflexivity].
Qed.
Lemma absMonth_spec (l : bool) x : 0 <= x < (if l then 366 else 365) -> exists m d, absMonth l x = (m, d) /\ 1 <= m <= 12 /\ 1 <= d <= mlen l m /\ yday l m d = x.
Proof.
  intros Hx.
  assert (C : forallb (fun x : Z => ((if l then false else 365 <=? x) || let '(m, d) := absMonth l x in (1 <=? m) && (m <=? 12) && (1 <=? d) && (d <=? mlen l m) && (yday l m d =? x))%bool) (zrange 366) = true) by (destruct l; vm_compute; reflexivity).
  rewrite forallb_forall in C. specialize (C x (proj1 (in_zrange 366 x) ltac:(destruct l; lia))). cbv beta in C.
  destruct (absMonth l x) as [m d]. exists m, d. split; [reflexivity|].
  rewrite orb_true_iff, !andb_true_iff, !Z.leb_le, Z.eqb_eq in C. destruct C as [C|C]; [destruct l; [discriminate|apply Z.leb_le in C; lia]|tauto].
Qed.

(** *** Dates *)
Lemma is_date_spec y m d : is_date (y, m, d) <-> 1 <= m <= 12 /\ 1 <= d <= mlen (isLeap y) m.
Proof.
  unfold is_date. split.
  - intros (n & H & Hd). apply mlen_spec in H. destruct H as [H ->]. tauto.
  - intros [H Hd]. exists (mlen (isLeap y) m). split; [apply mlen_spec|]; auto.
Qed.
Definition day_of_date (a : date) : Z := let '(y, m, d) := a in day_of y m d.
Lemma absDate_day_of a : is_date a -> absDate (day_of_date a) = a.
Proof.
  destruct a as [[y m] d]. rewrite is_date_spec. intros [Hm Hd]. cbn [day_of_date]. unfold absDate. rewrite day_of_yday, absYear_daysSince by (unfold year_length; apply yday_range; assumption).
  rewrite absMonth_yday by assumption. reflexivity.
Qed.
Lemma absDate_spec n : is_date (absDate n) /\ day_of_date (absDate n) = n.
Proof.
  unfold absDate. destruct (absYear_spec n) as (y & yd & -> & E & H). unfold year_length in H. destruct (absMonth_spec _ _ H) as (m & d & -> & Hm & Hd & Ey).
  split; [apply is_date_spec; auto|]. cbn [day_of_date]. rewrite day_of_yday, Ey. lia.
Qed.
Lemma next_day_ok a b : next_day a b -> is_date a /\ is_date b /\ day_of_date b = day_of_date a + 1.
Proof.
  intros H. destruct H as [y m d n L H|y m n L H|y].
  - apply mlen_spec in L. destruct L as [L ->]. rewrite !is_date_spec. cbn [day_of_date]. rewrite !day_of_yday. unfold yday. lia.
  - apply mlen_spec in L. destruct L as [L ->]. rewrite !is_date_spec. cbn [day_of_date]. rewrite !day_of_yday, yday_next by lia.
    assert (P : forall m, 1 <= m <= 12 -> 1 <= mlen (isLeap y) m).
    { clear. intros m Hm. apply in_months in Hm. unfold months in Hm. cbn [In] in Hm. repeat (destruct Hm as [<-|Hm]; [destruct (isLeap y); vm_compute; congruence|]). destruct Hm. }
    pose proof (P m ltac:(lia)). pose proof (P (m + 1) ltac:(lia)). lia.
  - rewrite !is_date_spec. cbn [day_of_date]. rewrite !day_of_yday, daysSince_next, (yday_first _ 12 31). unfold year_length.
    split; [|split]; [destruct (isLeap y); ev; lia|destruct (isLeap (y + 1)); ev; lia|]. destruct (isLeap y), (isLeap (y + 1)); ev; lia.
Qed.
Lemma next_day_ex a : is_date a -> exists b, next_day a b.
Proof.
  destruct a as [[y m] d]. rewrite is_date_spec. intros [Hm Hd]. destruct (Z.eq_dec d (mlen (isLeap y) m)) as [->|N].
  - destruct (Z.eq_dec m 12) as [->|M].
    + exists (y + 1, 1, 1). assert (E : mlen (isLeap y) 12 = 31) by reflexivity. rewrite E. apply next_year.
    + exists (y, m + 1, 1). apply next_month; [apply mlen_spec; auto|lia].
  - exists (y, m, d + 1). eapply next_in_month; [apply mlen_spec; eauto|lia].
Qed.
Lemma next_absDate n : next_day (absDate n) (absDate (n + 1)).
Proof.
  destruct (absDate_spec n) as [D E]. destruct (next_day_ex _ D) as [b B]. destruct (next_day_ok _ _ B) as (_ & Db & Eb).
  rewrite E in Eb. rewrite <- Eb, absDate_day_of by exact Db. exact B.
Qed.
Lemma day_is_spec n a : day_is n a <-> absDate n = a.
Proof.
  split.
  - intros H. induction H as [|n a b _ IH N|n a b _ IH N].
    + reflexivity.
    + destruct (next_day_ok _ _ N) as (_ & Db & Eb). rewrite <- IH in Eb. rewrite (proj2 (absDate_spec n)) in Eb. rewrite <- Eb. apply absDate_day_of. exact Db.
    + destruct (next_day_ok _ _ N) as (Da & _ & Eb). rewrite <- IH in Eb. rewrite (proj2 (absDate_spec n)) in Eb. replace (n - 1) with (day_of_date a) by lia. apply absDate_day_of. exact Da.
  - intros <-. destruct (Z.le_gt_cases 0 n) as [H|H].
    + revert n H. apply natlike_ind; [apply day_zero|]. intros n _ IH. eapply day_after; [exact IH|]. apply next_absDate.
    + assert (G : forall k, 0 <= k -> day_is (- k) (absDate (- k))).
      { apply natlike_ind; [apply day_zero|]. intros k _ IH. replace (- Z.succ k) with (- k - 1) by lia. eapply day_before; [exact IH|].
        pose proof (next_absDate (- k - 1)) as N. replace (- k - 1 + 1) with (- k) in N by lia. exact N. }
      specialize (G (- n) ltac:(lia)). replace (- - n) with n in G by lia. exact G.
Qed.
Lemma day_is_date n a : day_is n a <-> is_date a /\ day_of_date a = n.
Proof.
  rewrite day_is_spec. split; [intros <-; apply absDate_spec|]. intros [D <-]. apply absDate_day_of. exact D.
Qed.

(** C71: the column REUSE. *)
From Coq Require Import QArith Lqa.
From Verif Require Import Go L_List M_Strings M_Types M_Frame S_Trace M_Trace M_Heap L_Heap S_Heap P_Heap D_Demo M_Counters P_Counters M_Float S_Timeline L_Float M_Debug.
Open Scope string_scope.
Open Scope list_scope.
Open Scope Z_scope.

(** With the counters loaded at one moment, and after at least one object was asked for, REUSE is a
    number from 0 to 100, the percentage of FREE in NEW up to the rounding of float64; the part of
    the objects asked for that really was reused is not larger. *)
Theorem C71_reuse_column :
  forall (arg world pc : Type) (Sprintf : world -> string -> list arg -> string) (CallersFrames : list pc -> list rframe)
         (programs : list (list (hop arg world pc))) (sched : list nat) m c kind,
    c_run Sprintf CallersFrames sched (hm_start programs, zero_counters) = Ok (m, c) -> In kind [of_traces; of_events; of_stringers] ->
    (0 < n_new (kind c))%nat -> Z.of_nat (n_new (kind c)) <= 2 ^ 63 ->
    exists q, debug_reuse (debug_row kind c c c c) = Fin q /\
      close q (share (Z.of_nat (n_free (kind c))) (Z.of_nat (n_new (kind c)))) /\
      (Z.of_nat (n_new (kind c)) <= 2 ^ 46 -> (0 <= q <= 100)%Q) /\
      (share (Z.of_nat (n_new (kind c) - n_alloc (kind c))) (Z.of_nat (n_new (kind c))) <= share (Z.of_nat (n_free (kind c))) (Z.of_nat (n_new (kind c))))%Q.
Proof.
  intros arg world pc Sp CF programs sched m c kind E Hk Hp Hb.
  destruct (C71_reuse _ _ _ Sp CF programs sched m c kind E Hk) as (A1 & A2 & A3 & _).
  unfold debug_reuse, debug_row. cbn [r_free r_new].
  destruct (fpercent_close (Z.of_nat (n_free (kind c))) (Z.of_nat (n_new (kind c))) ltac:(lia) ltac:(lia)) as (q & Eq & C).
  exists q. split; [exact Eq|]. split; [exact C|]. split.
  - intros Hs. destruct (fpercent_small (Z.of_nat (n_free (kind c))) (Z.of_nat (n_new (kind c))) ltac:(lia) ltac:(lia)) as (q' & E' & R). rewrite Eq in E'. injection E' as <-.
    split; rewrite R.
    + change 0%Q with (round 0). apply round_mono. apply share_nonneg; lia.
    + pose proof (round_mono _ _ (share_le (Z.of_nat (n_free (kind c))) (Z.of_nat (n_new (kind c))) 100 ltac:(lia) ltac:(lia))) as H.
      rewrite (round_int 100) in H by lia. exact H.
  - unfold share. apply Qmult_le_compat_r; [|apply Qinv_le_0_compat; change 0%Q with (inject_Z 0); rewrite <- Zle_Qle; lia].
    rewrite <- ?inject_Z_mult, <- ?Zle_Qle. lia.
Qed.
Print Assumptions C71_reuse_column.


(** Finding: REUSE does not tell what was reused, only what was given back: here half of the traces,
    although every trace was allocated. *)
Definition demo_no_reuse : list (hop nat demo_world Z) :=
  [HSetCategorySize 0 1; demo_create "one" "A" None; demo_use 0 CallFinish; demo_create "one" "B" None].
Theorem C71_reuse_column_refuted :
  exists m c q, demo_count (repeat 0%nat 12) (hm_start [demo_no_reuse], zero_counters) = Ok (m, c) /\
    debug_row of_traces c c c c = MkRow 2 2 1 0 /\ debug_reuse (debug_row of_traces c c c c) = Fin q /\ (q == 50)%Q.
Proof. eexists _, _, _. split; [vm_compute; reflexivity|]. split; [reflexivity|]. split; [vm_compute; reflexivity|]. reflexivity. Qed.
Print Assumptions C71_reuse_column_refuted.
(** Before anything was asked for there is no percentage: the page shows NaN. *)
Theorem C71_reuse_column_at_first : debug_reuse (debug_row of_traces zero_counters zero_counters zero_counters zero_counters) = NaN.
Proof. vm_compute. reflexivity. Qed.
Print Assumptions C71_reuse_column_at_first.

(** Who knows what about accesses to ring buffers and to the maps of categories. *)
From Verif Require Import Go L_List S_Race M_Race L_Race L_RaceT.
From Coq Require Import Lia.
Open Scope list_scope.
Open Scope nat_scope.

(** [there k]: the category exists; [listed j k]: goroutine j is going to resize or walk category k;
    [walks j k]: j walks it, with its lock; [resizing j c]: j resizes the categories of collector c, with the lock of their map. *)
Record JR (there : key -> Prop) (listed walks : nat -> key -> Prop) (resizing : nat -> nat -> Prop) (l : log) : Prop := {
  r_there : forall p k, touched l p (LRing k) -> there k;
  r_ring : forall p k, touched l p (LRing k) -> passed l (SSet (fst k)) p \/ passed l (SRing k) p \/ exists j, walks j k /\ know l j p;
  r_list : forall j p k, listed j k -> touched l p (LRing k) -> know l j p \/ passed l (SRing k) p \/ exists j', walks j' k /\ know l j' p;
  r_set : forall p c, touched l p (LSet c) -> passed l (SSet c) p \/ exists j, resizing j c /\ know l j p;
  r_hset : forall j c, resizing j c -> holder (SSet c) l = Some j;
  r_hring : forall j k, walks j k -> holder (SRing k) l = Some j
}.

Lemma JR_step (there there' : key -> Prop) (listed listed' walks walks' : nat -> key -> Prop) (resizing resizing' : nat -> nat -> Prop) (l : log) i s :
  JR there listed walks resizing l ->
  (forall k, there k -> there' k) ->
  (forall p k, length l <= p -> touched (l ++ by_ i s) p (LRing k) ->
     there' k /\ (passed (l ++ by_ i s) (SRing k) p \/ walks' i k \/ (passed (l ++ by_ i s) (SSet (fst k)) p /\ ~ there k))) ->
  (forall j k, walks j k -> walks' j k \/ (j = i /\ In (Rel (SRing k)) s)) ->
  (forall j k, listed' j k -> there k /\ (listed j k \/ (j = i /\ In (Acq (SSet (fst k))) s))) ->
  (forall j c, resizing j c -> resizing' j c \/ (j = i /\ In (Rel (SSet c)) s)) ->
  (forall p c, length l <= p -> touched (l ++ by_ i s) p (LSet c) -> passed (l ++ by_ i s) (SSet c) p \/ resizing' i c) ->
  (forall j c, resizing' j c -> holder (SSet c) (l ++ by_ i s) = Some j) ->
  (forall j k, walks' j k -> holder (SRing k) (l ++ by_ i s) = Some j) ->
  JR there' listed' walks' resizing' (l ++ by_ i s).
Proof.
  intros J HT HN HW HL HR HS HHs HHr. set (l' := l ++ by_ i s) in *.
  assert (New : forall p c, touched l' p c -> touched l p c \/ (length l <= p /\ know l' i p)).
  { intros p c H. destruct (touched_by _ _ _ _ _ H) as [H'|(L & _)]; [auto|]. right. split; [lia|]. apply know_seg. exact L. }
  assert (Wk : forall j k p, walks j k -> know l j p -> passed l' (SRing k) p \/ exists j', walks' j' k /\ know l' j' p).
  { intros j k p Hw Hk. destruct (HW j k Hw) as [Q|[-> Q]]; [right; exists j; split; [exact Q|apply know_mono; exact Hk]|left; apply pass_seg; assumption]. }
  constructor.
  - intros p k H. destruct (New p _ H) as [H'|(L & _)]; [apply HT; exact (r_there _ _ _ _ _ J p k H')|exact (proj1 (HN p k L H))].
  - intros p k H. destruct (New p _ H) as [H'|(L & K)].
    + destruct (r_ring _ _ _ _ _ J p k H') as [Q|[Q|(j & Q1 & Q2)]]; [left; apply passed_mono; exact Q|right; left; apply passed_mono; exact Q|]. right. exact (Wk j k p Q1 Q2).
    + destruct (proj2 (HN p k L H)) as [Q|[Q|[Q _]]]; [right; left; exact Q|right; right; exists i; auto|left; exact Q].
  - intros j p k Hl H. destruct (HL j k Hl) as [Tk Ho]. destruct (New p _ H) as [H'|(L & K)].
    + destruct Ho as [Ho|[-> Ho]].
      * destruct (r_list _ _ _ _ _ J j p k Ho H') as [Q|[Q|(j' & Q1 & Q2)]]; [left; apply know_mono; exact Q|right; left; apply passed_mono; exact Q|]. right. exact (Wk j' k p Q1 Q2).
      * destruct (r_ring _ _ _ _ _ J p k H') as [Q|[Q|(j' & Q1 & Q2)]]; [left; apply (know_seg_acq _ _ _ (SSet (fst k))); assumption|right; left; apply passed_mono; exact Q|]. right. exact (Wk j' k p Q1 Q2).
    + destruct (proj2 (HN p k L H)) as [Q|[Q|[_ Q]]]; [right; left; exact Q|right; right; exists i; auto|destruct (Q Tk)].
  - intros p c H. destruct (New p _ H) as [H'|(L & K)].
    + destruct (r_set _ _ _ _ _ J p c H') as [Q|(j & Q1 & Q2)]; [left; apply passed_mono; exact Q|]. destruct (HR j c Q1) as [Q|[-> Q]]; [right; exists j; split; [exact Q|apply know_mono; exact Q2]|left; apply pass_seg; assumption].
    + destruct (HS p c L H) as [Q|Q]; [left; exact Q|right; exists i; auto].
  - exact HHs.
  - exact HHr.
Qed.

(** The usual case: neither rings nor maps are involved. *)
Definition private (s : list action) : Prop :=
  Forall (fun a => match a with
                   | Acq (SRing _) | Acq (SSet _) | Rel (SRing _) | Rel (SSet _) | Rd (LRing _) | Rd (LSet _) | Wr (LRing _) | Wr (LSet _) => False
                   | _ => True
                   end) s.
Lemma private_holder s l i x : private s -> match x with SRing _ | SSet _ => True | _ => False end -> holder x (l ++ by_ i s) = holder x l.
Proof.
  intros P Hx. unfold private in P. rewrite Forall_forall in P. apply holder_keep; intros Q; apply P in Q; destruct x; auto.
Qed.
Lemma private_touch s l i p c : private s -> match c with LRing _ | LSet _ => True | _ => False end -> touched (l ++ by_ i s) p c -> touched l p c.
Proof.
  intros P Hc H. destruct (touched_by _ _ _ _ _ H) as [H'|(L & a & w & Ha & Hw)]; [exact H'|]. exfalso. unfold private in P. rewrite Forall_forall in P. apply nth_error_In in Ha. apply P in Ha.
  destruct a; cbn in Hw; try discriminate; injection Hw as <- <-; auto. destruct l0; auto. destruct l0; auto.
Qed.
Lemma JR_private (there there' : key -> Prop) (listed listed' walks walks' : nat -> key -> Prop) (resizing resizing' : nat -> nat -> Prop) (l : log) i s :
  JR there listed walks resizing l -> private s -> (forall k, there k -> there' k) ->
  (forall j k, walks j k <-> walks' j k) -> (forall j k, listed' j k -> there k /\ listed j k) -> (forall j c, resizing j c <-> resizing' j c) ->
  JR there' listed' walks' resizing' (l ++ by_ i s).
Proof.
  intros J P HT HW HL HR. apply (JR_step there there' listed listed' walks walks' resizing resizing'); auto.
  - intros p k L H. apply (private_touch s l i p) in H; [|exact P|exact Logic.I]. destruct H as (w & H). apply acc_bound in H. lia.
  - intros j k Hw. left. apply HW. exact Hw.
  - intros j k Hl. destruct (HL j k Hl). auto.
  - intros j c Hr. left. apply HR. exact Hr.
  - intros p c L H. apply (private_touch s l i p) in H; [|exact P|exact Logic.I]. destruct H as (w & H). apply acc_bound in H. lia.
  - intros j c Hr. rewrite (private_holder s l i (SSet c) P Logic.I). apply (r_hset _ _ _ _ _ J). apply HR. exact Hr.
  - intros j k Hw. rewrite (private_holder s l i (SRing k) P Logic.I). apply (r_hring _ _ _ _ _ J). apply HW. exact Hw.
Qed.

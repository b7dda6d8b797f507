(** What is asked of the sorting algorithm, and when a request needs no more normalizing. *)
From Verif Require Import Go M_Filter S_Trace S_Order S_Stats M_Search M_Shared.
Open Scope list_scope.
Open Scope nat_scope.

(** On this list the algorithm swaps nothing. *)
Fixpoint no_swap (a : algo) (l : list Z) : Prop :=
  match a with
  | AEnd => True
  | ALess i j k => no_swap (k (nth i l 0 <? nth j l 0)%Z) l
  | ASwap _ _ _ => False
  end.
(** It sorts, and it leaves a sorted list alone. *)
Definition sorts (sorter : nat -> algo) : Prop :=
  forall l, Permutation (alg_run (sorter (length l)) l) l /\ ascending (alg_run (sorter (length l)) l).
Definition leaves_sorted (sorter : nat -> algo) : Prop := forall l, ascending l -> no_swap (sorter (length l)) l.

Section Spec.
Context {RE : Type}.
(** A request whose slice covers its array. *)
Definition covers (m : mem RE) (r : nat) : Prop :=
  r < length (m_reqs m) /\
  (snd (ro_bucketing (req m r)) = 0 \/
   fst (ro_bucketing (req m r)) < length (m_arrays m) /\ snd (ro_bucketing (req m r)) = length (nth (fst (ro_bucketing (req m r))) (m_arrays m) [])).
(** Normalize has nothing left to do. *)
Definition settled (m : mem RE) (r : nat) : Prop :=
  r < length (m_reqs m) /\
  let v := value_of m r in
  snd (ro_bucketing (req m r)) = length (nth (fst (ro_bucketing (req m r))) (m_arrays m) []) /\
  ascending (req_Bucketing v) /\ (exists rest, req_Bucketing v = 0%Z :: rest) /\
  (1 <= req_Limit v <= 250)%Z /\ (Query (req_Filter v) = ""%string \/ f_regexp (req_Filter v) <> None).
(** What a goroutine that has the request all to itself takes from it. *)
Definition takes (v : SearchRequest RE) (j : job) : taken RE :=
  match j with
  | JCollector _ n => MkTaken [] (req_Bucketing v) (repeat (req_Limit v, (req_Filter v, req_StackDepth v)) n) (req_Limit v)
  | JClient _ => MkTaken [] (req_Bucketing v) [(req_Limit v, (with_query (req_Filter v) (Query (req_Filter v)) None, req_StackDepth v))] (req_Limit v)
  | JMulti _ => MkTaken [] (req_Bucketing v) [] (req_Limit v)
  end.
Definition request_of (j : job) : nat := match j with JCollector r _ | JClient r | JMulti r => r end.
End Spec.

(** Two goroutines, an address, and an access of each, one of which is a write. *)
Definition conflict (log : list (nat * bool * addr)) : Prop :=
  exists i j a w, i <> j /\ In (i, true, a) log /\ In (j, w, a) log.

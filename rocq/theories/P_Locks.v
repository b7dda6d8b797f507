(** C51: the package's own locks cannot deadlock. *)
From Verif Require Import Go L_List S_Trace M_Mutex P_Mutex M_Locks.
From Coq Require Import Lia.
Open Scope nat_scope.
Open Scope list_scope.

(** Which goroutines can go on. *)
Definition finished (m : locking) : Prop := Forall (fun t => t = []) (lk_threads m).
Definition can_go_on (m : locking) (i : nat) : Prop := lk_step m i <> m.
Definition work_left (m : locking) : nat := fold_right (fun t n => length t + n) 0 (lk_threads m).

(** One global order. *)
Definition rank (l : lock) : nat := match l with LSet _ => 0 | LBroker _ => 0 | LRing _ _ => 1 | LTrace _ => 2 end.
Fixpoint ordered (H : list lock) (p : list action) : Prop :=
  match p with
  | [] => H = []
  | Acq l :: p => (forall l', In l' H -> rank l' < rank l) /\ ordered (l :: H) p
  | Rel l :: p => In l H /\ ordered (remove lock_eq_dec l H) p
  end.

Lemma ordered_nest H l body p : (forall l', In l' H -> rank l' < rank l) ->
  (forall q, ordered (l :: H) q -> ordered (l :: H) (body ++ q)) -> ordered H p -> ordered H ([Acq l] ++ body ++ [Rel l] ++ p).
Proof.
  intros Hr Hb Hp. cbn [app ordered]. split; [exact Hr|]. apply Hb. cbn [app ordered]. split; [left; reflexivity|].
  cbn [remove]. destruct (lock_eq_dec l l) as [_|n]; [|contradiction]. rewrite notin_remove; [exact Hp|].
  intros Hin. specialize (Hr l Hin). lia.
Qed.
Lemma ordered_pair H l p : (forall l', In l' H -> rank l' < rank l) -> ordered H p -> ordered H ([Acq l; Rel l] ++ p).
Proof. intros Hr Hp. apply (ordered_nest H l [] p Hr); auto. Qed.
Lemma ordered_flat {A} H (f : A -> list action) l p :
  (forall x q, ordered H q -> ordered H (f x ++ q)) -> ordered H p -> ordered H (flat_map f l ++ p).
Proof.
  intros Hf. revert p. induction l as [|x l IH]; intros p Hp; [exact Hp|]. cbn [flat_map]. rewrite <- app_assoc. apply Hf. apply IH. exact Hp.
Qed.
Lemma ordered_method H t p : (forall l', In l' H -> rank l' < 2) -> ordered H p -> ordered H (trace_method t ++ p).
Proof. intros Hr. apply ordered_pair. exact Hr. Qed.
Lemma ordered_methods H n t p : (forall l', In l' H -> rank l' < 2) -> ordered H p -> ordered H (trace_methods n t ++ p).
Proof. intros Hr. apply ordered_flat. intros x q. apply ordered_method. exact Hr. Qed.
Lemma ordered_publish c t reads p : ordered [] p -> ordered [] (publish c t reads ++ p).
Proof.
  intros Hp. unfold publish. rewrite <- !app_assoc. apply ordered_nest; [intros l' []| |exact Hp].
  intros q. apply ordered_methods. intros l' [<-|[]]. cbn. lia.
Qed.
Lemma ordered_published c t reads p : ordered [] p -> ordered [] (published_call c t reads ++ p).
Proof.
  intros Hp. unfold published_call. rewrite <- app_assoc. apply ordered_method; [intros l' []|]. apply ordered_publish. exact Hp.
Qed.
Lemma ordered_free t p : ordered [] p -> ordered [] (maybe_free t ++ p).
Proof. destruct t; cbn [maybe_free]; intros Hp; [apply ordered_method; [intros l' []|exact Hp]|exact Hp]. Qed.
Lemma ordered_op o p : ordered [] p -> ordered [] (locks_of o ++ p).
Proof.
  intros Hp. destruct o as [t|c t reads|t|c t k reads dropped|c rings dropped|c cats ctx|c]; cbn [locks_of].
  - apply ordered_method; [intros l' []|exact Hp].
  - apply ordered_published. exact Hp.
  - apply ordered_method; [intros l' []|exact Hp].
  - unfold new_trace_locks. rewrite <- !app_assoc. apply ordered_publish. apply ordered_pair; [intros l' []|]. apply ordered_pair; [intros l' []|]. apply ordered_free. exact Hp.
  - unfold set_category_size_locks. rewrite <- !app_assoc. apply ordered_nest; [intros l' []| |].
    + intros q. apply ordered_flat. intros k q'. apply ordered_pair. intros l' [<-|[]]. cbn. lia.
    + apply ordered_flat; [|exact Hp]. intros t q. apply ordered_free.
  - unfold search_locks. rewrite <- !app_assoc. apply ordered_pair; [intros l' []|]. apply ordered_flat.
    + intros [k ts] q Hq. cbn [fst snd]. rewrite <- !app_assoc. apply ordered_nest; [intros l' []| |exact Hq].
      intros q'. apply ordered_flat. intros [t n] q''. apply ordered_methods. intros l' [<-|[]]. cbn. lia.
    + destruct ctx as [[[c' t] reads]|]; [apply ordered_published|]; exact Hp.
  - apply ordered_pair; [intros l' []|exact Hp].
Qed.
Lemma ordered_ops ops : ordered [] (flat_map locks_of ops).
Proof. rewrite <- (app_nil_r (flat_map locks_of ops)). apply ordered_flat; [intros o q; apply ordered_op|reflexivity]. Qed.

Definition held (owners : list (lock * nat)) (i : nat) : list lock := map fst (filter (fun p => Nat.eqb (snd p) i) owners).
Record good (m : locking) : Prop := {
  good_ordered : forall i p, nth_error (lk_threads m) i = Some p -> ordered (held (lk_owners m) i) p;
  good_once : NoDup (map fst (lk_owners m));
  good_owner : forall l i, In (l, i) (lk_owners m) -> i < length (lk_threads m)
}.
Lemma owner_None owners l : owner owners l = None <-> ~ In l (map fst owners).
Proof.
  unfold owner. induction owners as [|[l' j] owners IH]; cbn [find map fst snd]; [split; [intros _ []|reflexivity]|].
  destruct (lock_eq_dec l' l) as [->|n]; [split; [discriminate|intros H; exfalso; apply H; left; reflexivity]|].
  rewrite IH. split; [intros H [E|E]; [congruence|exact (H E)]|intros H E; apply H; right; exact E].
Qed.
Lemma owner_Some owners l i : owner owners l = Some i -> In (l, i) owners.
Proof.
  unfold owner. induction owners as [|[l' j] owners IH]; cbn [find fst snd]; [discriminate|].
  destruct (lock_eq_dec l' l) as [->|n]; [intros [= <-]; left; reflexivity|]. intros E. right. apply IH. exact E.
Qed.
Lemma held_In owners l i : In l (held owners i) <-> In (l, i) owners.
Proof.
  unfold held. rewrite in_map_iff. split.
  - intros ([l' j] & E & H). cbn in E. subst l'. apply filter_In in H. destruct H as [H E]. cbn in E. apply Nat.eqb_eq in E. subst j. exact H.
  - intros H. exists (l, i). split; [reflexivity|]. apply filter_In. split; [exact H|]. cbn. apply Nat.eqb_refl.
Qed.
Lemma held_remove owners l i : held (filter (fun p => if lock_eq_dec (fst p) l then false else true) owners) i = remove lock_eq_dec l (held owners i).
Proof.
  unfold held. induction owners as [|[l' j] owners IH]; [reflexivity|]. cbn [filter fst snd].
  destruct (lock_eq_dec l' l) as [->|n]; cbn [filter fst snd]; destruct (Nat.eqb j i); cbn [map fst remove]; rewrite ?IH; try reflexivity.
  - destruct (lock_eq_dec l l); [reflexivity|contradiction].
  - destruct (lock_eq_dec l l') as [E|_]; [congruence|reflexivity].
Qed.
Lemma NoDup_filter_fst owners (f : lock * nat -> bool) : NoDup (map fst owners) -> NoDup (map fst (filter f owners)).
Proof.
  induction owners as [|p owners IH]; cbn [map filter]; intros H; [constructor|]. apply NoDup_cons_iff in H. destruct H as [H1 H2].
  destruct (f p); [|exact (IH H2)]. cbn [map]. constructor; [|exact (IH H2)]. intros H. apply H1. apply in_map_iff in H. destruct H as (q & E & Hq).
  apply filter_In in Hq. rewrite <- E. apply in_map. apply Hq.
Qed.
Lemma nodup_fst_inj {A B} (l : list (A * B)) a b b' : NoDup (map fst l) -> In (a, b) l -> In (a, b') l -> b = b'.
Proof.
  induction l as [|[x y] l IH]; cbn [map fst]; intros N H H'; [destruct H|]. apply NoDup_cons_iff in N. destruct N as [N1 N2].
  destruct H as [[= -> ->]|H], H' as [[= E]|H'].
  - assumption.
  - exfalso. apply N1. apply (in_map fst) in H'. exact H'.
  - subst. exfalso. apply N1. apply (in_map fst) in H. exact H.
  - exact (IH N2 H H').
Qed.
Lemma update_length {A} i (x : A) l : length (update i x l) = length l.
Proof. revert i. induction l as [|y l IH]; intros [|i]; cbn; auto. Qed.
Lemma good_step m i : good m -> good (lk_step m i).
Proof.
  intros G. unfold lk_step. destruct (nth_error (lk_threads m) i) as [[|[l|l] rest]|] eqn:Ei; try exact G.
  all: assert (Li : i < length (lk_threads m)) by (apply nth_error_Some; congruence).
  all: assert (Lb : Nat.ltb i (length (lk_threads m)) = true) by (apply Nat.ltb_lt; exact Li).
  all: pose proof (good_ordered m G i _ Ei) as Ho; cbn [ordered] in Ho; destruct Ho as [Ho1 Ho2].
  - destruct (owner (lk_owners m) l) eqn:Eo; [exact G|]. constructor; cbn [lk_threads lk_owners].
    + intros j p. rewrite nth_update_eq, Lb. unfold held. cbn [filter snd]. destruct (Nat.eqb_spec i j) as [<-|n].
      * intros [= <-]. exact Ho2.
      * apply (good_ordered m G).
    + cbn [map fst]. constructor; [|exact (good_once m G)]. apply owner_None. exact Eo.
    + intros l' j. rewrite update_length. intros [[= <- <-]|H]; [exact Li|exact (good_owner m G _ _ H)].
  - constructor; cbn [lk_threads lk_owners].
    + intros j p. rewrite nth_update_eq, Lb, held_remove. destruct (Nat.eqb_spec i j) as [<-|n].
      * intros [= <-]. exact Ho2.
      * intros Ej. rewrite notin_remove; [exact (good_ordered m G j p Ej)|]. intros H. apply held_In in H. apply held_In in Ho1.
        apply n. exact (nodup_fst_inj _ _ _ _ (good_once m G) Ho1 H).
    + apply NoDup_filter_fst. exact (good_once m G).
    + intros l' j H. apply filter_In in H. rewrite update_length. exact (good_owner m G _ _ (proj1 H)).
Qed.
Lemma good_run sched m : good m -> good (lk_run sched m).
Proof. revert m. induction sched as [|i sched IH]; intros m H; [exact H|]. cbn. apply IH. apply good_step. exact H. Qed.
Lemma good_start programs : good (lk_start (map (flat_map locks_of) programs)).
Proof.
  constructor; cbn.
  - intros i p E. rewrite nth_error_map in E. destruct (nth_error programs i); [|discriminate]. injection E as <-. apply ordered_ops.
  - constructor.
  - intros l i [].
Qed.
Lemma update_neq (i : nat) (a : action) rest l : nth_error l i = Some (a :: rest) -> update i rest l <> l.
Proof.
  intros E H. pose proof (nth_update_eq i i rest l) as Q. rewrite H, E, Nat.eqb_refl in Q.
  destruct (Nat.ltb i (length l)); [|discriminate]. injection Q as Q. apply (f_equal (@length _)) in Q. cbn in Q. lia.
Qed.
(** A goroutine that has something to do: it, or somebody it waits for, can go on. *)
Lemma waits_finitely m : good m -> forall n i l rest, nth_error (lk_threads m) i = Some (Acq l :: rest) -> 2 - rank l <= n -> exists j, can_go_on m j.
Proof.
  intros G. induction n as [|n IH]; intros i l rest Ei Hn.
  all: destruct (owner (lk_owners m) l) as [j|] eqn:Eo;
    [|exists i; unfold can_go_on, lk_step; rewrite Ei, Eo; intros E; apply (f_equal lk_threads) in E; cbn in E; exact (update_neq _ _ _ _ Ei E)].
  all: apply owner_Some in Eo; pose proof (good_owner m G _ _ Eo) as Lj; destruct (nth_error (lk_threads m) j) as [q|] eqn:Ej; [|apply nth_error_None in Ej; lia].
  all: pose proof (good_ordered m G j q Ej) as Ho; apply held_In in Eo.
  all: destruct q as [|[l'|l'] q]; cbn [ordered] in Ho;
    [rewrite Ho in Eo; destruct Eo
    |
    |exists j; unfold can_go_on, lk_step; rewrite Ej; intros E; apply (f_equal lk_threads) in E; cbn in E; exact (update_neq _ _ _ _ Ej E)].
  - destruct Ho as [Ho _]. specialize (Ho l Eo). assert (rank l' <= 2) by (destruct l'; cbn; lia). lia.
  - destruct Ho as [Ho _]. specialize (Ho l Eo). apply (IH j l' q Ej). lia.
Qed.
Lemma good_progress m : good m -> finished m \/ exists j, can_go_on m j.
Proof.
  intros G. destruct (Forall_Exists_dec (fun t : list action => t = []) ltac:(intros [|a t]; [left; reflexivity|right; discriminate]) (lk_threads m)) as [H|H]; [left; exact H|right].
  apply Exists_exists in H. destruct H as (p & Hin & Hp). apply In_nth_error in Hin. destruct Hin as [i Ei]. destruct p as [|[l|l] p]; [contradiction| |].
  - exact (waits_finitely m G 2 i l p Ei ltac:(lia)).
  - exists i. unfold can_go_on, lk_step. rewrite Ei. intros E. apply (f_equal lk_threads) in E. cbn in E. exact (update_neq _ _ _ _ Ei E).
Qed.

(** C51.  Any number of goroutines, any operations on any number of collectors and traces,
    any interleaving: unless all is done, some goroutine can go on. *)
Theorem C51_no_deadlock :
  forall (programs : list (list operation)) (sched : list nat),
    let m := lk_run sched (lk_start (map (flat_map locks_of) programs)) in
    finished m \/ exists i, can_go_on m i.
Proof. intros programs sched m. apply good_progress. apply good_run. apply good_start. Qed.
Print Assumptions C51_no_deadlock.

(** Every step takes something off the work that is left, so the goroutines that can go on
    do so until all is done: from every reachable state, some schedule completes everything. *)
Lemma sum_update i (a : action) rest : forall l, nth_error l i = Some (a :: rest) ->
  S (fold_right (fun t n => length t + n) 0 (update i rest l)) = fold_right (fun t n => length t + n) 0 l.
Proof.
  intros l. revert i. induction l as [|t l IH]; intros [|i] E; try discriminate; cbn in E.
  - injection E as ->. reflexivity.
  - cbn [update fold_right]. rewrite <- (IH i E). lia.
Qed.
Theorem C51_steps_are_progress :
  forall (m : locking) (i : nat), can_go_on m i -> S (work_left (lk_step m i)) = work_left m.
Proof.
  intros m i H. unfold can_go_on, lk_step, work_left in *. destruct (nth_error (lk_threads m) i) as [[|[l|l] rest]|] eqn:Ei; try contradiction.
  - destruct (owner (lk_owners m) l); [contradiction|]. cbn [lk_threads]. exact (sum_update _ _ _ _ Ei).
  - cbn [lk_threads]. exact (sum_update _ _ _ _ Ei).
Qed.
Print Assumptions C51_steps_are_progress.
Theorem C51_everything_can_complete :
  forall (programs : list (list operation)) (sched : list nat),
    let m := lk_run sched (lk_start (map (flat_map locks_of) programs)) in
    exists more, length more <= work_left m /\ finished (lk_run (sched ++ more) (lk_start (map (flat_map locks_of) programs))).
Proof.
  intros programs sched m.
  assert (G : forall n m', work_left m' <= n -> good m' -> exists more, length more <= work_left m' /\ finished (lk_run more m')).
  { induction n as [|n IH]; intros m' Hn G; (destruct (good_progress m' G) as [F|[j J]]; [exists []; split; [cbn; lia|exact F]|]).
    - pose proof (C51_steps_are_progress m' j J). lia.
    - pose proof (C51_steps_are_progress m' j J) as E. destruct (IH (lk_step m' j)) as (more & H1 & H2); [lia|apply good_step; exact G|].
      exists (j :: more). split; [cbn; lia|exact H2]. }
  destruct (G (work_left m) m (le_n _)) as (more & H1 & H2); [apply good_run; apply good_start|].
  exists more. split; [exact H1|]. unfold lk_run in *. rewrite fold_left_app. exact H2.
Qed.
Print Assumptions C51_everything_can_complete.

(** Finding: formatting happens under the trace's lock.  If the String method of an argument
    logs to the same trace, the call never returns, whatever else runs. *)
Lemma stuck_self t i rest : forall sched m,
  nth_error (lk_threads m) i = Some (Acq (LTrace t) :: rest) -> In (LTrace t, i) (lk_owners m) ->
  NoDup (map fst (lk_owners m)) ->
  (forall j p, j <> i -> nth_error (lk_threads m) j = Some p -> ordered (held (lk_owners m) j) p) ->
  nth_error (lk_threads (lk_run sched m)) i = Some (Acq (LTrace t) :: rest).
Proof.
  induction sched as [|j sched IH]; intros m Ei Hin N Hj; [exact Ei|]. cbn [lk_run fold_left]. change (fold_left lk_step sched) with (lk_run sched).
  assert (No : owner (lk_owners m) (LTrace t) <> None).
  { intros E. apply owner_None in E. apply E. apply (in_map fst) in Hin. exact Hin. }
  destruct (Nat.eq_dec j i) as [->|Nj].
  - assert (E : lk_step m i = m). { unfold lk_step. rewrite Ei. destruct (owner (lk_owners m) (LTrace t)); [reflexivity|contradiction]. }
    rewrite E. apply IH; assumption.
  - unfold lk_step. destruct (nth_error (lk_threads m) j) as [[|[l|l] q]|] eqn:Ej; try (apply IH; assumption).
    all: assert (Lj : j < length (lk_threads m)) by (apply nth_error_Some; congruence).
    all: assert (Lb : Nat.ltb j (length (lk_threads m)) = true) by (apply Nat.ltb_lt; exact Lj).
    all: pose proof (Hj j _ Nj Ej) as Ho; cbn [ordered] in Ho; destruct Ho as [Ho1 Ho2].
    + destruct (owner (lk_owners m) l) eqn:Eo; [apply IH; assumption|]. apply IH; cbn [lk_threads lk_owners].
      * rewrite nth_update_eq. destruct (Nat.eqb_spec j i); [contradiction|exact Ei].
      * right. exact Hin.
      * cbn. constructor; [apply owner_None; exact Eo|exact N].
      * intros j' p Nj'. rewrite nth_update_eq, Lb. unfold held. cbn [filter snd]. destruct (Nat.eqb_spec j j') as [<-|n]; [intros [= <-]; exact Ho2|].
        intros E. exact (Hj j' p Nj' E).
    + apply held_In in Ho1. assert (Nl : l <> LTrace t).
      { intros ->. apply Nj. exact (nodup_fst_inj _ _ _ _ N Ho1 Hin). }
      apply IH; cbn [lk_threads lk_owners].
      * rewrite nth_update_eq. destruct (Nat.eqb_spec j i); [contradiction|exact Ei].
      * apply filter_In. split; [exact Hin|]. cbn [fst]. destruct (lock_eq_dec (LTrace t) l); [congruence|reflexivity].
      * apply NoDup_filter_fst. exact N.
      * intros j' p Nj'. rewrite nth_update_eq, Lb, held_remove. destruct (Nat.eqb_spec j j') as [<-|n]; [intros [= <-]; exact Ho2|].
        intros E. rewrite notin_remove; [exact (Hj j' p Nj' E)|]. intros H. apply held_In in H. apply n. exact (nodup_fst_inj _ _ _ _ N Ho1 H).
Qed.
Theorem C51_string_method_that_logs_refuted :
  forall (t : nat) (programs : list (list operation)) (sched : list nat),
    let reentrant := tracef_with_String t (trace_method t) in
    let m := lk_run sched (lk_start (reentrant :: map (flat_map locks_of) programs)) in
    ~ finished m.
Proof.
  intros t programs sched reentrant m F.
  assert (G : forall sched m0, nth_error (lk_threads m0) 0 = Some reentrant -> held (lk_owners m0) 0 = [] ->
     NoDup (map fst (lk_owners m0)) -> (forall l i, In (l, i) (lk_owners m0) -> i < length (lk_threads m0)) ->
     (forall j p, j <> 0 -> nth_error (lk_threads m0) j = Some p -> ordered (held (lk_owners m0) j) p) ->
     nth_error (lk_threads (lk_run sched m0)) 0 = Some reentrant \/
     nth_error (lk_threads (lk_run sched m0)) 0 = Some [Acq (LTrace t); Rel (LTrace t); Rel (LTrace t)]).
  { clear. induction sched as [|j sched IH]; intros m0 E0 H0 N W Hj; [left; exact E0|]. cbn [lk_run fold_left]. change (fold_left lk_step sched) with (lk_run sched).
    destruct j as [|j].
    - assert (St : lk_step m0 0 = match owner (lk_owners m0) (LTrace t) with
        | Some _ => m0
        | None => MkLocking (update 0 [Acq (LTrace t); Rel (LTrace t); Rel (LTrace t)] (lk_threads m0)) ((LTrace t, 0) :: lk_owners m0) end)
        by (unfold lk_step; rewrite E0; reflexivity).
      rewrite St. clear St.
      destruct (owner (lk_owners m0) (LTrace t)) eqn:Eo; [apply IH; assumption|]. right. apply stuck_self; cbn [lk_threads lk_owners].
      + rewrite nth_update_eq. cbn. destruct (lk_threads m0); [discriminate|]. reflexivity.
      + left. reflexivity.
      + cbn. constructor; [apply owner_None; exact Eo|exact N].
      + intros j p Nj. rewrite nth_update_eq. destruct j as [|j]; [contradiction|]. cbn [Nat.eqb]. unfold held. cbn [filter snd Nat.eqb]. apply Hj. exact Nj.
    - assert (Nj : S j <> 0) by discriminate. unfold lk_step. destruct (nth_error (lk_threads m0) (S j)) as [[|[l|l] q]|] eqn:Ej; try (apply IH; assumption).
      all: assert (Lj : S j < length (lk_threads m0)) by (apply nth_error_Some; congruence).
      all: assert (Lb : Nat.ltb (S j) (length (lk_threads m0)) = true) by (apply Nat.ltb_lt; exact Lj).
      all: pose proof (Hj (S j) _ Nj Ej) as Ho; cbn [ordered] in Ho; destruct Ho as [Ho1 Ho2].
      + destruct (owner (lk_owners m0) l) eqn:Eo; [apply IH; assumption|]. apply IH; cbn [lk_threads lk_owners].
        * rewrite nth_update_eq. cbn [Nat.eqb]. exact E0.
        * unfold held in *. cbn [filter snd Nat.eqb]. exact H0.
        * cbn. constructor; [apply owner_None; exact Eo|exact N].
        * intros l' i'. rewrite update_length. intros [[= <- <-]|H]; [exact Lj|exact (W _ _ H)].
        * intros j' p Nj'. rewrite nth_update_eq, Lb. unfold held. cbn [filter snd]. destruct (Nat.eqb_spec (S j) j') as [<-|n]; [intros [= <-]; exact Ho2|].
          intros E. exact (Hj j' p Nj' E).
      + apply held_In in Ho1. apply IH; cbn [lk_threads lk_owners].
        * rewrite nth_update_eq. cbn [Nat.eqb]. exact E0.
        * rewrite held_remove, H0. reflexivity.
        * apply NoDup_filter_fst. exact N.
        * intros l' j' H. apply filter_In in H. rewrite update_length. exact (W _ _ (proj1 H)).
        * intros j' p Nj'. rewrite nth_update_eq, Lb, held_remove. destruct (Nat.eqb_spec (S j) j') as [<-|n]; [intros [= <-]; exact Ho2|].
          intros E. rewrite notin_remove; [exact (Hj j' p Nj' E)|]. intros H. apply held_In in H. apply n. exact (nodup_fst_inj _ _ _ _ N Ho1 H). }
  destruct (G sched (lk_start (reentrant :: map (flat_map locks_of) programs))) as [E|E]; cbn.
  - reflexivity.
  - reflexivity.
  - constructor.
  - intros l i [].
  - intros [|j] p Nj E; [contradiction|]. cbn in E. rewrite nth_error_map in E. destruct (nth_error programs j); [|discriminate]. injection E as <-. apply ordered_ops.
  - fold m in E. unfold finished in F. rewrite Forall_forall in F. specialize (F _ (nth_error_In _ _ E)). discriminate.
  - fold m in E. unfold finished in F. rewrite Forall_forall in F. specialize (F _ (nth_error_In _ _ E)). discriminate.
Qed.
Print Assumptions C51_string_method_that_logs_refuted.
(** Nor is logging to another trace of the same collector safe: it publishes while the first
    trace is locked, against the order broker, trace. *)
Theorem C51_string_method_that_logs_elsewhere_refuted :
  exists (a b c reads : nat) (sched : list nat),
    let m := lk_run sched (lk_start [tracef_with_String a (published_call c b reads); published_call c a reads; published_call c a reads]) in
    a <> b /\ ~ finished m /\ forall i, lk_step m i = m.
Proof.
  exists 0, 1, 0, 5, [1; 1; 1; 0; 0; 0]. split; [discriminate|]. split.
  - intros F. unfold finished in F. apply Forall_inv in F. vm_compute in F. discriminate.
  - intros i. destruct i as [|[|[|i]]]; vm_compute; try reflexivity. destruct i; reflexivity.
Qed.
Print Assumptions C51_string_method_that_logs_elsewhere_refuted.
(** Nor is creating a trace from a lazy argument: a search formats it with its category locked. *)
Theorem C51_string_method_that_creates_refuted :
  exists (c k t t' : nat) (sched : list nat),
    let search := [Acq (LRing c k)] ++ tracef_with_String t (new_trace_locks c t' k 0 None) ++ [Rel (LRing c k)] in
    let m := lk_run sched (lk_start [search]) in
    ~ finished m /\ forall i, lk_step m i = m.
Proof.
  exists 0, 0, 0, 1, [0; 0; 0; 0; 0; 0]. split.
  - intros F. unfold finished in F. apply Forall_inv in F. vm_compute in F. discriminate.
  - intros i. destruct i as [|i]; vm_compute; [reflexivity|]. destruct i; reflexivity.
Qed.
Print Assumptions C51_string_method_that_creates_refuted.

(** Four goroutines: a search that waits for a trace, a resize that waits for the search, a
    publish, a new trace that waits for the resize. *)
Example C51_instance :
  let programs := [[Search 0 [(0, [(7, 2)]); (1, [(8, 1)])] None]; [SetCategorySize 0 [0; 1] [7]]; [LogTrace 0 7 3]; [NewTrace 0 9 0 3 (Some 7)]] in
  let m := lk_run [0; 0; 0; 1; 2; 0; 1; 3; 3; 3; 3; 3; 3; 3; 3; 3; 3; 0; 1; 3] (lk_start (map (flat_map locks_of) programs)) in
  ~ finished m /\ lk_step m 1 = m /\ lk_step m 3 = m /\ lk_step m 0 = m /\ can_go_on m 2.
Proof.
  vm_compute. split; [|split; [reflexivity|split; [reflexivity|split; [reflexivity|]]]].
  - intros F. apply Forall_inv in F. discriminate.
  - discriminate.
Qed.

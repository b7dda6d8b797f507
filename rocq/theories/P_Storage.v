(** C04, C05: what the collector stores and what it frees. *)
From Verif Require Import Go S_RingBuf M_RingBuf S_Collector M_RingBufs L_RingBufs.
Open Scope Z_scope.

(** C04.  After any history the storage (a) does not panic, (b) has the current
    size as capacity of every category, (c) has exactly the categories
    mentioned, (d) each holding, newest first, its most recent traces. *)
Theorem C04_categories_hold_most_recent :
  forall (T : Type) (zero : T) (ops : list (coll_op T)),
    Forall valid_op ops ->
    exists s freed,
      coll_run zero new_collector_storage ops = Ok (s, freed) /\
      rbs_cap s = size_after ops /\
      NoDup (map_keys (rbs_bufs s)) /\
      (forall c r, map_get c (rbs_bufs s) = Some r -> zlen (rb_buf r) = size_after ops) /\
      (forall c, In c (map_keys (rbs_bufs s)) <-> mentioned c ops) /\
      (forall c, mentioned c ops -> category_content s c = Some (Ok (held c ops))).
Proof. exact (@collector_holds_most_recent). Qed.
Print Assumptions C04_categories_hold_most_recent.

Example C04_instance :
  let ops := [CNew "a" 1; CNew "b" 2; CNew "a" 3; CSize 2 (fun ks => rev ks); CNew "a" 4; CSize (-1) (fun ks => ks)]%string in
  Forall valid_op ops /\ mentioned "a"%string ops /\ held "a"%string ops = [4; 3] /\ held "b"%string ops = [2] /\
  size_after ops = 2 /\
  exists s, coll_run 0 new_collector_storage ops = Ok (s, [1]) /\
            category_content s "a" = Some (Ok [4; 3]).
Proof.
  split; [|split; [|split; [|split; [|split]]]].
  - repeat constructor; intros ks; [symmetry; apply Permutation_rev|reflexivity].
  - exists 1. left. reflexivity.
  - vm_compute. reflexivity.
  - vm_compute. reflexivity.
  - vm_compute. reflexivity.
  - eexists. vm_compute. split; reflexivity.
Qed.

(** C05.  Over any history, the traces created are exactly those held plus those
    freed, as multisets... *)
Theorem C05_created_is_held_plus_freed :
  forall (T : Type) (zero : T) (ops : list (coll_op T)) (s : rbs T) (freed : list T),
    Forall valid_op ops ->
    coll_run zero new_collector_storage ops = Ok (s, freed) ->
    exists contents, all_contents s = Ok contents /\ Permutation (created ops) (contents ++ freed).
Proof. exact (@evicted_freed_once). Qed.
Print Assumptions C05_created_is_held_plus_freed.

(** ... in every single step the traces freed are exactly those that left a
    category in that step... *)
Theorem C05_each_step_frees_what_left :
  forall (T : Type) (zero : T) (ops : list (coll_op T)) (o : coll_op T)
         (s : rbs T) (freed : list T) (s' : rbs T) (freed' contents : list T),
    Forall valid_op ops -> valid_op o ->
    coll_run zero new_collector_storage ops = Ok (s, freed) ->
    all_contents s = Ok contents ->
    coll_step zero s o = Ok (s', freed') ->
    exists contents', all_contents s' = Ok contents' /\
      Permutation (created [o] ++ contents) (contents' ++ freed').
Proof. exact (@evicted_step). Qed.
Print Assumptions C05_each_step_frees_what_left.

(** ... and for distinct traces, none is freed twice, none is held twice, and
    none that is held has been freed. *)
Theorem C05_held_never_freed :
  forall (T : Type) (zero : T) (ops : list (coll_op T)) (s : rbs T) (freed contents : list T),
    Forall valid_op ops -> NoDup (created ops) ->
    coll_run zero new_collector_storage ops = Ok (s, freed) ->
    all_contents s = Ok contents ->
    NoDup freed /\ NoDup contents /\ (forall t, In t contents -> ~ In t freed).
Proof. exact (@held_not_freed). Qed.
Print Assumptions C05_held_never_freed.

Example C05_instance :
  let ops := [CNew "a" 1; CNew "a" 2; CNew "b" 3; CSize 1 (fun ks => ks); CNew "b" 4]%string in
  Forall valid_op ops /\ NoDup (created ops) /\
  exists s, coll_run 0 new_collector_storage ops = Ok (s, [1; 3]) /\ all_contents s = Ok [2; 4].
Proof.
  split; [|split].
  - repeat constructor. intros ks. reflexivity.
  - cbn. repeat constructor; cbn; intuition congruence.
  - eexists. vm_compute. split; reflexivity.
Qed.

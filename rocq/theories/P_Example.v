(** The key-value service of the examples. *)
From Verif Require Import Go L_List M_Example S_Example.
From Coq Require Import Lia.
Open Scope string_scope.
Open Scope list_scope.
Open Scope Z_scope.

Lemma has_key_get r k : has_key r k <-> getKey (r_path r) = k.
Proof.
  unfold has_key, getKey. split.
  - intros [->|[-> N]]; [reflexivity|]. destruct k as [|c k]; [reflexivity|].
    destruct (Ascii.eqb_spec c "/"%char) as [->|Hc]; [destruct (N k); reflexivity|].
    destruct c as [[] [] [] [] [] [] [] []]; try reflexivity. destruct Hc. reflexivity.
  - intros <-. destruct (r_path r) as [|c p]; [right; split; [reflexivity|discriminate]|].
    destruct (Ascii.eqb_spec c "/"%char) as [->|Hc]; [left; reflexivity|]. right.
    assert (E : match c with "/"%char => p | _ => String c p end = String c p)
      by (destruct c as [[] [] [] [] [] [] [] []]; try reflexivity; destruct Hc; reflexivity).
    rewrite E. split; [reflexivity|]. intros rest [= -> _]. apply Hc. reflexivity.
Qed.
Lemma get_filter k k' (s : Store) :
  map_get k (filter (fun x => negb (String.eqb (fst x) k')) s) = if String.eqb k k' then None else map_get k s.
Proof.
  induction s as [|[c v] s IH]; cbn; [destruct (String.eqb k k'); reflexivity|].
  destruct (String.eqb_spec c k') as [->|N]; cbn.
  - rewrite IH. destruct (String.eqb_spec k k'); reflexivity.
  - destruct (String.eqb_spec k c) as [->|N']; [|exact IH]. destruct (String.eqb_spec c k'); [contradiction|reflexivity].
Qed.

Section KV.
Variables TrimSpace quote : string -> string.
Notation ServeHTTP := (ServeHTTP TrimSpace quote).
Notation serve := (serve TrimSpace quote).

(** what one request does to one key *)
Lemma step_get strict s r k : k <> "" ->
  (exists v, stores TrimSpace r k v /\ map_get k (fst (ServeHTTP strict s r)) = Some v) \/
  ((forall v, ~ stores TrimSpace r k v) /\ deletes r k /\ map_get k (fst (ServeHTTP strict s r)) = None) \/
  ((forall v, ~ stores TrimSpace r k v) /\ ~ deletes r k /\ map_get k (fst (ServeHTTP strict s r)) = map_get k s).
Proof.
  intros Hk. unfold M_Example.ServeHTTP, stores, deletes.
  assert (K : has_key r k <-> getKey (r_path r) = k) by apply has_key_get.
  destruct (String.eqb_spec (r_method r) "GET") as [E|NG].
  { right; right. rewrite E. split; [intros v (? & _); discriminate|]. split; [intros (? & _); discriminate|].
    unfold handleGet. destruct (String.eqb _ ""); [reflexivity|]. destruct (Get _ s); reflexivity. }
  destruct (String.eqb_spec (r_method r) "PUT") as [E|NP].
  { rewrite E. unfold handleSet. destruct (String.eqb_spec (getKey (r_path r)) "") as [E0|N0].
    { right; right. split; [intros v (_ & H & _); apply K in H; congruence|]. split; [intros (? & _); discriminate|reflexivity]. }
    destruct (r_body r) as [body|].
    2:{ right; right. split; [intros v (_ & _ & _ & _ & b & ? & _); discriminate|]. split; [intros (? & _); discriminate|reflexivity]. }
    destruct (String.eqb_spec (TrimSpace body) "") as [E1|N1].
    { right; right. split; [intros v (_ & _ & _ & Nv & b & [= <-] & Hv); congruence|]. split; [intros (? & _); discriminate|reflexivity]. }
    cbn. unfold Set_. rewrite map_get_set. destruct (String.eqb_spec k (getKey (r_path r))) as [->|N2].
    - left. exists (TrimSpace body). split; [|reflexivity]. split; [reflexivity|]. split; [apply K; reflexivity|]. split; [exact Hk|]. split; [exact N1|eauto].
    - right; right. split; [intros v (_ & H & _); apply K in H; congruence|]. split; [intros (? & _); discriminate|reflexivity]. }
  destruct (String.eqb_spec (r_method r) "DELETE") as [E|ND].
  { right. rewrite E. unfold handleDel. destruct (String.eqb_spec (getKey (r_path r)) "") as [E0|N0].
    { right. split; [intros v (? & _); discriminate|]. split; [intros (_ & H); apply K in H; congruence|reflexivity]. }
    unfold Del. destruct (String.eqb_spec k (getKey (r_path r))) as [Ek|N2].
    - left. split; [intros v (? & _); discriminate|]. split; [split; [reflexivity|apply K; congruence]|].
      destruct (map_get (getKey (r_path r)) s); cbn; rewrite get_filter, Ek, String.eqb_refl; reflexivity.
    - right. split; [intros v (? & _); discriminate|]. split; [intros (_ & H); apply K in H; congruence|].
      apply String.eqb_neq in N2. destruct (map_get (getKey (r_path r)) s); cbn; rewrite get_filter, N2; reflexivity. }
  right; right. split; [intros v (H & _); congruence|]. split; [intros (H & _); congruence|reflexivity].
Qed.
Lemma serve_snoc strict s h r : serve strict s (h ++ [r]) = fst (ServeHTTP strict (serve strict s h) r).
Proof. revert s. induction h as [|x h IH]; intros s; [reflexivity|]. cbn [app M_Example.serve]. apply IH. Qed.
Lemma stores_one r k v v' : stores TrimSpace r k v -> stores TrimSpace r k v' -> v = v'.
Proof. intros (_ & _ & _ & _ & b & E & <-) (_ & _ & _ & _ & b' & E' & <-). congruence. Qed.
Lemma serve_get strict h k v : k <> "" -> (map_get k (serve strict [] h) = Some v <-> holds TrimSpace h k v).
Proof.
  intros Hk. revert v. induction h as [|r h IH] using rev_ind; intros v.
  - split; [discriminate|]. intros ([] & ? & ? & ? & _); discriminate.
  - rewrite serve_snoc.
    assert (S : holds TrimSpace (h ++ [r]) k v <-> stores TrimSpace r k v \/ (holds TrimSpace h k v /\ ~ deletes r k /\ forall v', ~ stores TrimSpace r k v')).
    { split.
      - intros (h1 & x & h2 & E & Sx & N). destruct h2 as [|y h2 _] using rev_ind.
        + apply app_inj_tail in E as [_ ->]. left. exact Sx.
        + rewrite app_comm_cons, app_assoc in E. apply app_inj_tail in E as [-> ->]. right. split.
          * exists h1, x, h2. split; [reflexivity|]. split; [exact Sx|]. intros r' I. apply N. apply in_or_app. left. exact I.
          * apply N. apply in_or_app. right. left. reflexivity.
      - intros [Sx|((h1 & x & h2 & -> & Sx & N) & D & N')].
        + exists h, r, []. split; [reflexivity|]. split; [exact Sx|intros r' []].
        + exists h1, x, (h2 ++ [r]). split; [rewrite <- app_assoc; reflexivity|]. split; [exact Sx|].
          intros r' I. apply in_app_or in I as [I|[<-|[]]]; auto. }
    rewrite S. destruct (step_get strict (serve strict [] h) r k Hk) as [(u & Su & ->)|[(Nu & D & ->)|(Nu & D & ->)]].
    + split; [intros [= <-]; left; exact Su|]. intros [Sv|(_ & _ & N)]; [f_equal; eapply stores_one; eassumption|destruct (N _ Su)].
    + split; [discriminate|]. intros [Sv|(_ & D' & _)]; [destruct (Nu _ Sv)|contradiction].
    + rewrite IH. split; [auto|]. intros [Sv|(H & _)]; [destruct (Nu _ Sv)|exact H].
Qed.

(** A read gives the value that was stored last and not deleted since, whatever other requests there were; if there is none,
    it says so. *)
Theorem C108_read : forall strict h r k, r_method r = "GET" -> has_key r k -> k <> "" ->
  let s := serve strict [] h in let a := snd (ServeHTTP strict s r) in
  fst (ServeHTTP strict s r) = s /\
  (forall v, holds TrimSpace h k v -> a_status a = 200 /\ a_text a = (v ++ newline)%string /\ ~ errored a) /\
  ((forall v, ~ holds TrimSpace h k v) -> a_status a = 204 /\ errored a).
Proof.
  intros strict h r k E K Hk s a. pose proof (fun v => serve_get strict h k v Hk) as G. fold s in G.
  apply has_key_get in K. subst a. unfold M_Example.ServeHTTP. rewrite E. cbn [String.eqb Ascii.eqb Bool.eqb]. unfold handleGet. rewrite K.
  apply String.eqb_neq in Hk. rewrite Hk. unfold Get. destruct (map_get k s) as [v|] eqn:M; cbn.
  - split; [reflexivity|]. split.
    + intros v' H. apply G in H. injection H as <-. split; [reflexivity|]. split; [reflexivity|].
      intros X. inversion X as [? ? Y|? ? X']; subst; [discriminate Y|]. inversion X' as [? ? Y|? ? X'']; subst; [discriminate Y|inversion X''].
    + intros N. destruct (N v). apply G. reflexivity.
  - split; [reflexivity|]. split; [intros v' H; apply G in H; discriminate|]. intros _. split; [reflexivity|]. right. left. reflexivity.
Qed.
(** A request to delete says whether there was a value, and then there is none. *)
Theorem C108_delete : forall strict h r k, r_method r = "DELETE" -> has_key r k -> k <> "" ->
  let a := snd (ServeHTTP strict (serve strict [] h) r) in
  ((exists v, holds TrimSpace h k v) -> a_status a = 200 /\ ~ errored a) /\
  ((forall v, ~ holds TrimSpace h k v) -> a_status a = 204 /\ errored a) /\
  forall v, ~ holds TrimSpace (h ++ [r]) k v.
Proof.
  intros strict h r k E K Hk a. pose proof (fun v => serve_get strict h k v Hk) as G. set (s := serve strict [] h) in *.
  pose proof K as K'. apply has_key_get in K. subst a. unfold M_Example.ServeHTTP. rewrite E. cbn [String.eqb Ascii.eqb Bool.eqb]. unfold handleDel. rewrite K.
  pose proof Hk as Hk'. apply String.eqb_neq in Hk'. rewrite Hk'. unfold Del. split; [|split].
  - intros [v H]. apply G in H. rewrite H. split; [reflexivity|]. intros X. inversion X as [? ? Y|? ? X']; subst; [discriminate Y|inversion X'].
  - intros N. destruct (map_get k s) as [v|] eqn:M; [destruct (N v); apply G; reflexivity|]. split; [reflexivity|]. right. left. reflexivity.
  - intros v H. apply (serve_get strict _ k v Hk) in H. rewrite serve_snoc in H. fold s in H.
    destruct (step_get strict s r k Hk) as [(u & (P & _) & _)|[(_ & _ & Z)|(_ & N & _)]]; [congruence|congruence|]. apply N. split; assumption.
Qed.
(** A request to store is answered with 200 exactly if it stores something, and then a read gives it. *)
Theorem C108_write : forall strict h r k, r_method r = "PUT" -> has_key r k ->
  let a := snd (ServeHTTP strict (serve strict [] h) r) in
  (a_status a = 200 <-> exists v, stores TrimSpace r k v) /\
  (a_status a <> 200 -> a_status a = 400 /\ fst (ServeHTTP strict (serve strict [] h) r) = serve strict [] h) /\
  forall v, stores TrimSpace r k v -> holds TrimSpace (h ++ [r]) k v.
Proof.
  intros strict h r k E K a. set (s := serve strict [] h) in *. pose proof K as K'. apply has_key_get in K.
  assert (H3 : forall v, stores TrimSpace r k v -> holds TrimSpace (h ++ [r]) k v).
  { intros v H. exists h, r, []. split; [reflexivity|]. split; [exact H|intros r' []]. }
  subst a. unfold M_Example.ServeHTTP. rewrite E. cbn [String.eqb Ascii.eqb Bool.eqb]. unfold handleSet. rewrite K. rewrite <- and_assoc. split; [|exact H3].
  unfold stores. destruct (String.eqb_spec k "") as [->|Nk].
  { split; [split; [discriminate|intros (v & _ & _ & N & _); congruence]|split; reflexivity]. }
  destruct (r_body r) as [body|].
  2:{ split; [split; [discriminate|intros (v & _ & _ & _ & _ & b & ? & _); discriminate]|split; reflexivity]. }
  destruct (String.eqb_spec (TrimSpace body) "") as [Eb|Nb].
  { split; [split; [discriminate|intros (v & _ & _ & _ & N & b & [= <-] & H); congruence]|split; reflexivity]. }
  split; [split; [intros _; exists (TrimSpace body); eauto 10|reflexivity]|cbn; congruence].
Qed.
(** In the trace of a request there is an error exactly if the request was not answered with 200, but for requests to store and,
    in trc-basic, methods that are not allowed. *)
Theorem C108_errors_are_traced : forall strict s r, r_method r <> "PUT" -> (strict = true \/ r_method r = "GET" \/ r_method r = "DELETE") ->
  let a := snd (ServeHTTP strict s r) in errored a <-> a_status a <> 200.
Proof.
  intros strict s r NP H a. subst a. unfold M_Example.ServeHTTP.
  assert (N : forall e1 e2 t, fst e1 = false -> fst e2 = false -> (errored (MkAns 200 t [e1; e2]) <-> a_status (MkAns 200 t [e1; e2]) <> 200)).
  { intros e1 e2 t F1 F2. split; [|cbn; congruence]. intros X. exfalso. unfold errored, is_error_event in X.
    inversion X as [? ? Y|? ? X']; subst; [congruence|]. inversion X' as [? ? Y|? ? X'']; subst; [congruence|inversion X'']. }
  assert (N1 : forall e1 t, fst e1 = false -> (errored (MkAns 200 t [e1]) <-> a_status (MkAns 200 t [e1]) <> 200)).
  { intros e1 t F1. split; [|cbn; congruence]. intros X. exfalso. unfold errored, is_error_event in X.
    inversion X as [? ? Y|? ? X']; subst; [congruence|inversion X']. }
  assert (R : forall st t l, st <> 200 -> In true (map fst l) -> (errored (Error st t l) <-> a_status (Error st t l) <> 200)).
  { intros st t l Hs I. split; [intros _; exact Hs|]. intros _. apply Exists_exists. apply in_map_iff in I as (e & He & I). exists e. auto. }
  destruct (String.eqb_spec (r_method r) "GET") as [E|NG].
  { unfold handleGet. destruct (String.eqb _ ""); [apply R; [lia|left; reflexivity]|]. destruct (Get _ s); [apply N; reflexivity|].
    apply R; [lia|right; left; reflexivity]. }
  destruct (String.eqb_spec (r_method r) "PUT") as [E|_]; [contradiction|].
  destruct (String.eqb_spec (r_method r) "DELETE") as [E|ND].
  { unfold handleDel. destruct (String.eqb _ ""); [apply R; [lia|left; reflexivity]|]. unfold Del. destruct (map_get _ s); [apply N1; reflexivity|].
    apply R; [lia|right; left; reflexivity]. }
  apply R; [lia|]. left. destruct H as [->|[H|H]]; [reflexivity|congruence|congruence].
Qed.
(** Finding: no request to store leaves an error in its trace, although it may be refused. *)
Theorem C108_refused_writes_refuted : forall strict s r, r_method r = "PUT" ->
  ~ errored (snd (ServeHTTP strict s r)) /\ (r_body r = None -> a_status (snd (ServeHTTP strict s r)) = 400).
Proof.
  intros strict s r E. unfold M_Example.ServeHTTP. rewrite E. cbn [String.eqb Ascii.eqb Bool.eqb]. unfold handleSet.
  assert (N : forall a, Forall (fun e => fst e = false) (a_events a) -> ~ errored a).
  { intros a F X. apply Exists_exists in X as (e & I & He). rewrite Forall_forall in F. unfold is_error_event in He. rewrite (F _ I) in He. discriminate. }
  destruct (String.eqb _ ""); [split; [apply N; constructor|reflexivity]|]. destruct (r_body r) as [b|].
  - split; [|discriminate]. destruct (String.eqb _ ""); apply N; repeat constructor.
  - split; [apply N; repeat constructor|reflexivity].
Qed.
(** Finding: over the server of trc-basic the service cannot be used: whatever is requested, nothing is stored, and a request that
    reaches the service at all is refused. *)
Theorem C108_served_api_refuted : forall strict h r,
  mux_serve TrimSpace quote strict [] h = [] /\
  match mux_api TrimSpace quote strict [] r with Some (_, a) => a_status a = 400 \/ a_status a = 405 | None => True end.
Proof.
  intros strict h r.
  assert (A : forall s r, match mux_api TrimSpace quote strict s r with Some (s', a) => s' = s /\ (a_status a = 400 \/ a_status a = 405) | None => True end).
  { intros s x. unfold mux_api. destruct (String.eqb _ "/api"); [|exact Logic.I]. unfold M_Example.ServeHTTP. cbn [r_method].
    destruct (String.eqb _ "GET"); [cbn; auto|]. destruct (String.eqb _ "PUT"); [cbn; auto|]. destruct (String.eqb _ "DELETE"); cbn; auto. }
  split.
  - induction h as [|x h IH]; [reflexivity|]. cbn. specialize (A [] x). destruct (mux_api _ _ strict [] x) as [[s' a]|]; [destruct A as [-> _]|]; exact IH.
  - specialize (A [] r). destruct (mux_api _ _ strict [] r) as [[s' a]|]; [apply A|exact A].
Qed.
(** The category of the trace says which of the operations it was. *)
Theorem C108_categories : forall r,
  (apiCategory r = "KV Get" -> r_method r = "GET" \/ r_method r = "Get") /\
  (r_method r = "GET" -> apiCategory r = "KV Get") /\ (r_method r = "PUT" -> apiCategory r = "KV Set") /\
  (r_method r = "DELETE" -> apiCategory r = "KV Del").
Proof.
  intros r. unfold apiCategory. repeat split; try (intros ->; reflexivity). destruct (String.eqb _ "DELETE"); [discriminate|].
  destruct (String.eqb_spec (r_method r) "GET"); [auto|]. destruct (String.eqb _ "PUT"); [discriminate|]. intros [= ->]. auto.
Qed.
End KV.

Example C108_instance :
  let trim := fun s : string => s in let q := fun s : string => s in
  let h := [MkReq "PUT" "/a" (Some "1"); MkReq "PUT" "b" (Some "2"); MkReq "DELETE" "/b" None; MkReq "PUT" "//a" (Some "3"); MkReq "PUT" "/a" (Some "")] in
  holds trim h "a" "1" /\ (forall v, ~ holds trim h "b" v) /\
  a_text (snd (ServeHTTP trim q true (serve trim q true [] h) (MkReq "GET" "a" None))) = ("1" ++ newline)%string /\
  a_status (snd (ServeHTTP trim q true (serve trim q true [] h) (MkReq "GET" "b" None))) = 204 /\
  a_text (snd (ServeHTTP trim q true (serve trim q true [] h) (MkReq "GET" "//a" None))) = ("3" ++ newline)%string.
Proof.
  cbv zeta. split; [|split; [|repeat split]].
  - apply (serve_get _ (fun s => s) true); [discriminate|reflexivity].
  - intros v H. apply (serve_get _ (fun s => s) true) in H; [discriminate H|discriminate].
Qed.

Print Assumptions C108_read.
Print Assumptions C108_delete.
Print Assumptions C108_write.
Print Assumptions C108_errors_are_traced.
Print Assumptions C108_refused_writes_refuted.
Print Assumptions C108_served_api_refuted.
Print Assumptions C108_categories.

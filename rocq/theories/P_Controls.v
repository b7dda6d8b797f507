(** C120: what keys, clicks and the pointer do on the search page. *)
From Verif Require Import Go L_List M_Types M_Web M_Controls S_Controls.
From Coq Require Import Lia.
Open Scope string_scope.
Open Scope list_scope.
Open Scope Z_scope.

Section Controls.
Variable selects : string -> string -> bool.
Notation act := (act selects).
Notation run := (run selects).

(** *** The debug information *)
Lemma stored_visible_key code shift t : t_visible t = t_stored t -> t_visible (keydown code shift t) = t_stored (keydown code shift t).
Proof.
  intros H. unfold keydown. destruct t as [items stored visible foc typed]. cbn in H. subst visible.
  destruct foc; cbn [on_body t_focus andb]; destruct (code =? 68), (code =? 83), (code =? 191), shift, (code =? 27); reflexivity.
Qed.
Lemma act_stored t a : t_visible t = t_stored t -> t_visible (act t a) = t_stored (act t a).
Proof.
  intros H. destruct a; cbn [M_Controls.act]; try exact H; try reflexivity.
  - apply stored_visible_key, H.
  - destruct (nth_error _ _); exact H.
  - destruct (t_visible t) eqn:E; [reflexivity|rewrite E; exact H].
Qed.
Lemma run_app t h a : run t (h ++ [a]) = act (run t h) a.
Proof. unfold M_Controls.run. rewrite fold_left_app. reflexivity. Qed.
Lemma run_stored h : t_visible (run blank h) = t_stored (run blank h).
Proof.
  induction h as [|a h IH] using rev_ind; [reflexivity|]. rewrite run_app. apply act_stored, IH.
Qed.

(** The debug information appears and disappears with the key d, unless that is typed somewhere; a
    click on it makes it disappear; nothing else changes whether it is shown, and loading another
    page does not. *)
Theorem C120_debug_info :
  forall h a, let t := run blank h in
    (forall ctrl shift, a = Key 68 ctrl shift -> t_focus t = Body -> t_visible (act t a) = negb (t_visible t)) /\
    (a = ClickDebug -> t_visible (act t a) = false) /\
    (a <> ClickDebug -> (forall ctrl shift, a = Key 68 ctrl shift -> t_focus t <> Body) -> t_visible (act t a) = t_visible t).
Proof.
  intros h a t. pose proof (run_stored h) as E. fold t in E. clearbody t. destruct t as [items stored visible foc typed]. cbn in E. subst visible. cbn [t_visible t_focus]. split; [|split].
  - intros ctrl shift -> ->. reflexivity.
  - intros ->. cbn. destruct stored; reflexivity.
  - intros Hc Hk. destruct a; cbn [M_Controls.act]; try reflexivity; try congruence.
    + specialize (Hk ctrl shift). unfold keydown. cbn [t_focus]. destruct (Z.eqb_spec code 68) as [->|Hne].
      * specialize (Hk eq_refl). destruct foc; [congruence| |]; reflexivity.
      * rewrite andb_false_r. destruct foc; cbn [on_body andb]; destruct (code =? 83), (code =? 191), shift, (code =? 27); reflexivity.
    + cbn [t_items]. destruct (nth_error _ _); reflexivity.
Qed.

(** *** The keyboard *)
(** A page that is loaded has the focus in the search box.  What is typed there does nothing else;
    Escape leaves it, and a slash elsewhere on the page enters it and is not typed.  In other
    elements keys do nothing. *)
Theorem C120_typing :
  forall t code ctrl shift,
    (forall traces, t_focus (act t (Load traces)) = Box) /\
    (t_focus t = Box -> code <> 27 ->
       act t (Key code ctrl shift) = MkTab (t_items t) (t_stored t) (t_visible t) Box (t_typed t ++ [code])) /\
    (t_focus t = Box -> act t (Key 27 ctrl shift) = MkTab (t_items t) (t_stored t) (t_visible t) Body (t_typed t)) /\
    (t_focus t = Elsewhere -> act t (Key code ctrl shift) = t) /\
    (t_focus t = Body -> act t (Key 191 ctrl false) = MkTab (t_items t) (t_stored t) (t_visible t) Box (t_typed t)) /\
    (t_focus t = Body -> (code = 191 -> shift = true) -> t_focus (act t (Key code ctrl shift)) = Body /\ t_typed (act t (Key code ctrl shift)) = t_typed t).
Proof.
  intros [items stored visible foc typed] code ctrl shift. cbn [M_Controls.act]. unfold keydown. cbn [t_focus t_items t_stored t_visible t_typed].
  split; [reflexivity|]. split; [|split; [|split; [|split]]].
  - intros -> Hc. apply Z.eqb_neq in Hc. rewrite Hc. reflexivity.
  - intros ->. reflexivity.
  - intros ->. cbn. destruct (code =? 27); reflexivity.
  - intros ->. reflexivity.
  - intros -> H. cbn [on_body andb]. destruct (Z.eqb_spec code 191) as [Ec|]; [rewrite (H Ec)|]; destruct (code =? 68), (code =? 83), (code =? 27); cbn; split; reflexivity.
Qed.

(** *** Stacks *)
Lemma nth_map {A B} (f : A -> B) l n : nth_error (map f l) n = option_map f (nth_error l n).
Proof. revert n. induction l as [|a l IH]; destruct n; cbn; auto. Qed.
Lemma nth_update {A} (f : A -> A) l n m : nth_error (update n f l) m = option_map (if Nat.eqb n m then f else (fun a => a)) (nth_error l m).
Proof.
  revert n m. induction l as [|a l IH]; destruct n, m; cbn; auto; try (destruct (nth_error l _); reflexivity).
Qed.
Lemma option_map_id {A} (o : option A) : option_map (fun a => a) o = o.
Proof. destruct o; reflexivity. Qed.

(** the rows of a trace *)
Definition stack_of (l : list item) (i j : nat) : option bool :=
  match nth_error l i with None => None | Some x => match nth_error (i_rows x) j with None => None | Some r => r_stack r end end.
Definition id_of (l : list item) (i : nat) : option string := option_map i_id (nth_error l i).
Lemma stack_at_of t i j b : stack_at t i j b <-> stack_of (t_items t) i j = Some b.
Proof.
  unfold stack_at, row_at, shown, stack_of. split.
  - intros (r & (x & E1 & E2) & E3). rewrite E1, E2. exact E3.
  - destruct (nth_error (t_items t) i) as [x|] eqn:E1; [|discriminate]. destruct (nth_error (i_rows x) j) as [r|] eqn:E2; [|discriminate]. intros E3. exists r. split; [|exact E3]. exists x. auto.
Qed.
Lemma same_id_of t i i' : same_id t i i' <-> exists id, id_of (t_items t) i = Some id /\ id_of (t_items t) i' = Some id.
Proof.
  unfold same_id, shown, id_of. split.
  - intros (x & x' & -> & -> & E). exists (i_id x). cbn. rewrite E. auto.
  - intros (id & E1 & E2). destruct (nth_error (t_items t) i) as [x|]; [|discriminate]. destruct (nth_error (t_items t) i') as [x'|]; [|discriminate]. exists x, x'.
    cbn in E1, E2. split; [reflexivity|]. split; [reflexivity|]. congruence.
Qed.
Lemma any_open_spec which l :
  existsb (fun x => which x && existsb is_open (i_rows x)) l = true <->
  exists i j x, nth_error l i = Some x /\ which x = true /\ stack_of l i j = Some true.
Proof.
  rewrite existsb_exists. split.
  - intros (x & Hin & H). apply andb_true_iff in H as [Hw H]. apply existsb_exists in H as (r & Hr & Ho).
    apply In_nth_error in Hin as [i Ei]. apply In_nth_error in Hr as [j Ej]. exists i, j, x. split; [exact Ei|]. split; [exact Hw|]. unfold stack_of. rewrite Ei, Ej. unfold is_open in Ho. destruct (r_stack r) as [[]|]; congruence.
  - intros (i & j & x & Ei & Hw & E). exists x. split; [eapply nth_error_In, Ei|]. rewrite Hw. cbn. unfold stack_of in E. rewrite Ei in E. destruct (nth_error (i_rows x) j) as [r|] eqn:Ej; [|discriminate].
    apply existsb_exists. exists r. split; [eapply nth_error_In, Ej|]. unfold is_open. rewrite E. reflexivity.
Qed.
Lemma toggle_stacks_spec (which : item -> bool) l i j b : stack_of l i j = Some b -> forall x, nth_error l i = Some x ->
  if which x then exists b', stack_of (toggleStacks which l) i j = Some b' /\
                    (b' = true <-> forall i' j' x', nth_error l i' = Some x' -> which x' = true -> stack_of l i' j' <> Some true)
  else stack_of (toggleStacks which l) i j = Some b.
Proof.
  intros E x Ex. unfold toggleStacks. set (any := existsb _ l). pose proof (any_open_spec which l) as A. fold any in A.
  pose proof E as E0. unfold stack_of in E. rewrite Ex in E. destruct (which x) eqn:Ew.
  - unfold stack_of at 1. rewrite nth_map, Ex. cbn [option_map]. rewrite Ew. cbn [option_map set_rows i_rows]. rewrite nth_map. destruct (nth_error (i_rows x) j) as [r|]; [|discriminate]. cbn [option_map set_stack r_stack]. rewrite E. cbn [option_map].
    exists (negb any). split; [reflexivity|]. split.
    + intros H i' j' x' Ei Hw Es. assert (any = true) by (apply A; exists i', j', x'; auto). rewrite H0 in H. discriminate.
    + intros H. destruct any; [|reflexivity]. exfalso. destruct A as [A _]. destruct (A eq_refl) as (i' & j' & x' & E1 & E2 & E3). exact (H i' j' x' E1 E2 E3).
  - unfold stack_of. rewrite nth_map, Ex. cbn [option_map]. rewrite Ew. exact E.
Qed.
Lemma toggle_row_spec i j l i' j' : stack_of (toggleRow i j l) i' j' = option_map (if Nat.eqb i i' && Nat.eqb j j' then negb else (fun b => b)) (stack_of l i' j').
Proof.
  unfold toggleRow, stack_of. rewrite nth_update. destruct (nth_error l i') as [x|]; [|reflexivity]. cbn [option_map]. destruct (Nat.eqb i i'); cbn [andb i_rows].
  - rewrite nth_update. destruct (nth_error (i_rows x) j') as [r|]; [|reflexivity]. cbn [option_map]. destruct (Nat.eqb j j'); [reflexivity|]. destruct (r_stack r); reflexivity.
  - destruct (nth_error (i_rows x) j') as [r|]; [|reflexivity]. destruct (r_stack r); reflexivity.
Qed.
Lemma hover_stacks id index l i j : stack_of (hoverEvent selects id index l) i j = stack_of l i j.
Proof.
  unfold hoverEvent, stack_of. rewrite nth_map. destruct (nth_error l i) as [x|]; [|reflexivity]. cbn [option_map]. destruct (selects id (i_id x)); [|reflexivity]. cbn [i_rows].
  rewrite nth_map. destruct (nth_error (i_rows x) j) as [r|]; [|reflexivity]. cbn [option_map]. unfold hover_row. destruct (_ && _); reflexivity.
Qed.
Lemma key_items code shift t : t_items (keydown code shift t) = if on_body (t_focus t) && (code =? 83) then toggleStacks (fun _ => true) (t_items t) else t_items t.
Proof.
  unfold keydown. destruct t as [items stored visible foc typed]. destruct foc; cbn [on_body t_focus andb]; destruct (Z.eqb_spec code 83) as [->|]; cbn; try reflexivity;
    destruct (code =? 68), (code =? 191), shift, (code =? 27); reflexivity.
Qed.
Definition is_load (a : action) : bool := match a with Load _ => true | _ => false end.
Definition all_plain (t : tab) : Prop := forall x, In x (t_items t) -> plain (i_id x).

Definition shape (l : list item) : list (string * list Z) := map (fun x => (i_id x, map r_index (i_rows x))) l.
Lemma shape_map f l : (forall x, i_id (f x) = i_id x /\ map r_index (i_rows (f x)) = map r_index (i_rows x)) -> shape (map f l) = shape l.
Proof. intros H. unfold shape. rewrite map_map. apply map_ext. intros x. destruct (H x) as [-> ->]. reflexivity. Qed.
Lemma toggle_shape which l : shape (toggleStacks which l) = shape l.
Proof.
  unfold toggleStacks. apply shape_map. intros x. destruct (which x); [|auto]. split; [reflexivity|]. cbn. rewrite map_map. apply map_ext. reflexivity.
Qed.
Lemma hover_shape id index l : shape (hoverEvent selects id index l) = shape l.
Proof.
  unfold hoverEvent. apply shape_map. intros x. destruct (selects _ _); [|auto]. split; [reflexivity|]. cbn. rewrite map_map. apply map_ext. intros r. unfold hover_row. destruct (_ && _); reflexivity.
Qed.
Lemma map_update {A B} (g : A -> B) (f : A -> A) l : (forall a, g (f a) = g a) -> forall n, map g (update n f l) = map g l.
Proof. intros H. induction l as [|a l IH]; intros [|n]; cbn; try reflexivity; rewrite ?H, ?IH; reflexivity. Qed.
Lemma row_shape i j l : shape (toggleRow i j l) = shape l.
Proof. unfold shape, toggleRow. apply map_update. intros x. cbn. rewrite map_update; reflexivity. Qed.
Lemma act_shape t a : is_load a = false -> shape (t_items (act t a)) = shape (t_items t).
Proof.
  destruct a; cbn [M_Controls.act is_load]; intros H; try discriminate; try reflexivity.
  - rewrite key_items. destruct (_ && _); [apply toggle_shape|reflexivity].
  - destruct (nth_error _ _); [|reflexivity]. apply toggle_shape.
  - apply row_shape.
  - destruct (t_visible t); reflexivity.
  - cbn [with_items t_items]. unfold on_row. destruct (nth_error _ _); [|reflexivity]. destruct (nth_error _ _); [|reflexivity]. apply hover_shape.
  - cbn [with_items t_items]. unfold on_row. destruct (nth_error _ _); [|reflexivity]. destruct (nth_error _ _); [|reflexivity]. apply hover_shape.
Qed.
Lemma plain_shape t : all_plain t <-> Forall (fun s => plain (fst s)) (shape (t_items t)).
Proof.
  unfold all_plain, shape. rewrite Forall_forall. split.
  - intros H s Hs. apply in_map_iff in Hs as (x & <- & Hx). apply H, Hx.
  - intros H x Hx. apply (H (i_id x, map r_index (i_rows x))). apply in_map_iff. exists x. auto.
Qed.
Lemma run_plain h : Forall plain_load h -> all_plain (run blank h).
Proof.
  induction h as [|a h IH] using rev_ind; intros F; [intros x []|]. apply Forall_app in F as [F1 F2]. inversion F2 as [|? ? Fa _]; subst. rewrite run_app. destruct (is_load a) eqn:El.
  - destruct a; try discriminate. cbn [plain_load] in Fa. intros x Hx. cbn in Hx. apply in_map_iff in Hx as ([st o] & <- & Hx). rewrite Forall_forall in Fa. exact (Fa _ Hx).
  - apply plain_shape. rewrite act_shape by exact El. apply plain_shape, IH, F1.
Qed.

(** On every page, whatever was done there: which stacks are open after an action.  The sign in the
    top line of a trace closes the stacks of that trace if one of them is open, and else opens them
    all; those of traces with another ID stay as they are.  The key s does so for all traces, if the
    focus is nowhere.  A click on a row turns its own stack and no other.  Nothing else opens or
    closes a stack. *)
Theorem C120_stacks :
  reads_ids selects -> forall h a i j b, Forall plain_load h ->
    let t := run blank h in
    stack_at t i j b ->
    match a with
    | ClickBars k =>
        (same_id t k i -> exists b', stack_at (act t a) i j b' /\ (b' = true <-> forall i' j', same_id t k i' -> ~ stack_at t i' j' true)) /\
        (~ same_id t k i -> stack_at (act t a) i j b)
    | Key code _ _ =>
        (code = 83 /\ t_focus t = Body -> exists b', stack_at (act t a) i j b' /\ (b' = true <-> forall i' j', ~ stack_at t i' j' true)) /\
        (~ (code = 83 /\ t_focus t = Body) -> stack_at (act t a) i j b)
    | ClickRow k l => stack_at (act t a) i j (if Nat.eqb k i && Nat.eqb l j then negb b else b)
    | Load _ => True
    | _ => stack_at (act t a) i j b
    end.
Proof.
  intros Hs h a i j b F t H. pose proof (run_plain h F) as P. fold t in P. pose proof H as H'. apply stack_at_of in H.
  assert (Ex : exists x, nth_error (t_items t) i = Some x) by (unfold stack_of in H; destruct (nth_error (t_items t) i) as [x|]; [exists x; reflexivity|discriminate]).
  destruct Ex as [x Ex].
  destruct a; try exact I.
  - (* Key *) cbn [M_Controls.act]. split.
    + intros [-> Hf]. pose proof (toggle_stacks_spec (fun _ => true) (t_items t) i j b H x Ex) as S. cbn in S. destruct S as (b' & S1 & S2). exists b'. split.
      * apply stack_at_of. rewrite key_items, Hf. exact S1.
      * rewrite S2. split.
        -- intros G i' j' Hst. apply stack_at_of in Hst. pose proof Hst as Hst'. unfold stack_of in Hst'. destruct (nth_error (t_items t) i') as [x'|] eqn:Ex'; [|discriminate]. exact (G i' j' x' Ex' eq_refl Hst).
        -- intros G i' j' x' Ex' _ Hst. apply (G i' j'). apply stack_at_of, Hst.
    + intros Hn. apply stack_at_of. rewrite key_items. destruct (t_focus t) eqn:Ef; cbn [on_body andb]; try exact H. destruct (Z.eqb_spec code 83) as [->|]; [exfalso; apply Hn; auto|exact H].
  - (* FocusOn *) exact H'.
  - (* ClickBars *) cbn [M_Controls.act]. destruct (nth_error (t_items t) i0) as [y|] eqn:Ey.
    + assert (Py : plain (i_id y)) by (apply P; eapply nth_error_In, Ey).
      assert (W : forall i' x', nth_error (t_items t) i' = Some x' -> (selects (i_id y) (i_id x') = true <-> same_id t i0 i')).
      { intros i' x' Ex'. rewrite (Hs _ _ Py), String.eqb_eq. rewrite same_id_of. unfold id_of. rewrite Ey, Ex'. cbn. split; [intros E; exists (i_id y); rewrite E; auto|]. intros (id & E1 & E2). congruence. }
      pose proof (toggle_stacks_spec (fun x => selects (i_id y) (i_id x)) (t_items t) i j b H x Ex) as S. cbn beta in S. pose proof (W i x Ex) as Wx. split.
      * intros Hsame. apply Wx in Hsame. rewrite Hsame in S. destruct S as (b' & S1 & S2). exists b'. split; [apply stack_at_of; exact S1|]. rewrite S2. split.
        -- intros G i' j' Hi Hst. apply stack_at_of in Hst. pose proof Hst as Hst'. unfold stack_of in Hst'. destruct (nth_error (t_items t) i') as [x'|] eqn:Ex'; [|discriminate].
           apply (G i' j' x' Ex'); [apply (W i' x' Ex'); exact Hi|exact Hst].
        -- intros G i' j' x' Ex' Hw Hst. apply (G i' j'); [apply (W i' x' Ex'), Hw|apply stack_at_of, Hst].
      * intros Hn. destruct (selects (i_id y) (i_id x)) eqn:E; [exfalso; apply Hn, Wx; reflexivity|]. apply stack_at_of. exact S.
    + split; [intros Hsame; apply same_id_of in Hsame as (id & E & _); unfold id_of in E; rewrite Ey in E; discriminate|]. intros _. exact H'.
  - (* ClickRow *) apply stack_at_of. cbn [M_Controls.act with_items t_items]. rewrite toggle_row_spec, H. cbn. destruct (_ && _); reflexivity.
  - (* ClickDebug *) cbn [M_Controls.act]. destruct (t_visible t); exact H'.
  - (* Over *) apply stack_at_of. cbn [M_Controls.act with_items t_items]. unfold on_row. destruct (nth_error (t_items t) i0) as [y|]; [|exact H]. destruct (nth_error (i_rows y) j0); [|exact H]. rewrite hover_stacks. exact H.
  - (* Out *) apply stack_at_of. cbn [M_Controls.act with_items t_items]. unfold on_row. destruct (nth_error (t_items t) i0) as [y|]; [|exact H]. destruct (nth_error (i_rows y) j0); [|exact H]. rewrite hover_stacks. exact H.
Qed.

(** *** The pointer *)
Definition on (cur : option (string * Z)) (id : string) (index : Z) : bool :=
  match cur with Some (id', k) => String.eqb id' id && (0 <=? index) && (index =? k) | None => false end.
Definition in_trace (cur : option (string * Z)) (id : string) : bool := match cur with Some (id', _) => String.eqb id' id | None => false end.
Definition lit_row (cur : option (string * Z)) (id : string) (r : row) : Prop :=
  r_hover r = on cur id (r_index r) /\ (r_bar r = None \/ r_bar r = Some (on cur id (r_index r))).
Definition lit_element (cur : option (string * Z)) (id : string) (e : Z * bool) : Prop := 0 <= fst e /\ snd e = on cur id (fst e).
Definition lit (cur : option (string * Z)) (x : item) : Prop :=
  i_line x = in_trace cur (i_id x) /\ Forall (lit_row cur (i_id x)) (i_rows x) /\ Forall (lit_element cur (i_id x)) (i_elements x).

Lemma lit_set_rows cur f x : (forall r, r_index (f r) = r_index r /\ r_hover (f r) = r_hover r /\ r_bar (f r) = r_bar r) -> lit cur x -> lit cur (set_rows f x).
Proof.
  intros Hf (H1 & H2 & H3). split; [exact H1|]. split; [|exact H3]. cbn. apply Forall_map. eapply Forall_impl; [|exact H2]. intros r [A B]. destruct (Hf r) as (F1 & F2 & F3). split; [rewrite F1, F2; exact A|rewrite F1, F3; exact B].
Qed.
Lemma lit_toggle cur which l : Forall (lit cur) l -> Forall (lit cur) (toggleStacks which l).
Proof.
  intros H. unfold toggleStacks. apply Forall_map. eapply Forall_impl; [|exact H]. intros x Hx. destruct (which x); [|exact Hx]. apply lit_set_rows; [|exact Hx]. intros r. auto.
Qed.
Lemma Forall_update {A} (P : A -> Prop) f l : (forall a, P a -> P (f a)) -> Forall P l -> forall n, Forall P (update n f l).
Proof. intros Hf. induction 1 as [|a l Ha Hl IH]; intros [|n]; cbn; constructor; auto. Qed.
Lemma lit_toggle_row cur i j l : Forall (lit cur) l -> Forall (lit cur) (toggleRow i j l).
Proof.
  intros H. unfold toggleRow. apply Forall_update; [|exact H]. intros x (H1 & H2 & H3). split; [exact H1|]. split; [|exact H3]. cbn. apply Forall_update; [|exact H2].
  intros r [A B]. split; [exact A|exact B].
Qed.
Lemma hover_once id k l : reads_ids selects -> plain id -> forall cur cur', (cur = None /\ cur' = Some (id, k)) \/ (cur = Some (id, k) /\ cur' = None) ->
  Forall (lit cur) l -> Forall (lit cur') (hoverEvent selects id k l).
Proof.
  intros Hs Hp cur cur' Hc H. unfold hoverEvent. apply Forall_map. eapply Forall_impl; [|exact H]. intros x (H1 & H2 & H3). rewrite (Hs _ _ Hp).
  destruct (String.eqb id (i_id x)) eqn:E.
  - assert (T : in_trace cur' (i_id x) = negb (in_trace cur (i_id x))) by (destruct Hc as [[-> ->]|[-> ->]]; cbn; rewrite E; reflexivity).
    assert (O : forall z, on cur' (i_id x) z = if (0 <=? z) && (z =? k) then negb (on cur (i_id x) z) else on cur (i_id x) z).
    { intros z. destruct Hc as [[-> ->]|[-> ->]]; cbn; rewrite E; destruct (0 <=? z), (z =? k); reflexivity. }
    split; [|split]; cbn [i_line i_id i_rows i_elements].
    + rewrite H1, T. reflexivity.
    + apply Forall_map. eapply Forall_impl; [|exact H2]. intros r [A B]. unfold lit_row, hover_row.
      destruct ((0 <=? r_index r) && (r_index r =? k)) eqn:Ek; cbn [r_hover r_index r_bar].
      * rewrite O, Ek, A. split; [reflexivity|]. destruct B as [-> | ->]; [left; reflexivity|right; reflexivity].
      * rewrite O, Ek. auto.
    + apply Forall_map. eapply Forall_impl; [|exact H3]. intros [z b] [A B]. cbn [fst snd] in *. apply Z.leb_le in A. unfold lit_element.
      destruct (z =? k) eqn:Ek; cbn [fst snd]; rewrite O, A, Ek; cbn [andb]; split; try (apply Z.leb_le; exact A); congruence.
  - assert (T : in_trace cur' (i_id x) = in_trace cur (i_id x)) by (destruct Hc as [[-> ->]|[-> ->]]; cbn; rewrite E; reflexivity).
    assert (O : forall z, on cur' (i_id x) z = on cur (i_id x) z) by (intros z; destruct Hc as [[-> ->]|[-> ->]]; cbn; rewrite E; reflexivity).
    split; [congruence|]. split; (eapply Forall_impl; [|eassumption]).
    + intros r [A B]. unfold lit_row. rewrite O. auto.
    + intros e [A B]. unfold lit_element. rewrite O. auto.
Qed.
Definition current (l : list (string * list Z)) (p : option (nat * nat)) : option (string * Z) :=
  match p with
  | None => None
  | Some (k, j) => match nth_error l k with None => None | Some (id, rows) => option_map (pair id) (nth_error rows j) end
  end.
Lemma nth_shape l i : nth_error (shape l) i = option_map (fun x => (i_id x, map r_index (i_rows x))) (nth_error l i).
Proof. apply nth_map. Qed.
Lemma lit_on_row (l : list item) i j cur cur' : reads_ids selects -> (forall x, In x l -> plain (i_id x)) ->
  (cur = None /\ cur' = current (shape l) (Some (i, j))) \/ (cur = current (shape l) (Some (i, j)) /\ cur' = None) ->
  Forall (lit cur) l -> Forall (lit cur') (on_row i j (hoverEvent selects) l).
Proof.
  intros Hs Hp Hc H. unfold on_row. cbn [current] in Hc. rewrite nth_shape in Hc. destruct (nth_error l i) as [x|] eqn:Ex; cbn [option_map] in Hc.
  - rewrite nth_map in Hc. destruct (nth_error (i_rows x) j) as [r|]; cbn [option_map] in Hc.
    + eapply hover_once; [exact Hs|apply Hp; eapply nth_error_In, Ex|exact Hc|exact H].
    + destruct Hc as [[-> ->]|[-> ->]]; exact H.
  - destruct Hc as [[-> ->]|[-> ->]]; exact H.
Qed.
Lemma run_lit h p : reads_ids selects -> Forall plain_load h -> pointer h p -> Forall (lit (current (shape (t_items (run blank h))) p)) (t_items (run blank h)).
Proof.
  intros Hs F Hp. induction Hp as [|h i j Hp IH|h i j Hp IH|h p traces Hp IH|h p a Hp IH Ha]; [constructor| | | |];
    apply Forall_app in F as [F Fa]; specialize (IH F); pose proof (run_plain h F) as P; rewrite run_app.
  - rewrite act_shape by reflexivity. cbn [M_Controls.act with_items t_items]. eapply lit_on_row; [exact Hs|exact P| |exact IH]. left. auto.
  - rewrite act_shape by reflexivity. cbn [M_Controls.act with_items t_items]. eapply lit_on_row; [exact Hs|exact P| |exact IH]. right. auto.
  - cbn [M_Controls.act updateDebugInfo t_items current]. apply Forall_map. apply Forall_forall. intros [st o] _. split; [reflexivity|]. cbn [item_of i_id i_rows i_elements]. split.
    + apply Forall_map. apply Forall_forall. intros e _. split; [reflexivity|]. cbn. destruct (re_IsStart e); auto.
    + apply Forall_map. apply Forall_forall. intros e He. apply filter_In in He as [_ He]. split; [|reflexivity]. cbn. apply negb_true_iff, Z.ltb_ge in He. exact He.
  - rewrite act_shape by (destruct a; try reflexivity; destruct Ha). destruct a; try (destruct Ha); cbn [M_Controls.act].
    + rewrite key_items. destruct (_ && _); [apply lit_toggle, IH|exact IH].
    + exact IH.
    + destruct (nth_error _ _); [|exact IH]. apply lit_toggle, IH.
    + apply lit_toggle_row, IH.
    + destruct (t_visible _); exact IH.
Qed.
Lemma points_current t p i x index : shown t i x ->
  (points_into t p i index <-> current (shape (t_items t)) p = Some (i_id x, index)).
Proof.
  unfold points_into, same_id, row_at, shown. intros Ex. split.
  - intros (k & l & r & -> & (y & y' & Ey & Ey' & E) & (z & Ez & Er) & <-). cbn [current]. rewrite nth_shape, Ey. cbn [option_map]. rewrite nth_map. replace z with y in Er by congruence. rewrite Er. cbn. replace y' with x in E by congruence. rewrite E. reflexivity.
  - destruct p as [[k l]|]; [|discriminate]. cbn [current]. rewrite nth_shape. destruct (nth_error (t_items t) k) as [y|] eqn:Ey; [|discriminate]. cbn [option_map]. rewrite nth_map.
    destruct (nth_error (i_rows y) l) as [r|] eqn:Er; [|discriminate]. cbn. intros E. injection E as E1 E2. exists k, l, r. split; [reflexivity|]. split; [exists y, x; auto|]. split; [exists y; auto|exact E2].
Qed.

(** Wherever the pointer has been, and whatever else was done: what is highlighted belongs to the
    row it is on now.  These are the timeline of the trace, and, unless it is the row of the start,
    the row, the bar in it, and its part of the timeline. *)
Theorem C120_pointer :
  reads_ids selects -> forall h p, Forall plain_load h -> pointer h p ->
  let t := run blank h in
  forall i x, shown t i x ->
    (i_line x = true <-> exists index, points_into t p i index) /\
    (forall r, In r (i_rows x) -> (r_hover r = true <-> 0 <= r_index r /\ points_into t p i (r_index r)) /\
       forall b, r_bar r = Some b -> b = r_hover r) /\
    (forall index b, In (index, b) (i_elements x) -> (b = true <-> points_into t p i index)).
Proof.
  intros Hs h p F Hp t i x Hx. pose proof (run_lit h p Hs F Hp) as L. fold t in L. rewrite Forall_forall in L. destruct (L x (nth_error_In _ _ Hx)) as (L1 & L2 & L3). rewrite Forall_forall in L2, L3.
  pose proof (fun index => points_current t p i x index Hx) as PC. set (cur := current (shape (t_items t)) p) in *.
  assert (O : forall index, on cur (i_id x) index = true <-> 0 <= index /\ points_into t p i index).
  { intros index. rewrite PC. unfold on. destruct cur as [[id k]|]; [|split; [discriminate|intros [_ H]; discriminate]].
    rewrite !andb_true_iff, String.eqb_eq, Z.leb_le, Z.eqb_eq. split; [intros [[-> H] ->]; auto|]. intros [H E]. injection E as -> ->. auto. }
  split; [|split].
  - rewrite L1. unfold in_trace. split.
    + destruct cur as [[id k]|] eqn:Ec; [|discriminate]. intros E. apply String.eqb_eq in E. exists k. apply PC. rewrite E. reflexivity.
    + intros [index E]. apply PC in E. rewrite E. apply String.eqb_refl.
  - intros r Hr. destruct (L2 r Hr) as [A B]. split; [rewrite A; apply O|]. intros b Eb. destruct B as [B|B]; congruence.
  - intros index b He. destruct (L3 _ He) as [A B]. cbn [fst snd] in A, B. rewrite B, O. tauto.
Qed.

(** Finding: traces are told apart by their IDs, so where one trace is shown twice, as when two
    searchers have it, its sign and the pointer work on both. *)
Theorem C120_shown_twice_refuted :
  reads_ids selects -> forall h i i' j j' b b', Forall plain_load h ->
    let t := run blank h in
    i <> i' -> same_id t i i' -> stack_at t i j b -> stack_at t i' j' b' ->
    exists c, stack_at (act t (ClickBars i)) i j c /\ stack_at (act t (ClickBars i)) i' j' c.
Proof.
  intros Hs h i i' j j' b b' F t _ Hid H H'.
  assert (Hii : same_id t i i) by (destruct Hid as (x & x' & A & _); exists x, x; auto).
  destruct (proj1 (C120_stacks Hs h (ClickBars i) i j b F H) Hii) as (c & C1 & C2). destruct (proj1 (C120_stacks Hs h (ClickBars i) i' j' b' F H') Hid) as (c' & C1' & C2').
  fold t in C1, C2, C1', C2'. exists c. split; [exact C1|]. replace c with c'; [exact C1'|]. destruct c, c'; try reflexivity; [apply C2'; apply (proj1 C2); reflexivity|symmetry; apply C2; apply (proj1 C2'); reflexivity].
Qed.
(** Finding: the keys work with modifiers too, so that saving a page with Control and s opens or
    closes its stacks. *)
Theorem C120_modifiers_refuted :
  forall t code shift, act t (Key code true shift) = act t (Key code false shift).
Proof. reflexivity. Qed.
End Controls.
Print Assumptions C120_debug_info.
Print Assumptions C120_typing.
Print Assumptions C120_stacks.
Print Assumptions C120_pointer.
Print Assumptions C120_shown_twice_refuted.
Print Assumptions C120_modifiers_refuted.

(** *** Instances: a page with the traces A, B and A again *)
Definition ev (what : string) : Event := MkEvent 5 what [] false.
Definition demo_trace (id : string) : StaticTrace := MkStatic "src" id "cat" 1 9 "" true false [ev "one"; ev "two"].
Definition none (_ : Z) : bool := false.
Definition demo_load : action := Load [(demo_trace "A", none); (demo_trace "B", fun k => k =? 1); (demo_trace "A", none)].
Definition stacks (t : tab) : list (list (option bool)) := map (fun x => map r_stack (i_rows x)) (t_items t).
Definition demo_run := run String.eqb blank.
Example C120_instance :
  reads_ids String.eqb /\ Forall plain_load [demo_load] /\
  stacks (demo_run [demo_load]) = [[None; Some false; Some false; None]; [None; Some false; Some true; None]; [None; Some false; Some false; None]] /\
  stacks (demo_run [demo_load; ClickBars 0]) = [[None; Some true; Some true; None]; [None; Some false; Some true; None]; [None; Some true; Some true; None]] /\
  stacks (demo_run [demo_load; Key 83 false false]) = stacks (demo_run [demo_load]) /\
  t_typed (demo_run [demo_load; Key 83 false false]) = [83] /\
  stacks (demo_run [demo_load; Key 27 false false; Key 83 true false]) = [[None; Some false; Some false; None]; [None; Some false; Some false; None]; [None; Some false; Some false; None]] /\
  t_visible (demo_run [demo_load; Key 27 false false; Key 68 false false; Load []]) = true /\
  pointer [demo_load; Over 1 1; Key 83 false false; Out 1 1; Over 1 2] (Some (1%nat, 2%nat)) /\
  map (fun x => (i_line x, map r_hover (i_rows x), map snd (i_elements x))) (t_items (demo_run [demo_load; Over 1 1; Key 83 false false; Out 1 1; Over 1 2])) =
    [(false, [false; false; false; false], [false; false; false]); (true, [false; false; true; false], [false; true; false]); (false, [false; false; false; false], [false; false; false])] /\
  map (fun x => map r_hover (i_rows x)) (t_items (demo_run [demo_load; Over 2 1])) = [[false; true; false; false]; [false; false; false; false]; [false; true; false; false]].
Proof.
  split; [intros a b _; reflexivity|]. split.
  { constructor; [|constructor]. cbn [plain_load demo_load]. repeat (apply Forall_cons; [split; [discriminate|intros c [<-|[]]; vm_compute; intuition discriminate]|]). apply Forall_nil. }
  do 6 (split; [vm_compute; reflexivity|]). split; [|split; vm_compute; reflexivity].
  apply (pointer_over [demo_load; Over 1 1; Key 83 false false; Out 1 1] 1 2), (pointer_out [demo_load; Over 1 1; Key 83 false false] 1 1), (pointer_other [demo_load; Over 1 1] _ (Key 83 false false)); [|exact I].
  apply (pointer_over [demo_load] 1 1), (pointer_load [] None), pointer_start.
Qed.

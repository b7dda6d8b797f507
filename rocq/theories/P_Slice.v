(** C46: argument slices of prefixes. *)
From Verif Require Import Go L_List S_Trace L_Decor M_Slice.
From Coq Require Import Lia.
Open Scope string_scope.
Open Scope list_scope.

Section Slices.
Context {arg world : Type}.
Variable Sprintf : world -> string -> list arg -> string.
Notation heap := (@heap arg).
Notation pop := (pop arg world).
Notation pstate := (pstate arg).
Notation plog := (plog Sprintf).
Notation pstep := (pstep Sprintf).
Notation prun := (prun Sprintf).
Notation text := (text Sprintf).

Definition fits (h : heap) (s : slice) : Prop := (sl_len s <= sl_cap s)%nat /\ (sl_off s + sl_cap s <= length (array_at h (sl_arr s)))%nat /\ (sl_arr s < length h)%nat.
Definition full (s : slice) : Prop := sl_cap s = sl_len s.
(** The slices a program uses exist when it uses them; those given to Prefix have no spare
    capacity. *)
Definition possible (s : pstate) (o : pop) : Prop :=
  match o with
  | PMake _ => True
  | PPrefix _ _ a => fits (ps_heap s) a /\ full a
  | PLog _ _ _ _ a _ => fits (ps_heap s) a
  end.
Fixpoint all_possible (s : pstate) (ops : list pop) : Prop :=
  match ops with [] => True | o :: ops => possible s o /\ all_possible (pstep s o) ops end.

(** the values of an argument slice at the moment it is passed, and with the values of all prefixes
    before them *)
Definition prefixes (h : heap) (t : ptrace) : string * list arg :=
  (fold_right (fun p acc => acc ++ fst p)%string "" t, fold_right (fun p acc => acc ++ read h (snd p)) [] t).
Definition meant (s : pstate) (o : pop) : list (string * list arg) :=
  match o with
  | PLog t _ _ f a _ =>
      let '(pf, pa) := prefixes (ps_heap s) (nth t (ps_traces s) []) in
      [((pf ++ f)%string, pa ++ read (ps_heap s) a)]
  | _ => []
  end.
Fixpoint meanings (s : pstate) (ops : list pop) : list (string * list arg) :=
  match ops with [] => [] | o :: ops => meant s o ++ meanings (pstep s o) ops end.

Definition extends (h h' : heap) : Prop := exists more, h' = h ++ more.
Lemma extends_refl h : extends h h. Proof. exists []. rewrite app_nil_r. reflexivity. Qed.
Lemma extends_trans h1 h2 h3 : extends h1 h2 -> extends h2 h3 -> extends h1 h3.
Proof. intros [m ->] [m' ->]. exists (m ++ m'). rewrite app_assoc. reflexivity. Qed.
Lemma array_extends h h' a : extends h h' -> (a < length h)%nat -> array_at h' a = array_at h a.
Proof. intros [m ->] H. unfold array_at. apply app_nth1. exact H. Qed.
Lemma read_extends h h' s : extends h h' -> fits h s -> read h' s = read h s.
Proof. intros E (_ & _ & H). unfold read. rewrite (array_extends h h' _ E H). reflexivity. Qed.
Lemma fits_extends h h' s : extends h h' -> fits h s -> fits h' s.
Proof.
  intros E (H1 & H2 & H3). split; [exact H1|]. rewrite (array_extends h h' _ E H3). split; [exact H2|].
  destruct E as [m ->]. rewrite app_length. lia.
Qed.
Lemma read_length h s : fits h s -> length (read h s) = sl_len s.
Proof. intros (H1 & H2 & _). unfold read. rewrite firstn_length, skipn_length. lia. Qed.

Lemma overwrite_nil l n : overwrite l n (@nil arg) = l.
Proof. unfold overwrite. cbn [app length]. rewrite Nat.add_0_r. apply firstn_skipn. Qed.
Lemma update_same {A} (l : list A) i d : update i (nth i l d) l = l.
Proof. revert i. induction l as [|x l IH]; intros [|i]; cbn; [reflexivity|reflexivity|reflexivity|]. rewrite IH. reflexivity. Qed.

(** Appending to a slice without spare capacity changes no array. *)
Lemma append_full h s xs spare : fits h s -> full s ->
  let '(h', s') := append h s xs spare in extends h h' /\ fits h' s' /\ read h' s' = read h s ++ xs.
Proof.
  intros F Hf. unfold append, full in *. destruct (Nat.leb_spec (sl_len s + length xs) (sl_cap s)) as [L|L].
  - assert (xs = []) as -> by (destruct xs; [reflexivity|cbn in L; lia]). rewrite overwrite_nil, Nat.add_0_r.
    unfold array_at. rewrite update_same, app_nil_r.
    assert (Es : MkSlice (sl_arr s) (sl_off s) (sl_len s) (sl_cap s) = s) by (destruct s; reflexivity). rewrite Es.
    split; [apply extends_refl|]. split; [exact F|reflexivity].
  - split; [exists [read h s ++ xs ++ spare]; reflexivity|].
    assert (Ea : array_at (h ++ [read h s ++ xs ++ spare]) (length h) = read h s ++ xs ++ spare).
    { unfold array_at. rewrite app_nth2, Nat.sub_diag by lia. reflexivity. }
    pose proof (read_length h s F) as Hl. split.
    + unfold fits. cbn [sl_arr sl_off sl_len sl_cap]. rewrite Ea, !app_length, Hl. cbn [length]. lia.
    + unfold read at 1. cbn [sl_arr sl_off sl_len sl_cap]. rewrite Ea. cbn [skipn]. rewrite <- Hl, <- app_length, app_assoc, firstn_app, firstn_all, Nat.sub_diag, app_nil_r. reflexivity.
Qed.

Definition all_full (h : heap) (t : ptrace) : Prop := Forall (fun p => fits h (snd p) /\ full (snd p)) t.
Lemma all_full_extends h h' t : extends h h' -> all_full h t -> all_full h' t.
Proof. intros E H. eapply Forall_impl; [|exact H]. intros p [F K]. split; [eapply fits_extends; eassumption|exact K]. Qed.
Lemma prefixes_extends h h' t : extends h h' -> all_full h t -> prefixes h' t = prefixes h t.
Proof.
  intros E H. unfold prefixes. f_equal. induction H as [|p t [F K] H IH]; [reflexivity|]. cbn [fold_right]. rewrite IH, (read_extends h h' _ E F). reflexivity.
Qed.

Lemma plog_full t : forall lazy w f a spares h, all_full h t -> fits h a ->
  let '(h', e) := plog t lazy w f a spares h in
  extends h h' /\ fits h' (pe_args e) /\
  pe_format e = (fst (prefixes h t) ++ f)%string /\ read h' (pe_args e) = snd (prefixes h t) ++ read h a /\
  pe_text e = if lazy then None else Some (Sprintf w (fst (prefixes h t) ++ f) (snd (prefixes h t) ++ read h a)).
Proof.
  induction t as [|[pf pa] t IH]; intros lazy w f a spares h Ht Ha; cbn [M_Slice.plog].
  - split; [apply extends_refl|]. split; [exact Ha|]. split; [reflexivity|]. split; [reflexivity|]. reflexivity.
  - inversion Ht as [|? ? [F K] Ht']; subst. cbn [snd] in *. pose proof (append_full h pa (read h a) (spares O) F K) as H1.
    destruct (append h pa (read h a) (spares O)) as [h1 a1]. destruct H1 as (E1 & F1 & R1).
    specialize (IH lazy w (pf ++ f)%string a1 (fun n => spares (S n)) h1 (all_full_extends h h1 t E1 Ht') F1).
    destruct (plog t lazy w (pf ++ f)%string a1 (fun n => spares (S n)) h1) as [h2 e]. destruct IH as (E2 & F2 & G1 & G2 & G3).
    split; [eapply extends_trans; eassumption|]. split; [exact F2|]. rewrite (prefixes_extends h h1 t E1 Ht') in *. rewrite R1 in *.
    cbn [prefixes fst snd fold_right] in *. unfold prefixes in *. cbn [fst snd fold_right] in *. rewrite append_assoc, <- app_assoc. auto.
Qed.

(** C46.  If no slice given to Prefix has spare capacity, the arguments of each event are,
    at all later times, the values the prefixes and the call were given. *)
Definition good (s : pstate) : Prop :=
  Forall (all_full (ps_heap s)) (ps_traces s) /\ Forall (fun e => fits (ps_heap s) (pe_args e)) (ps_events s).
Lemma step_good s o : good s -> possible s o ->
  extends (ps_heap s) (ps_heap (pstep s o)) /\ good (pstep s o) /\
  exists new, ps_events (pstep s o) = ps_events s ++ new /\ map (fun e => (pe_format e, read (ps_heap (pstep s o)) (pe_args e))) new = meant s o.
Proof.
  intros [Ht He] Hp.
  assert (Hn : forall t, all_full (ps_heap s) (nth t (ps_traces s) [])).
  { intros t. destruct (nth_in_or_default t (ps_traces s) []) as [Hin| ->]; [exact (proj1 (Forall_forall _ _) Ht _ Hin)|constructor]. }
  destruct o as [vs|t f a|t lazy w f a spares]; cbn [M_Slice.pstep meant possible] in *.
  - assert (E : extends (ps_heap s) (ps_heap s ++ [vs])) by (exists [vs]; reflexivity). cbn. split; [exact E|]. split.
    + split; cbn; [eapply Forall_impl; [|exact Ht]; intros; eapply all_full_extends; eassumption|eapply Forall_impl; [|exact He]; intros; eapply fits_extends; eassumption].
    + exists []. rewrite app_nil_r. auto.
  - cbn. split; [apply extends_refl|]. split.
    + split; cbn; [apply Forall_app; split; [exact Ht|]|exact He]. constructor; [|constructor]. constructor; [exact Hp|apply Hn].
    + exists []. rewrite app_nil_r. auto.
  - pose proof (plog_full (nth t (ps_traces s) []) lazy w f a spares (ps_heap s) (Hn t) Hp) as H.
    destruct (plog (nth t (ps_traces s) []) lazy w f a spares (ps_heap s)) as [h e]. destruct H as (E & F & G1 & G2 & G3). cbn.
    split; [exact E|]. split.
    + split; cbn; [eapply Forall_impl; [|exact Ht]; intros; eapply all_full_extends; eassumption|].
      apply Forall_app. split; [eapply Forall_impl; [|exact He]; intros; eapply fits_extends; eassumption|]. constructor; [exact F|constructor].
    + exists [e]. split; [reflexivity|]. cbn [map]. rewrite G1, G2. unfold prefixes. reflexivity.
Qed.
Theorem C46_no_spare_capacity :
  forall ops, all_possible pinit ops ->
    let s := prun ops in
    map (fun e => (pe_format e, read (ps_heap s) (pe_args e))) (ps_events s) = meanings pinit ops.
Proof.
  intros ops H.
  assert (G : forall ops s, good s -> all_possible s ops ->
            let s' := fold_left pstep ops s in
            map (fun e => (pe_format e, read (ps_heap s') (pe_args e))) (ps_events s') =
            map (fun e => (pe_format e, read (ps_heap s) (pe_args e))) (ps_events s) ++ meanings s ops /\ extends (ps_heap s) (ps_heap s')).
  { clear. induction ops as [|o ops IH]; intros s Hg Hp; cbn zeta; cbn [fold_left meanings all_possible] in *.
    - rewrite app_nil_r. split; [reflexivity|apply extends_refl].
    - destruct Hp as [Ho Hp]. destruct (step_good s o Hg Ho) as (E & Hg' & new & En & Em). destruct (IH (pstep s o) Hg' Hp) as [I1 I2].
      split; [|eapply extends_trans; eassumption]. rewrite I1, En, map_app, Em, <- app_assoc. f_equal.
      apply map_ext_in. intros e Hin. rewrite (read_extends _ _ _ E); [reflexivity|]. destruct Hg as [_ He]. exact (proj1 (Forall_forall _ _) He e Hin). }
  apply (G ops pinit); [|exact H]. split; repeat constructor.
Qed.
(** So the text of every event, whenever it is made, is that of the values. *)
Theorem C46_texts :
  forall ops, all_possible pinit ops ->
    forall n e f a w', nth_error (ps_events (prun ops)) n = Some e -> nth_error (meanings pinit ops) n = Some (f, a) ->
      pe_text e = None -> text w' (ps_heap (prun ops)) e = Sprintf w' f a.
Proof.
  intros ops H n e f a w' En Em Et. unfold M_Slice.text. rewrite Et. pose proof (C46_no_spare_capacity ops H) as E. cbn zeta in E.
  assert (K : nth_error (map (fun e => (pe_format e, read (ps_heap (prun ops)) (pe_args e))) (ps_events (prun ops))) n = Some (f, a)) by (rewrite E; exact Em).
  erewrite map_nth_error in K by exact En. injection K as -> ->. reflexivity.
Qed.

Lemma skipn_exact (l s : list arg) : skipn (length l) (l ++ s) = s.
Proof. rewrite skipn_app, skipn_all, Nat.sub_diag. reflexivity. Qed.
Lemma firstn_exact (l s : list arg) : firstn (length l) (l ++ s) = l.
Proof. rewrite firstn_app, firstn_all, Nat.sub_diag, app_nil_r. reflexivity. Qed.
Lemma log_in_place pargs tl h zs a pf f w sp : (length zs <= length tl)%nat ->
  read ((pargs ++ tl) :: h) (MkSlice a 0 (length zs) (length zs)) = zs ->
  plog [(pf, MkSlice 0 0 (length pargs) (length pargs + length tl))] true w f (MkSlice a 0 (length zs) (length zs)) sp ((pargs ++ tl) :: h) =
  ((pargs ++ zs ++ skipn (length zs) tl) :: h, MkPE (pf ++ f)%string (MkSlice 0 0 (length pargs + length zs) (length pargs + length tl)) None).
Proof.
  intros Hz Hr. cbn [M_Slice.plog]. rewrite Hr. unfold append. cbn [sl_len sl_cap sl_arr sl_off].
  replace (length pargs + length zs <=? length pargs + length tl)%nat with true by (symmetry; apply Nat.leb_le; lia).
  cbn [update Nat.add]. unfold array_at. cbn [nth]. f_equal. f_equal. unfold overwrite. rewrite firstn_exact. f_equal. f_equal.
  rewrite skipn_app, skipn_all2 by lia. cbn [app]. f_equal. lia.
Qed.
(** Finding: with spare capacity the arguments of one event overwrite those of the one
    before, in every case where both fit. *)
Theorem C46_spare_capacity_overwrites :
  forall (pargs spare xs ys : list arg) pf f g w sp sp',
    (length xs <= length spare)%nat -> (length ys <= length spare)%nat ->
    let prefix := MkSlice 0 0 (length pargs) (length pargs + length spare) in
    let ops := [PMake (pargs ++ spare); PPrefix 0 pf prefix;
                PMake xs; PLog 1 true w f (MkSlice 1 0 (length xs) (length xs)) sp;
                PMake ys; PLog 1 true w g (MkSlice 2 0 (length ys) (length ys)) sp'] in
    map (fun e => read (ps_heap (prun ops)) (pe_args e)) (ps_events (prun ops)) =
    [pargs ++ firstn (length xs) ys ++ skipn (length ys) xs; pargs ++ ys].
Proof.
  intros pargs spare xs ys pf f g w sp sp' Hx Hy.
  unfold M_Slice.prun. cbn [fold_left M_Slice.pstep ps_heap ps_traces ps_events pinit app nth].
  rewrite log_in_place; [|exact Hx|unfold read, array_at; cbn; apply firstn_all]. cbn [ps_heap ps_traces ps_events app nth].
  assert (Ec : length spare = length (xs ++ skipn (length xs) spare)) by (rewrite app_length, skipn_length; lia).
  replace (length pargs + length spare)%nat with (length pargs + length (xs ++ skipn (length xs) spare))%nat by lia.
  rewrite log_in_place; [|lia|unfold read, array_at; cbn; apply firstn_all]. cbn [ps_heap ps_traces ps_events app map pe_args].
  unfold read, array_at. cbn [nth sl_arr sl_off sl_len skipn].
  set (rest := skipn (length xs) spare). assert (Hr : (length ys - length xs <= length rest)%nat) by (unfold rest; rewrite skipn_length; lia).
  f_equal; [|f_equal].
  - rewrite firstn_app. rewrite firstn_all2 by lia. f_equal. replace (length pargs + length xs - length pargs)%nat with (length xs) by lia.
    rewrite firstn_app. f_equal. destruct (Nat.le_ge_cases (length xs) (length ys)) as [L|L].
    + replace (length xs - length ys)%nat with 0%nat by lia. rewrite firstn_O, skipn_all2 by lia. reflexivity.
    + rewrite skipn_app. replace (length ys - length xs)%nat with 0%nat by lia. cbn [skipn]. rewrite firstn_app, skipn_length, Nat.sub_diag. cbn [firstn]. rewrite app_nil_r.
      apply firstn_all2. rewrite skipn_length. lia.
  - rewrite firstn_app. rewrite firstn_all2 by lia. f_equal. replace (length pargs + length ys - length pargs)%nat with (length ys) by lia. apply firstn_exact.
Qed.
End Slices.
Print Assumptions C46_no_spare_capacity.
Print Assumptions C46_texts.
Print Assumptions C46_spare_capacity_overwrites.

(** A case without spare capacity, with two prefixes, and the same with. *)
Definition sl_Sprintf (w : unit) (f : string) (a : list string) : string := (f ++ String.concat "," a)%string.
Definition sl_ops (cap : nat) : list (pop string unit) :=
  [PMake ["p"; "-"; "-"]; PPrefix 0 "a " (MkSlice 0 0 1 cap);
   PMake ["q"]; PPrefix 1 "b " (MkSlice 1 0 1 1);
   PMake ["x"]; PLog 2 true tt "one " (MkSlice 2 0 1 1) (fun _ => ["-"; "-"]);
   PMake ["y"]; PLog 2 true tt "two " (MkSlice 5 0 1 1) (fun _ => ["-"])].
Definition sl_texts (ops : list (pop string unit)) : list string :=
  let s := prun sl_Sprintf ops in map (text sl_Sprintf tt (ps_heap s)) (ps_events s).
Example C46_instance : all_possible sl_Sprintf pinit (sl_ops 1) /\ sl_texts (sl_ops 1) = ["a b one p,q,x"; "a b two p,q,y"].
Proof. split; [|vm_compute; reflexivity]. repeat split; vm_compute; lia || reflexivity. Qed.
Theorem C46_spare_capacity_refuted :
  sl_texts [PMake ["p"; "-"]; PPrefix 0 "a " (MkSlice 0 0 1 2); PMake ["x"]; PLog 1 true tt "one " (MkSlice 1 0 1 1) (fun _ => []);
            PMake ["y"]; PLog 1 true tt "two " (MkSlice 2 0 1 1) (fun _ => [])] = ["a one p,y"; "a two p,y"].
Proof. vm_compute. reflexivity. Qed.
Print Assumptions C46_spare_capacity_refuted.
(** And the array belongs to the caller: here it is the second prefix that changes. *)
Theorem C46_shared_array_refuted :
  sl_texts [PMake ["p"; "q"]; PPrefix 0 "a " (MkSlice 0 0 1 2); PPrefix 0 "b " (MkSlice 0 0 2 2);
            PMake ["x"]; PLog 1 false tt "one " (MkSlice 1 0 1 1) (fun _ => []);
            PMake ["y"]; PLog 2 false tt "two " (MkSlice 2 0 1 1) (fun _ => [])] = ["a one p,x"; "b two p,x,y"].
Proof. vm_compute. reflexivity. Qed.
Print Assumptions C46_shared_array_refuted.

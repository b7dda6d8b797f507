(** C119: operations inside operations. *)
From Verif Require Import Go L_List M_Strings M_Types M_Filter S_Trace M_Trace S_TraceView L_Trace P_Trace M_RingBuf M_RingBufs S_Collector L_RingBuf L_RingBufs M_Humanize M_Text L_Strings M_Fmt M_Broker S_Broker M_Decor S_Decor L_Decor P_Context M_Easy S_Easy P_Easy S_Nested.
From Coq Require Import Lia Permutation.
Open Scope string_scope.
Open Scope list_scope.

Section Any.
Context {arg world pc RE : Type}.
Variable Sprintf : world -> string -> list arg -> string.
Variable CallersFrames : list pc -> list rframe.
Variable Compile : string -> RE + string.
Variable MatchString : RE -> string -> bool.
Variable str : string -> arg.
Variable caps : string -> Z.
Notation env := (env arg world pc).
Notation coreTrace := (coreTrace arg pc).
Notation run := (run Sprintf CallersFrames).
Notation z_run := (z_run Sprintf CallersFrames Compile MatchString str caps).
Notation z_init := (@z_init arg pc RE).
Notation eop := (eop arg world pc).
Notation book_step := (@book_step arg world pc str).
Notation books := (@books arg world pc str).
Notation body := (body arg).
Notation outcome := (outcome arg).
Notation performs := (@performs arg world pc).

(** The calls the one trace receives from a body. *)
Fixpoint calls (f : string) (a : list arg) (x : body) : list (call arg) :=
  match x with
  | Done => []
  | Say k format args rest => CallLog k (f ++ format)%string (a ++ args) :: calls f a rest
  | Within category inner rest =>
      CallLog KLazyTracef (f ++ "(+ %s)")%string (a ++ [str category]) :: calls f a inner ++ CallFinish :: calls f a rest
  | Regioned name took inner rest =>
      CallLog KLazyTracef (f ++ arrow_in ++ " " ++ name)%string (a ++ []) ::
      calls (f ++ bullet ++ " ") a inner ++
      CallLog KLazyTracef (f ++ arrow_out ++ " " ++ name ++ " [%s]")%string (a ++ [str (HumanizeDuration took)]) :: calls f a rest
  | Prefixed format args inner rest =>
      (if String.eqb (TrimSpace format) "" then calls f a inner
       else calls (f ++ TrimSpace format ++ " ") (a ++ args) inner) ++ calls f a rest
  end.
Definition as_line (c : call arg) : option (line arg) :=
  match c with CallLog k f a => Some (f, a, is_error_kind k) | _ => None end.
Lemma happens_calls x : forall f a, happens str f a x = map as_line (calls f a x).
Proof.
  induction x as [|k g b x IH|c inner IH1 x IH2|nm took inner IH1 x IH2|g b inner IH1 x IH2]; intros f a; cbn [happens calls map as_line].
  - reflexivity.
  - rewrite IH. reflexivity.
  - rewrite map_app, IH1. cbn [map as_line]. rewrite IH2. reflexivity.
  - rewrite map_app, IH1. cbn [map as_line]. rewrite IH2, app_nil_r. reflexivity.
  - rewrite map_app, IH2. destruct (String.eqb (TrimSpace g) ""); rewrite IH1; reflexivity.
Qed.

Lemma view_app (k : list (option (view arg))) v i x : nth i k None = Some x -> nth i (k ++ [v]) None = Some x.
Proof.
  intros H. destruct (Nat.lt_ge_cases i (length k)); [rewrite app_nth1; assumption|].
  rewrite nth_overflow in H by assumption. discriminate.
Qed.
Definition seen_as (v : view arg) (c : call arg) : call arg :=
  match c with CallLog k f args => CallLog k (v_format v ++ f)%string (v_args v ++ args) | _ => c end.
Lemma receive_at v (c : call arg) ts (a : account arg) :
  nth_error ts (v_trace v) = Some a ->
  nth_error (receive v c ts) (v_trace v) = Some (MkAccount (a_born a) (a_source a) (a_category a) (a_calls a ++ [seen_as v c])).
Proof.
  intros H. unfold receive. rewrite H, nth_error_update, Nat.eqb_refl; [reflexivity|].
  apply nth_error_Some. congruence.
Qed.

Lemma body_books k n r x l n' r' :
  performs k n r x l n' r' ->
  forall K v a, length (k_ctx K) = n -> length (k_regions K) = r -> the_view K k = Some v -> nth_error (k_traces K) (v_trace v) = Some a ->
  let K' := fold_left book_step l K in
  length (k_ctx K') = n' /\ length (k_regions K') = r' /\ (forall i w, the_view K i = Some w -> the_view K' i = Some w) /\
  (forall i w, nth_error (k_regions K) i = Some w -> nth_error (k_regions K') i = Some w) /\
  k_stored K' = k_stored K /\
  nth_error (k_traces K') (v_trace v) = Some (MkAccount (a_born a) (a_source a) (a_category a) (a_calls a ++ calls (v_format v) (v_args v) x)).
Proof.
  induction 1 as [k n r|k n r kd f args rest b es l n' r' Hr IH
                 |k n r c inner rest b ds es l1 n1 r1 b' es' l2 n2 r2 H1 IH1 H2 IH2
                 |k n r nm took inner rest b1 b2 es l1 n1 r1 es' l2 n2 r2 H1 IH1 H2 IH2
                 |k n r f args inner rest b l1 n1 r1 l2 n2 r2 H1 IH1 H2 IH2];
    intros K v a Hl Hg Hv Ha; cbv zeta.
  - cbn [fold_left calls]. rewrite app_nil_r. destruct a. repeat (split; [auto|]). exact Ha.
  - cbn [fold_left S_Easy.book_step]. unfold got. rewrite Hv.
    pose proof (receive_at v (CallLog kd f args) _ _ Ha) as Ha1.
    destruct (IH (set_traces K (receive v (CallLog kd f args) (k_traces K))) v _ Hl Hg Hv Ha1) as (A & A' & B & B' & C & D).
    repeat (split; [assumption|]). rewrite D. cbn [a_source a_category a_calls calls seen_as].
    rewrite <- app_assoc. reflexivity.
  - cbn [fold_left S_Easy.book_step]. rewrite Hv. rewrite fold_left_app. cbn [fold_left].
    set (K1 := add_ctx _ _).
    assert (V1 : the_view K1 n = Some v).
    { unfold the_view, K1. cbn [add_ctx set_traces k_ctx]. rewrite app_nth2, Hl, Nat.sub_diag by lia. reflexivity. }
    pose proof (receive_at v (CallLog KLazyTracef "(+ %s)" [str c]) _ _ Ha) as Ha1.
    destruct (IH1 K1 v _ ltac:(unfold K1; cbn [add_ctx set_traces k_ctx]; rewrite app_length, Hl; cbn; lia) Hg V1 Ha1) as (A & A' & B & B' & C & D).
    set (K2 := fold_left book_step l1 K1) in *.
    cbn [S_Easy.book_step]. unfold got. rewrite (B n _ V1).
    pose proof (receive_at v CallFinish _ _ D) as D1.
    set (K3 := set_traces K2 _).
    assert (Up : forall i w, the_view K i = Some w -> the_view K3 i = Some w).
    { intros i w Hi. change (the_view K3 i) with (the_view K2 i). apply B. unfold the_view, K1. cbn [add_ctx set_traces k_ctx]. apply view_app. exact Hi. }
    destruct (IH2 K3 v _ A A' (Up _ _ Hv) D1) as (E & E' & F & F' & G & I).
    split; [exact E|]. split; [exact E'|]. split; [intros i w Hi; apply F, Up, Hi|]. split; [intros i w Hi; apply F', B', Hi|]. split; [rewrite G; exact C|].
    rewrite I. cbn [a_source a_category a_calls calls seen_as]. rewrite <- !app_assoc. reflexivity.
  - cbn [fold_left S_Easy.book_step]. unfold got. rewrite Hv. rewrite fold_left_app. cbn [fold_left].
    set (w0 := MkView (v_trace v) (v_format v ++ bullet ++ " ")%string (v_args v)).
    set (K1 := MkBook _ _ _ _ _).
    assert (V1 : the_view K1 n = Some w0).
    { unfold the_view, K1. cbn [k_ctx]. rewrite app_nth2, Hl, Nat.sub_diag by lia. reflexivity. }
    assert (R1 : nth_error (k_regions K1) r = Some (v, nm)).
    { unfold K1. cbn [k_regions]. rewrite nth_error_app2, Hg, Nat.sub_diag by lia. reflexivity. }
    pose proof (receive_at v (CallLog KLazyTracef (arrow_in ++ " " ++ nm)%string []) _ _ Ha) as Ha1.
    destruct (IH1 K1 w0 _ ltac:(unfold K1; cbn [k_ctx]; rewrite app_length, Hl; cbn; lia) ltac:(unfold K1; cbn [k_regions]; rewrite app_length, Hg; cbn; lia) V1 Ha1) as (A & A' & B & B' & C & D).
    set (K2 := fold_left book_step l1 K1) in *. cbn [w0 v_trace v_format v_args] in D.
    cbn [S_Easy.book_step]. rewrite (B' r _ R1).
    pose proof (receive_at v (CallLog KLazyTracef (arrow_out ++ " " ++ nm ++ " [%s]")%string [str (HumanizeDuration took)]) _ _ D) as D1.
    set (K3 := set_traces K2 _).
    assert (Up : forall i w, the_view K i = Some w -> the_view K3 i = Some w).
    { intros i w Hi. change (the_view K3 i) with (the_view K2 i). apply B. unfold the_view, K1. cbn [k_ctx]. apply view_app. exact Hi. }
    assert (Up' : forall i w, nth_error (k_regions K) i = Some w -> nth_error (k_regions K3) i = Some w).
    { intros i w Hi. change (k_regions K3) with (k_regions K2). apply B'. unfold K1. cbn [k_regions].
      rewrite nth_error_app1; [exact Hi|]. apply nth_error_Some. congruence. }
    destruct (IH2 K3 v _ A A' (Up _ _ Hv) D1) as (E & E' & F & F' & G & I).
    split; [exact E|]. split; [exact E'|]. split; [intros i w Hi; apply F, Up, Hi|]. split; [intros i w Hi; apply F', Up', Hi|]. split; [rewrite G; exact C|].
    rewrite I. cbn [a_source a_category a_calls calls seen_as]. rewrite <- !app_assoc. reflexivity.
  - cbn [fold_left S_Easy.book_step]. unfold got. rewrite Hv. rewrite fold_left_app.
    set (w0 := if String.eqb (TrimSpace f) "" then v else MkView (v_trace v) (v_format v ++ TrimSpace f ++ " ")%string (v_args v ++ args)).
    set (K1 := add_ctx _ _).
    assert (V1 : the_view K1 n = Some w0).
    { unfold the_view, K1. cbn [add_ctx set_traces k_ctx]. rewrite app_nth2, Hl, Nat.sub_diag by lia. cbn [nth].
      unfold w0. destruct (String.eqb (TrimSpace f) ""); reflexivity. }
    assert (T0 : v_trace w0 = v_trace v) by (unfold w0; destruct (String.eqb (TrimSpace f) ""); reflexivity).
    assert (Ha1 : nth_error (k_traces K1) (v_trace w0) = Some a) by (rewrite T0; exact Ha).
    destruct (IH1 K1 w0 _ ltac:(unfold K1; cbn [add_ctx set_traces k_ctx]; rewrite app_length, Hl; cbn; lia) Hg V1 Ha1) as (A & A' & B & B' & C & D).
    set (K2 := fold_left book_step l1 K1) in *. rewrite T0 in D.
    assert (Up : forall i w, the_view K i = Some w -> the_view K2 i = Some w).
    { intros i w Hi. apply B. unfold the_view, K1. cbn [add_ctx set_traces k_ctx]. apply view_app. exact Hi. }
    destruct (IH2 K2 v _ A A' (Up _ _ Hv) D) as (E & E' & F & F' & G & I).
    split; [exact E|]. split; [exact E'|]. split; [intros i w Hi; apply F, Up, Hi|]. split; [intros i w Hi; apply F', B', Hi|]. split; [rewrite G; exact C|].
    rewrite I. cbn [a_source a_category a_calls calls]. rewrite <- app_assoc. unfold w0. destruct (String.eqb (TrimSpace f) ""); reflexivity.
Qed.

(** ** What a list of calls leaves behind *)
Fixpoint until_finish (cs : list (call arg)) : list (line arg) :=
  match cs with
  | [] => []
  | CallFinish :: _ => []
  | CallLog k f a :: cs => (f, a, is_error_kind k) :: until_finish cs
  | _ :: cs => until_finish cs
  end.
Lemma calls_no_setmax x : forall f a, Forall (fun c => match c with CallLog _ _ _ | CallFinish => True | _ => False end) (calls f a x).
Proof.
  induction x as [|k g b x IH|c inner IH1 x IH2|nm took inner IH1 x IH2|g b inner IH1 x IH2]; intros f a; cbn [calls].
  - constructor.
  - constructor; [exact Logic.I|apply IH].
  - constructor; [exact Logic.I|]. apply Forall_app. split; [apply IH1|]. constructor; [exact Logic.I|apply IH2].
  - constructor; [exact Logic.I|]. apply Forall_app. split; [apply IH1|]. constructor; [exact Logic.I|apply IH2].
  - apply Forall_app. split; [destruct (String.eqb (TrimSpace g) ""); apply IH1|apply IH2].
Qed.
Lemma until_calls x rest : until_finish (calls "" [] x ++ CallFinish :: rest) = kept str x.
Proof.
  unfold kept. rewrite happens_calls. pose proof (calls_no_setmax x "" []) as H. induction H as [|c l Hc H IH]; [reflexivity|].
  destruct c; try contradiction; cbn [app map as_line until_finish first_lines]; [f_equal; exact IH|reflexivity].
Qed.

Lemma logs_until (h : history arg env) :
  map timeless (map call_info (logs h)) = until_finish (map snd (filter is_change h)).
Proof.
  unfold logs. induction h as [|[e c] h IH]; [reflexivity|]. cbn [before_finish]. unfold is_finish. cbn [snd].
  destruct c as [k f a| |m|m s]; cbn [filter is_change is_read negb snd map until_finish is_log]; unfold is_change, is_read; cbn [snd negb map until_finish];
    try reflexivity; try exact IH. cbn [is_log snd]. unfold call_info. cbn [snd fst timeless]. f_equal. exact IH.
Qed.
Lemma errors_until (h : history arg env) :
  existsb is_error_log (before_finish h) = existsb snd (until_finish (map snd (filter is_change h))).
Proof.
  induction h as [|[e c] h IH]; [reflexivity|]. cbn [before_finish]. unfold is_finish. cbn [snd].
  destruct c as [k f a| |m|m s]; cbn [filter]; unfold is_change, is_read; cbn [snd negb map until_finish existsb]; unfold is_error_log; cbn [snd orb];
    try reflexivity; try exact IH. f_equal. exact IH.
Qed.
Lemma finished_until (h : history arg env) :
  existsb is_finish h = existsb (fun c => match c with CallFinish => true | _ => false end) (map snd (filter is_change h)).
Proof.
  induction h as [|[e c] h IH]; [reflexivity|]. cbn [existsb]. unfold is_finish at 1. cbn [snd].
  destruct c as [k f a| |m|m s]; cbn [filter]; unfold is_change, is_read; cbn [snd negb map existsb orb]; try reflexivity; exact IH.
Qed.
Lemma no_setmax_history (h : history arg env) :
  Forall (fun c => match c with CallLog _ _ _ | CallFinish => True | _ => False end) (map snd (filter is_change h)) ->
  Forall (fun c => is_setmax c = false) h.
Proof.
  induction h as [|[e c] h IH]; intros H; [constructor|]. cbn [filter] in H. unfold is_change, is_read in H. cbn [snd] in H.
  destruct c as [k f a| |m|m s]; cbn [negb map snd] in H; try (apply Forall_cons_iff in H as [H1 H]; cbn [snd] in H1); try contradiction; constructor; auto.
Qed.

Lemma outcome_received (c : coreTrace) a x rest :
  has_received Sprintf CallersFrames (world:=world) c a -> a_calls a = calls "" [] x ++ CallFinish :: rest ->
  Forall (fun c => match c with CallLog _ _ _ | CallFinish => True | _ => False end) rest ->
  let M := Z.to_nat (g_maxEvents (fst (fst (a_born a)))) in
  outcome_of c = MkOutcome true (existsb snd (kept str x)) (firstn M (kept str x)) (zlen (skipn M (kept str x))).
Proof.
  intros (b & h & Ec & Eh) Ea Hrest. rewrite Ea in Eh. cbv zeta. destruct (a_born a) as [[g now] id]. cbn [fst].
  assert (Hs : Forall (fun c => is_setmax c = false) h).
  { apply no_setmax_history. rewrite Eh. apply Forall_app. split; [apply calls_no_setmax|]. constructor; [exact Logic.I|exact Hrest]. }
  pose proof (C08_first_M_events_stored arg world pc Sprintf CallersFrames g now id b (a_source a) (a_category a) h Hs) as (S1 & S2 & _).
  unfold outcome_of. rewrite Ec. f_equal.
  - rewrite C07_finished_iff_finish_called, finished_until, Eh, existsb_app. cbn [existsb]. rewrite orb_true_r. reflexivity.
  - rewrite C07_errored_iff_error_call_before_finish, errors_until, Eh, until_calls. reflexivity.
  - rewrite S1, <- !firstn_map, logs_until, Eh, until_calls. reflexivity.
  - rewrite S2. unfold zlen. f_equal. rewrite !skipn_length. f_equal.
    rewrite <- (until_calls x rest), <- Eh, <- logs_until, !map_length. reflexivity.
Qed.

Lemma size_pos {T} (ops : list (coll_op T)) : (0 < size_after ops)%Z.
Proof.
  unfold size_after. assert (H : (0 < 1000)%Z) by lia. revert H. generalize 1000%Z.
  induction ops as [|o ops IH]; intros z Hz; [exact Hz|]. cbn [fold_left]. apply IH. destruct o as [|m o]; [exact Hz|]. destruct (Z.ltb_spec 0 m); lia.
Qed.

Lemma performs_proper k n r x l n' r' : performs k n r x l n' r' -> Forall proper l.
Proof.
  induction 1; [constructor|constructor; [exact Logic.I|assumption]| | |];
    (constructor; [exact Logic.I|]); apply Forall_app; (split; [assumption|]); try (constructor; [exact Logic.I|]); assumption.
Qed.

(** What the program [ops ++ l] leaves of a trace made by the first call of [l], in a context
    without a trace. *)
Lemma operation ops z0 k category b ds es l x rest :
  Forall proper ops -> z_run z_init ops = Ok z0 -> MaybeGet (the_ctx z0 k) = None -> Forall proper l ->
  (forall K t a, length (k_ctx K) = S (length (z_ctx z0)) -> length (k_regions K) = length (z_regions z0) -> the_view K (length (z_ctx z0)) = Some (bare_view t) -> nth_error (k_traces K) t = Some a ->
    let K' := fold_left book_step l K in
    k_stored K' = k_stored K /\
    nth_error (k_traces K') t = Some (MkAccount (a_born a) (a_source a) (a_category a) (a_calls a ++ calls "" [] x ++ CallFinish :: rest))) ->
  Forall (fun c => match c with CallLog _ _ _ | CallFinish => True | _ => False end) rest ->
  let M := Z.to_nat (g_maxEvents (b_globals b)) in
  exists z t older, z_run z_init (ops ++ ENew k category b ds es :: l) = Ok z /\
    category_content (c_categories (z_coll (z_ezcoll z))) category = Some (Ok (t :: older)) /\
    t_core t = length (s_cores (z_sys z0)) /\
    Category (core_at (z_sys z) (t_core t)) = category /\
    outcome_of (core_at (z_sys z) (t_core t)) =
      MkOutcome true (existsb snd (kept str x)) (firstn M (kept str x)) (zlen (skipn M (kept str x))).
Proof.
  intros Hp E H0 Hl Hb Hrest M.
  destruct (run_ok Sprintf CallersFrames Compile MatchString str caps ops _ _ (Inv_init Sprintf CallersFrames (world:=world)) Hp) as (z0' & E0 & I0).
  rewrite E in E0. injection E0 as <-. fold (books ops) in I0.
  destruct (C81_the_books_are_right Sprintf CallersFrames Compile MatchString str caps ops Hp) as (z0' & E0 & L0 & V0 & _).
  rewrite E in E0. injection E0 as <-.
  assert (Lc : length (k_ctx (books ops)) = length (z_ctx z0)) by (symmetry; pose proof I0 as [_ _ _ _ IC _ _]; clear - IC; induction IC; cbn; congruence).
  assert (Lr : length (k_regions (books ops)) = length (z_regions z0)) by (symmetry; pose proof I0 as [_ _ _ _ _ IR _]; clear - IR; induction IR; cbn; congruence).
  assert (Hp' : Forall proper (ops ++ ENew k category b ds es :: l)).
  { apply Forall_app. split; [exact Hp|]. constructor; [exact Logic.I|exact Hl]. }
  destruct (C81_the_books_are_right Sprintf CallersFrames Compile MatchString str caps _ Hp') as (z & Ez & _ & _ & A & Cm & _).
  assert (V : the_view (books ops) k = None) by (rewrite <- V0, H0; reflexivity).
  assert (EB : books (ops ++ ENew k category b ds es :: l) = fold_left book_step l (book_step (books ops) (ENew k category b ds es))).
  { unfold S_Easy.books. rewrite fold_left_app. reflexivity. }
  cbn [S_Easy.book_step] in EB. rewrite V in EB. rewrite EB in A, Cm. clear EB.
  set (n := length (k_traces (books ops))) in *.
  set (K1 := MkBook _ _ _ _ _) in A, Cm.
  destruct (Hb K1 n (MkAccount (born b) (k_source (books ops)) category [])) as (St & Tr).
  - unfold K1. cbn [k_ctx]. rewrite app_length, Lc. cbn. lia.
  - unfold K1. cbn [k_regions]. exact Lr.
  - unfold K1, the_view. cbn [k_ctx]. rewrite app_nth2, Lc, Nat.sub_diag by lia. reflexivity.
  - unfold K1. cbn [k_traces]. rewrite nth_error_app2, Nat.sub_diag by (unfold n; lia). reflexivity.
  - cbn [a_source a_category a_calls app] in Tr.
    set (K2 := fold_left book_step l K1) in *.
    assert (Hh : exists older, held category (k_stored K2) = n :: older).
    { rewrite St. unfold K1. cbn [k_stored]. rewrite held_snoc, String.eqb_refl.
      pose proof (size_pos (k_stored (books ops))) as P. destruct (Z.to_nat (size_after (k_stored (books ops)))) eqn:En; [lia|]. cbn [firstn]. eauto. }
    destruct Hh as (older & Hh).
    assert (Hm : mentioned category (k_stored K2)).
    { exists n. rewrite St. unfold K1. cbn [k_stored]. apply in_or_app. right. left. reflexivity. }
    destruct (Cm category Hm) as (cont & Ec & Emap). rewrite Hh in Emap. destruct cont as [|t cont]; [discriminate|]. cbn [map] in Emap. injection Emap as Et _.
    destruct (A n _ Tr) as (_ & Ac & Ar). cbn [a_category] in Ac.
    assert (Hr : has_received Sprintf CallersFrames (world:=world) (core_at (z_sys z) n) (MkAccount (born b) (k_source (books ops)) category (calls "" [] x ++ CallFinish :: rest))).
    { apply Ar. left. exists category. rewrite Hh. left. reflexivity. }
    pose proof (outcome_received _ _ x rest Hr eq_refl Hrest) as EM. cbv zeta in EM. cbn [a_born born fst] in EM. fold M in EM.
    exists z, t, cont. rewrite Et. split; [exact Ez|]. split; [exact Ec|]. split; [rewrite L0; reflexivity|]. split; [exact Ac|exact EM].
Qed.

(** C119.  After an operation begun in a context without a trace, whatever operations are
    inside it, the newest trace of its category is finished, and has the lines up to the end of
    the first operation that ended, and no others. *)
Theorem C119_kept :
  forall ops z0 k category x l n' r',
  Forall proper ops -> z_run z_init ops = Ok z0 -> MaybeGet (the_ctx z0 k) = None ->
  performs k (length (z_ctx z0)) (length (z_regions z0)) (Within category x Done) l n' r' ->
  let M := limit l in
  exists z t older, z_run z_init (ops ++ l) = Ok z /\
    category_content (c_categories (z_coll (z_ezcoll z))) category = Some (Ok (t :: older)) /\
    t_core t = length (s_cores (z_sys z0)) /\
    Category (core_at (z_sys z) (t_core t)) = category /\
    outcome_of (core_at (z_sys z) (t_core t)) =
      MkOutcome true (existsb snd (kept str x)) (firstn M (kept str x)) (zlen (skipn M (kept str x))).
Proof.
  intros ops z0 k category x l n' r' Hp E H0 Hl. cbv zeta. inversion Hl as [| |? ? ? ? ? ? b ds es l1 n1 r1 b' es' l2 n2 r2 H1 H2| |]; subst. inversion H2; subst.
  eapply (operation ops z0 k category b ds es _ x []); try assumption; [| |constructor].
  - apply Forall_app. split; [exact (performs_proper _ _ _ _ _ _ _ H1)|]. repeat constructor.
  - intros K t a Lk Lr Vk Tk. destruct (body_books _ _ _ _ _ _ _ H1 K _ a Lk Lr Vk Tk) as (_ & _ & B & _ & C & D). cbn [bare_view v_trace v_format v_args] in D.
    cbv zeta. rewrite fold_left_app. cbn [fold_left S_Easy.book_step]. unfold got. rewrite (B _ _ Vk).
    cbn [set_traces k_stored k_traces]. split; [exact C|]. etransitivity; [exact (receive_at (bare_view t) CallFinish _ _ D)|]. cbn [seen_as a_source a_category a_calls].
    rewrite <- app_assoc. reflexivity.
Qed.

(** The lines that are kept are the first ones of those that were said; all of them exactly if
    no line comes after the end of an operation inside. *)
Lemma first_of_all (l : list (option (line arg))) : exists lost, lines_of l = first_lines l ++ lost.
Proof.
  induction l as [|[x|] l [m E]]; [exists []; reflexivity| |].
  - exists m. cbn [lines_of first_lines]. rewrite E. reflexivity.
  - exists (lines_of l). reflexivity.
Qed.
Lemma lines_app (l m : list (option (line arg))) : lines_of (l ++ m) = lines_of l ++ lines_of m.
Proof. induction l as [|[x|] l IH]; cbn [app lines_of]; [reflexivity|rewrite IH; reflexivity|exact IH]. Qed.
Lemma flat_happens x : forall f a, flat x <-> ~ In None (happens str f a x).
Proof.
  induction x as [|k g b x IH|c inner IH1 x IH2|nm took inner IH1 x IH2|g b inner IH1 x IH2]; intros f a; cbn [flat happens In].
  - tauto.
  - rewrite (IH f a). split; [intros H [E|E]; [discriminate|tauto]|tauto].
  - split; [tauto|]. intros H. apply H. right. apply in_or_app. right. left. reflexivity.
  - rewrite (IH1 (f ++ bullet ++ " ")%string a), (IH2 f a), in_app_iff. cbn [In]. split; [|tauto].
    intros [H1 H2] [E|[E|[E|E]]]; try discriminate; tauto.
  - rewrite in_app_iff, (IH2 f a). destruct (String.eqb (TrimSpace g) "").
    + rewrite (IH1 f a). tauto.
    + rewrite (IH1 (f ++ TrimSpace g ++ " ")%string (a ++ b)). tauto.
Qed.
Lemma silent_happens x : forall f a, silent x <-> lines_of (happens str f a x) = [].
Proof.
  induction x as [|k g b x IH|c inner IH1 x IH2|nm took inner IH1 x IH2|g b inner IH1 x IH2]; intros f a; cbn [silent happens lines_of];
    try (split; [tauto|discriminate]); [tauto|].
  rewrite lines_app, (IH2 f a). destruct (String.eqb (TrimSpace g) "").
  - rewrite (IH1 f a). split; [intros [-> ->]; reflexivity|apply app_eq_nil].
  - rewrite (IH1 (f ++ TrimSpace g ++ " ")%string (a ++ b)). split; [intros [-> ->]; reflexivity|apply app_eq_nil].
Qed.
Lemma first_app (l m : list (option (line arg))) : ~ In None l -> first_lines (l ++ m) = lines_of l ++ first_lines m.
Proof.
  induction l as [|[x|] l IH]; intros H; cbn [app first_lines lines_of]; [reflexivity| |exfalso; apply H; left; reflexivity].
  rewrite IH by (intros E; apply H; right; exact E). reflexivity.
Qed.
Lemma first_app_end (l m : list (option (line arg))) : In None l -> first_lines (l ++ m) = first_lines l.
Proof. induction l as [|[x|] l IH]; intros H; [contradiction| |reflexivity]. cbn [app first_lines]. f_equal. apply IH. destruct H as [H|H]; [discriminate|exact H]. Qed.
Lemma no_end_first (l : list (option (line arg))) : ~ In None l -> first_lines l = lines_of l.
Proof. intros H. pose proof (first_app l [] H) as K. rewrite app_nil_r in K. cbn [first_lines] in K. rewrite app_nil_r in K. exact K. Qed.
Lemma end_dec (l : list (option (line arg))) : In None l \/ ~ In None l.
Proof.
  induction l as [|[x|] l [H|H]]; [right; intros []|left; right; exact H|right; intros [E|E]; [discriminate|exact (H E)]|left; left; reflexivity|left; left; reflexivity].
Qed.
(** two parts, one after the other *)
Lemma both_parts (l m : list (option (line arg))) :
  first_lines (l ++ m) = lines_of (l ++ m) <->
  first_lines l = lines_of l /\ lines_of m = [] \/ ~ In None l /\ first_lines m = lines_of m.
Proof.
  rewrite lines_app. destruct (end_dec l) as [I0|I0].
  - rewrite (first_app_end _ _ I0).
    destruct (first_of_all l) as (lost & E). rewrite E. split.
    + intros K. left. rewrite <- (app_nil_r (first_lines l)) in K at 1. rewrite <- app_assoc in K. apply app_inv_head in K. symmetry in K. apply app_eq_nil in K as [-> ->].
      rewrite app_nil_r. auto.
    + intros [[K1 K2]|[K _]]; [|contradiction]. rewrite K2, app_nil_r. exact K1.
  - rewrite (first_app _ _ I0). split.
    + intros K. apply app_inv_head in K. auto.
    + intros [[K1 K2]|[_ K]]; [|rewrite K; reflexivity]. rewrite K2. destruct (first_of_all m) as (lost & E). rewrite K2 in E. symmetry in E. apply app_eq_nil in E as [-> _]. reflexivity.
Qed.
Lemma kept_all x : forall f a, first_lines (happens str f a x) = lines_of (happens str f a x) <-> silent_after x.
Proof.
  assert (Tl : forall (y : line arg) l m, y :: l = y :: m <-> l = m) by (intros y l m; split; [intros [= H]; exact H|intros ->; reflexivity]).
  induction x as [|k g b x IH|c inner IH1 x IH2|nm took inner IH1 x IH2|g b inner IH1 x IH2]; intros f a; cbn [silent_after happens].
  - cbn. tauto.
  - cbn [first_lines lines_of]. rewrite Tl. apply IH.
  - cbn [first_lines lines_of]. rewrite Tl, both_parts, (IH1 f a). cbn [lines_of first_lines]. rewrite (silent_happens x f a). split; [|tauto].
    intros [K|[K1 K2]]; [exact K|]. symmetry in K2. split; [|exact K2]. apply (IH1 f a). apply no_end_first. exact K1.
  - cbn [first_lines lines_of]. rewrite Tl, both_parts, <- flat_happens. cbn [lines_of first_lines]. rewrite Tl, (IH2 f a). split; [|tauto]. intros [[_ K]|K]; [discriminate|exact K].
  - rewrite both_parts, (IH2 f a), (silent_happens x f a). destruct (String.eqb (TrimSpace g) "").
    + rewrite (IH1 f a), <- (flat_happens inner f a). tauto.
    + rewrite (IH1 (f ++ TrimSpace g ++ " ")%string (a ++ b)), <- (flat_happens inner (f ++ TrimSpace g ++ " ")%string (a ++ b)). tauto.
Qed.
Theorem C119_kept_of_said :
  forall x : body, (exists lost, said str x = kept str x ++ lost) /\ (kept str x = said str x <-> silent_after x).
Proof. intros x. split; [apply first_of_all|apply kept_all]. Qed.

(** With nothing said after an operation inside, New and Finish do what they say: every line is
    there, and the trace is errored exactly if one of the lines is an error. *)
Theorem C119_nothing_lost :
  forall ops z0 k category x l n' r',
  Forall proper ops -> z_run z_init ops = Ok z0 -> MaybeGet (the_ctx z0 k) = None ->
  performs k (length (z_ctx z0)) (length (z_regions z0)) (Within category x Done) l n' r' -> silent_after x ->
  let M := limit l in
  exists z t older, z_run z_init (ops ++ l) = Ok z /\
    category_content (c_categories (z_coll (z_ezcoll z))) category = Some (Ok (t :: older)) /\
    outcome_of (core_at (z_sys z) (t_core t)) =
      MkOutcome true (existsb snd (said str x)) (firstn M (said str x)) (zlen (skipn M (said str x))).
Proof.
  intros ops z0 k category x l n' r' Hp E H0 Hl Hs M. destruct (C119_kept _ _ _ _ _ _ _ _ Hp E H0 Hl) as (z & t & older & A & B & _ & _ & C).
  exists z, t, older. apply C119_kept_of_said in Hs. rewrite <- Hs. auto.
Qed.

(** Finding: the operation inside has no trace of its own, and its Finish is the Finish of the
    operation around it.  That one is finished before it goes on... *)
Theorem C119_finished_early_refuted :
  forall ops z0 k category inside x l n' r' b ds es b1 ds1 es1 b2 es2,
  Forall proper ops -> z_run z_init ops = Ok z0 -> MaybeGet (the_ctx z0 k) = None ->
  let n := length (z_ctx z0) in
  performs (S n) (S (S n)) (length (z_regions z0)) x l n' r' ->
  exists z t older,
    z_run z_init (ops ++ ENew k category b ds es :: ENew n inside b1 ds1 es1 :: l ++ [EFinish (S n) b2 es2]) = Ok z /\
    category_content (c_categories (z_coll (z_ezcoll z))) category = Some (Ok (t :: older)) /\
    t_core t = length (s_cores (z_sys z0)) /\ Finished (core_at (z_sys z) (t_core t)) = true.
Proof.
  intros ops z0 k category inside x l n' r' b ds es b1 ds1 es1 b2 es2 Hp E H0 n Hl.
  assert (HW : performs n (S n) (length (z_regions z0)) (Within inside x Done) (ENew n inside b1 ds1 es1 :: l ++ EFinish (S n) b2 es2 :: []) n' r').
  { econstructor; [exact Hl|constructor]. }
  destruct (operation ops z0 k category b ds es (ENew n inside b1 ds1 es1 :: l ++ EFinish (S n) b2 es2 :: []) (Say KLazyTracef "(+ %s)" [str inside] x) []) as (z & t & older & A & B & C & _ & D); try assumption.
  - exact (performs_proper _ _ _ _ _ _ _ HW).
  - intros K t a Lk Lr Vk Tk. destruct (body_books _ _ _ _ _ _ _ HW K _ a Lk Lr Vk Tk) as (_ & _ & _ & _ & C & D). cbv zeta. split; [exact C|]. exact D.
  - constructor.
  - exists z, t, older. split; [exact A|]. split; [exact B|]. split; [exact C|]. apply (f_equal o_finished) in D. exact D.
Qed.
(** ... and what it says afterwards is lost, errors included: with no error before the end of
    the operation inside, the trace is a success whatever comes after. *)
Theorem C119_lost_refuted :
  forall ops z0 k category inside before x after_ l n' r',
  Forall proper ops -> z_run z_init ops = Ok z0 -> MaybeGet (the_ctx z0 k) = None ->
  let lines := fold_right (fun '(kd, f, a) r => Say kd f a r) in
  performs k (length (z_ctx z0)) (length (z_regions z0)) (Within category (lines (Within inside x after_) before) Done) l n' r' ->
  let first := map (fun '(kd, f, a) => (f, a, is_error_kind kd)) before ++ ("(+ %s)", [str inside], false) :: kept str x in
  let M := limit l in
  exists z t older, z_run z_init (ops ++ l) = Ok z /\
    category_content (c_categories (z_coll (z_ezcoll z))) category = Some (Ok (t :: older)) /\
    outcome_of (core_at (z_sys z) (t_core t)) = MkOutcome true (existsb snd first) (firstn M first) (zlen (skipn M first)).
Proof.
  intros ops z0 k category inside before x after_ l n' r' Hp E H0 lines Hl first M.
  destruct (C119_kept _ _ _ _ _ _ _ _ Hp E H0 Hl) as (z & t & older & A & B & _ & _ & C).
  exists z, t, older. split; [exact A|]. split; [exact B|]. rewrite C.
  assert (K : kept str (lines (Within inside x after_) before) = first); [|rewrite K; reflexivity].
  unfold first, lines, kept. clear. induction before as [|[[kd f] a] before IH]; cbn [fold_right happens map app first_lines]; [f_equal|f_equal; exact IH].
  destruct (end_dec (happens str "" [] x)) as [I0|I0].
  - apply first_app_end. exact I0.
  - rewrite (first_app _ _ I0), (no_end_first _ I0). cbn [first_lines]. apply app_nil_r.
Qed.
End Any.
Print Assumptions C119_kept.
Print Assumptions C119_kept_of_said.
Print Assumptions C119_nothing_lost.
Print Assumptions C119_finished_early_refuted.
Print Assumptions C119_lost_refuted.

(** Two middlewares, one inside the other, with a prefix and a region in the outer one: the
    handler answers 200 OK, the outer one fails afterwards and says so; the trace that is kept is
    a success, without the last three lines. *)
Example C119_instance :
  forall (b : birth string unit) (es : nat -> denv string unit unit) (RE : Type) Compile MatchString caps,
  let x := Say KLazyTracef "outer" [] (Prefixed "p%s" ["7"] (Say KTracef "a" [] Done)
             (Regioned "load" 5 (Within "inner" (Say KLazyTracef "handler" [] (Say KLazyTracef "HTTP 200" [] Done)) (Say KErrorf "after" [] Done))
                (Say KLazyErrorf "HTTP 500" [] Done))) in
  let l := [ ENew 0 "web" b es es; EEvent 1 KLazyTracef "outer" [] b es; EPrefix 1 "p%s" ["7"] b; EEvent 2 KTracef "a" [] b es;
             ERegion 1 "load" b b es; ENew 3 "inner" b es es; EEvent 4 KLazyTracef "handler" [] b es;
             EEvent 4 KLazyTracef "HTTP 200" [] b es; EFinish 4 b es; EEvent 3 KErrorf "after" [] b es; EEnd 0 5 es;
             EEvent 1 KLazyErrorf "HTTP 500" [] b es; EFinish 1 b es ] in
  let first := [("outer", [], false); ("p%s a", ["7"], false); ((arrow_in ++ " load")%string, [], false); ((bullet ++ " (+ %s)")%string, ["inner"], false);
                ((bullet ++ " handler")%string, [], false); ((bullet ++ " HTTP 200")%string, [], false)] in
  performs 0 1 0 (Within "web" x Done) l 5 1 /\ ~ silent_after x /\
  said (fun s => s) x = first ++ [((bullet ++ " after")%string, [], true); ((arrow_out ++ " load [%s]")%string, [HumanizeDuration 5], false); ("HTTP 500", [], true)] /\
  let M := Z.to_nat (g_maxEvents (b_globals b)) in
  exists z, z_run (RE:=RE) (fun _ f _ => f) (fun _ => []) Compile MatchString (fun s => s) caps z_init l = Ok z /\
    outcome_of (core_at (z_sys z) 0) = MkOutcome true false (firstn M first) (zlen (skipn M first)).
Proof.
  intros b es RE Compile MatchString caps x l first.
  assert (HP : performs 0 1 0 (Within "web" x Done) l 5 1).
  { unfold x, l. apply (performs_within 0 1 0 "web" _ Done b es es [_; _; _; _; _; _; _; _; _; _; _] 5 1 b es []); [|constructor].
    constructor. apply (performs_prefix 1 2 0 "p%s" ["7"] _ _ b [_] 3 0 [_; _; _; _; _; _; _; _]); [repeat constructor|].
    apply (performs_region 1 3 0 "load" 5 _ _ b b es [_; _; _; _; _] 5 1 es [_]); [|repeat constructor].
    apply (performs_within 3 4 1 "inner" _ _ b es es [_; _] 5 1 b es [_]); repeat constructor. }
  split; [exact HP|]. split; [intros [[_ []]|[_ [[] _]]]|]. split; [reflexivity|].
  destruct (C119_kept (RE:=RE) (fun _ f _ => f) (fun _ => []) Compile MatchString (fun s => s) caps [] _ 0 "web" x l 5 1 (Forall_nil _) eq_refl eq_refl HP)
    as (z & t & older & E & _ & T & _ & O).
  cbn [z_init z_sys s_cores length] in T. rewrite T in O. exists z. split; [exact E|exact O].
Qed.

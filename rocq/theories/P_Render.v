(** C97: pages are sent whole or not at all. *)
From Verif Require Import Go L_List M_Strings M_Types M_Web M_Decor M_Render S_Render S_Trace.
From Coq Require Import Permutation.
Open Scope string_scope.
Open Scope list_scope.
Open Scope Z_scope.

Section Render.
Context {arg F T D : Type}.
Variable str : string -> arg.
Variable num : Z -> arg.
Variable strs : list string -> arg.
Variable HumanizeBytes : Z -> string.
Variable Join : string -> string -> string.
Variable parse : string -> F -> outcome (list (string * T)).
Variable encode : D -> outcome string.
Variable order : list string -> list string.
Variable Clean : string -> string.
Variable disk : string -> string -> option F.

Notation renderTemplate := (renderTemplate str strs HumanizeBytes Join parse).
Notation renderHTML := (renderHTML str strs HumanizeBytes Join parse).
Notation renderJSON := (renderJSON str HumanizeBytes encode).
Notation answer_of := (answer_of str num HumanizeBytes).

Lemma serve_traces calls k : forall i acc,
  serve http_WriteHeader http_Write http_Flush (HTraces calls k) i acc = serve http_WriteHeader http_Write http_Flush k i (acc ++ calls) :> interceptor response * list (call arg) * bool.
Proof.
  induction calls as [|c calls IH]; intros i acc; cbn [HTraces serve]; [rewrite app_nil_r; reflexivity|].
  rewrite IH, <- app_assoc. reflexivity.
Qed.
Lemma headers_no_error r l : existsb is_error (header_calls str r l) = false.
Proof. induction l as [|h l IH]; [reflexivity|]. cbn [header_calls]. rewrite existsb_app, IH. destruct (negb _); reflexivity. Qed.
Lemma answer_traces r took calls code body ty : code = 200 \/ code = 500 ->
  answer_of r took (HTraces calls (HWriteHeader code (HWrite body (fun _ => HReturn))), ty) = MkAnswer code ty body true (existsb is_error calls).
Proof.
  intros Hc. unfold S_Render.answer_of, Middleware, newInterceptor. cbn [fst snd]. rewrite serve_traces.
  destruct Hc as [-> | ->]; cbn -[existsb header_calls is_error app]; rewrite !existsb_app, headers_no_error; cbn [existsb is_error is_error_kind orb]; rewrite !orb_false_r; reflexivity.
Qed.

Lemma body_no_error execute embedded env name (data : D) :
  existsb is_error (fst (template_body str strs HumanizeBytes Join parse execute order Clean disk embedded env name data)) = false.
Proof.
  unfold template_body. destruct (parse_files parse embedded []); try reflexivity.
  destruct (local_files disk _ _); [|destruct (parse_files parse (p :: l) a)]; try reflexivity; destruct (map_get name _); try reflexivity; destruct (execute _ _ _) as [out []]; reflexivity.
Qed.

(** The page is either the whole output of a template that was executed to its end, with status
    200, or an error page with status 500, and the trace of the request shows an error exactly in
    the second case.  The handler never panics, whatever the templates do. *)
Theorem C97_whole_page_or_error :
  forall execute embedded env name (data : D) took r took',
    let a := answer_of r took' (renderHTML execute order Clean disk embedded env name data took) in
    a_returned a = true /\ a_type a = "text/html; charset=utf-8" /\
    ((a_status a = 200 /\ a_errored a = false /\ exists set t, map_get name set = Some t /\ execute set t data = (a_body a, Done tt)) \/
     (a_status a = 500 /\ a_errored a = true /\ exists err, a_body a = error_page err)).
Proof.
  intros execute embedded env name data took r took' a. subst a. unfold M_Render.renderHTML, M_Render.renderTemplate.
  pose proof (body_no_error execute embedded env name data) as NE.
  assert (B : forall calls out, template_body str strs HumanizeBytes Join parse execute order Clean disk embedded env name data = (calls, Done out) ->
            exists set t, map_get name set = Some t /\ execute set t data = (out, Done tt)).
  { intros calls out. unfold template_body. destruct (parse_files parse embedded []) as [set| |]; try discriminate.
    destruct (match local_files disk (localPath Clean env) (order ("root" :: map fst set)) with [] => Done set | _ => _ end) as [set'| |]; try discriminate.
    destruct (map_get name set') as [t|] eqn:Et; try discriminate. destruct (execute set' t data) as [o [[]| |]] eqn:Ee; try discriminate.
    intros H. injection H as _ <-. exists set', t. auto. }
  destruct (template_body _ _ _ _ _ _ _ _ _ _ _ _ _) as [calls o]. cbn [fst] in NE. destruct o as [out|err|x].
  - rewrite answer_traces by auto. cbn [a_returned a_type a_status a_errored a_body]. split; [reflexivity|]. split; [reflexivity|]. left. split; [reflexivity|].
    split; [|apply (B calls); reflexivity]. cbn [existsb is_error is_error_kind orb]. rewrite existsb_app, NE. reflexivity.
  - rewrite answer_traces by auto. cbn [a_returned a_type a_status a_errored a_body]. split; [reflexivity|]. split; [reflexivity|]. right. split; [reflexivity|].
    split; [|exists err; reflexivity]. rewrite existsb_app. cbn. apply orb_true_r.
  - rewrite answer_traces by auto. cbn [a_returned a_type a_status a_errored a_body]. split; [reflexivity|]. split; [reflexivity|]. right. split; [reflexivity|].
    split; [|eexists; reflexivity]. rewrite existsb_app. cbn. apply orb_true_r.
Qed.
(** Nothing that a failing template has written reaches the client, nor the trace. *)
Theorem C97_nothing_of_a_failed_page :
  forall execute1 execute2 embedded env name (data : D) took, same_pages execute1 execute2 ->
    renderHTML execute1 order Clean disk embedded env name data took = renderHTML execute2 order Clean disk embedded env name data took.
Proof.
  intros e1 e2 embedded env name data took H. unfold M_Render.renderHTML, M_Render.renderTemplate.
  replace (template_body str strs HumanizeBytes Join parse e2 order Clean disk embedded env name data) with (template_body str strs HumanizeBytes Join parse e1 order Clean disk embedded env name data); [reflexivity|].
  unfold template_body. destruct (parse_files parse embedded []) as [set| |]; try reflexivity.
  destruct (match local_files disk (localPath Clean env) (order ("root" :: map fst set)) with [] => Done set | _ => _ end) as [set'| |]; try reflexivity.
  destruct (map_get name set') as [t|]; try reflexivity. destruct (H set' t data) as [H1 H2]. destruct (e1 set' t data) as [o1 s1], (e2 set' t data) as [o2 s2]. cbn [fst snd] in *. subst s2.
  destruct s1 as [[]| |]; try reflexivity. rewrite (H2 eq_refl). reflexivity.
Qed.

(** The trace of the request shows how far it went: the lines of a region with that name, in it
    the steps that were done, one after another, and all of them exactly if there is a page. *)
Theorem C97_the_trace_tells_the_steps :
  forall execute embedded env name (data : D) took,
    let '(calls, result) := renderTemplate execute order Clean disk embedded env name data took in
    exists files size steps left,
      calls = CallLog KLazyTracef (arrow_in ++ " renderTemplate")%string [] ::
              map (fun s => CallLog KLazyTracef (bullet ++ " " ++ fst s)%string (snd s)) steps ++
              [CallLog KLazyTracef (arrow_out ++ " renderTemplate [%s]")%string [str took]] /\
      steps ++ left =
        [("template.ParseFS OK", [])] ++ match files with [] => [] | _ => [("local files %v", [strs files])] end ++
        [("template.Lookup(%s) OK", [str name]); ("template.Execute OK, %s", [str (HumanizeBytes size)])] /\
      match result with
      | inl page => left = [] /\ size = Z.of_nat (String.length page)
      | inr _ => left <> []
      end.
Proof.
  intros execute embedded env name data took. unfold M_Render.renderTemplate, template_body.
  destruct (parse_files parse embedded []) as [set|err|x].
  2, 3: (exists [], 0, [], [("template.ParseFS OK", []); ("template.Lookup(%s) OK", [str name]); ("template.Execute OK, %s", [str (HumanizeBytes 0)])];
         split; [reflexivity|]; split; [reflexivity|discriminate]).
  destruct (local_files disk (localPath Clean env) (order ("root" :: map fst set))) as [|f fs] eqn:EL.
  - destruct (map_get name set) as [t|]; [destruct (execute set t data) as [out [[]|err|x]]|].
    + exists [], (Z.of_nat (String.length out)). eexists _, []. rewrite app_nil_r. split; [|split; [reflexivity|split; reflexivity]]. reflexivity.
    + exists [], 0, [("template.ParseFS OK", []); ("template.Lookup(%s) OK", [str name])]. eexists. split; [reflexivity|]. split; [reflexivity|discriminate].
    + exists [], 0, [("template.ParseFS OK", []); ("template.Lookup(%s) OK", [str name])]. eexists. split; [reflexivity|]. split; [reflexivity|discriminate].
    + exists [], 0, [("template.ParseFS OK", [])]. eexists. split; [reflexivity|]. split; [reflexivity|discriminate].
  - set (files := map (fun f => Join (localPath Clean env) (fst f)) (f :: fs)). assert (Ef : exists a b, files = a :: b) by (eexists _, _; reflexivity).
    destruct (parse_files parse (f :: fs) set) as [set'|err|x].
    2, 3: (exists [], 0, [("template.ParseFS OK", [])]; eexists; split; [reflexivity|]; split; [reflexivity|discriminate]).
    destruct Ef as (a & b & Ef).
    destruct (map_get name set') as [t|]; [destruct (execute set' t data) as [out [[]|err|x]]|].
    + exists files, (Z.of_nat (String.length out)). eexists _, []. rewrite app_nil_r. split; [|split; [reflexivity|split; reflexivity]]. rewrite Ef. reflexivity.
    + exists files, 0, [("template.ParseFS OK", []); ("local files %v", [strs files]); ("template.Lookup(%s) OK", [str name])]. eexists. split; [reflexivity|]. split; [rewrite Ef; reflexivity|discriminate].
    + exists files, 0, [("template.ParseFS OK", []); ("local files %v", [strs files]); ("template.Lookup(%s) OK", [str name])]. eexists. split; [reflexivity|]. split; [rewrite Ef; reflexivity|discriminate].
    + exists files, 0, [("template.ParseFS OK", []); ("local files %v", [strs files])]. eexists. split; [reflexivity|]. split; [rewrite Ef; reflexivity|discriminate].
Qed.

(** *** Where templates come from *)
Lemma parse_files_fails files n f : In (n, f) files -> (forall defs, parse n f <> Done defs) -> forall set set', parse_files parse files set <> Done set'.
Proof.
  intros Hin Hp. induction files as [|[n' f'] files IH]; [destruct Hin|]. intros set set'. cbn [parse_files]. destruct Hin as [E|Hin].
  - injection E as -> ->. destruct (parse n f) as [defs| |]; [exfalso; apply (Hp defs); reflexivity|discriminate|discriminate].
  - destruct (parse n' f'); [apply IH; exact Hin|discriminate|discriminate].
Qed.
Lemma in_local_files dir names n f : In (n, f) (local_files disk dir names) <-> In n names /\ n <> "" /\ disk dir n = Some f.
Proof.
  induction names as [|m names IH]; cbn [local_files]; [cbn; tauto|]. destruct (String.eqb_spec m "") as [->|Hm].
  - rewrite IH. cbn. split; [tauto|]. intros [[<-|H] [H1 H2]]; [congruence|auto].
  - destruct (disk dir m) as [g|] eqn:Eg; cbn [In]; rewrite IH.
    + split; [intros [E|H]; [injection E as <- <-; auto|tauto]|]. intros [[->|H] [H1 H2]]; [left; congruence|tauto].
    + split; [tauto|]. intros [[->|H] [H1 H2]]; [congruence|tauto].
Qed.

(** Whatever is called "root" in the directory is parsed as a template too: html/template counts
    the template that holds the others among them.  So if it cannot be parsed, say because it is a
    directory, there is no page. *)
Theorem C97_root_breaks_every_page_refuted :
  forall execute embedded env name (data : D) took r took' f,
    is_order order -> disk (localPath Clean env) "root" = Some f -> (forall defs, parse "root" f <> Done defs) ->
    a_status (answer_of r took' (renderHTML execute order Clean disk embedded env name data took)) = 500.
Proof.
  intros execute embedded env name data took r took' f Ho Hd Hp. unfold M_Render.renderHTML, M_Render.renderTemplate.
  assert (B : forall calls out, template_body str strs HumanizeBytes Join parse execute order Clean disk embedded env name data <> (calls, Done out)).
  { intros calls out. unfold template_body. destruct (parse_files parse embedded []) as [set| |]; try discriminate.
    assert (Hin : In ("root", f) (local_files disk (localPath Clean env) (order ("root" :: map fst set)))).
    { apply in_local_files. split; [|split; [discriminate|exact Hd]]. eapply Permutation_in; [symmetry; apply Ho|left; reflexivity]. }
    destruct (local_files disk (localPath Clean env) (order ("root" :: map fst set))) as [|p l] eqn:El; [destruct Hin|]. rewrite <- El in *.
    destruct (parse_files parse (local_files disk (localPath Clean env) (order ("root" :: map fst set))) set) as [set'| |] eqn:Ep; try discriminate.
    exfalso. exact (parse_files_fails _ _ _ Hin Hp _ _ Ep). }
  destruct (template_body _ _ _ _ _ _ _ _ _ _ _ _ _) as [calls o]. destruct o as [out|err|x]; [exfalso; exact (B calls out eq_refl)| |]; rewrite answer_traces by auto; reflexivity.
Qed.

Section Simple.
(** the templates of files that define just themselves *)
Variable template_of : string -> F -> T.
Lemma define_one n (t : T) set : define [(n, t)] set = map_set n t set.
Proof. reflexivity. Qed.
Lemma bound_or_not m (files : list (string * F)) : (exists f, In (m, f) files) \/ forall f, ~ In (m, f) files.
Proof.
  induction files as [|[a b] l IHl]; [right; intros f []|]. destruct (String.eqb_spec a m) as [->|Hne]; [left; exists b; left; reflexivity|].
  destruct IHl as [[f H]|H]; [left; exists f; right; exact H|right; intros f [E|H']; [injection E as -> _; congruence|exact (H f H')]].
Qed.
Lemma parse_files_simple files : (forall n f, In (n, f) files -> parse n f = Done [(n, template_of n f)]) -> (forall n f f', In (n, f) files -> In (n, f') files -> f = f') ->
  forall set, exists set', parse_files parse files set = Done set' /\
    forall n, (forall f, In (n, f) files -> map_get n set' = Some (template_of n f)) /\ ((forall f, ~ In (n, f) files) -> map_get n set' = map_get n set).
Proof.
  induction files as [|[m g] files IH]; intros Hp Hf set; cbn [parse_files].
  - exists set. split; [reflexivity|]. intros n. split; [intros f []|auto].
  - rewrite (Hp m g (or_introl eq_refl)), define_one. destruct (IH (fun n f H => Hp n f (or_intror H)) (fun n f f' H H' => Hf n f f' (or_intror H) (or_intror H')) (map_set m (template_of m g) set)) as (set' & E & G).
    exists set'. split; [exact E|]. intros n. destruct (G n) as [G1 G2]. split.
    + intros f [Eq|Hin]; [|apply G1; exact Hin]. injection Eq as <- <-.
      destruct (bound_or_not m files) as [[f Hin]|Hno].
      * rewrite (G1 f Hin), (Hf m g f (or_introl eq_refl) (or_intror Hin)). reflexivity.
      * rewrite (G2 Hno), map_get_set, String.eqb_refl. reflexivity.
    + intros Hno. rewrite G2 by (intros f H; apply (Hno f); right; exact H). rewrite map_get_set. destruct (String.eqb_spec n m) as [->|]; [|reflexivity]. exfalso. apply (Hno g). left. reflexivity.
Qed.
Lemma map_get_In {V} (m : list (string * V)) k v : NoDup (map fst m) -> (map_get k m = Some v <-> In (k, v) m).
Proof.
  induction m as [|[k' v'] m IH]; cbn; [split; [discriminate|tauto]|]. intros ND. inversion ND as [|? ? N1 N2]; subst. destruct (String.eqb_spec k k') as [->|Hne].
  - split; [intros E; left; congruence|]. intros [E|H]; [congruence|]. exfalso. apply N1. apply (in_map fst) in H. exact H.
  - rewrite (IH N2). split; [auto|]. intros [E|H]; [congruence|exact H].
Qed.

(** If every file defines just the template it is called after, then a template comes from the file
    of its name in the directory, if there is one, and else from the embedded one; in whatever order
    the map gives the names; and the answer is that of executing the page's template. *)
Theorem C97_which_template :
  forall execute embedded env name (data : D) took r took',
    is_order order -> NoDup (map fst embedded) -> name <> "root" ->
    (forall n, In n (map fst embedded) -> n <> "") ->
    (forall n f, In (n, f) embedded -> parse n f = Done [(n, template_of n f)]) ->
    (forall n f, n = "root" \/ In n (map fst embedded) -> disk (localPath Clean env) n = Some f -> parse n f = Done [(n, template_of n f)]) ->
    exists set,
      (forall n, n <> "root" -> map_get n set = option_map (template_of n) (used disk (localPath Clean env) embedded n)) /\
      let a := answer_of r took' (renderHTML execute order Clean disk embedded env name data took) in
      match used disk (localPath Clean env) embedded name with
      | None => a_status a = 500
      | Some f => match execute set (template_of name f) data with
                  | (out, Done _) => a_status a = 200 /\ a_body a = out
                  | (_, Fails _) | (_, Panics _) => a_status a = 500
                  end
      end.
Proof.
  intros execute embedded env name data took r took' Ho ND Hname Hne Hp Hl. set (dir := localPath Clean env) in *.
  destruct (parse_files_simple embedded Hp) with (set := @nil (string * T)) as (set1 & E1 & G1).
  { intros n f f' H H'. apply (map_get_In _ _ _ ND) in H. apply (map_get_In _ _ _ ND) in H'. congruence. }
  assert (K1 : forall n, map_get n set1 = option_map (template_of n) (map_get n embedded)).
  { intros n. destruct (map_get n embedded) as [f|] eqn:Ef; cbn.
    - apply (proj1 (G1 n)). apply map_get_In; assumption.
    - apply (proj2 (G1 n)). intros f H. apply (map_get_In _ _ _ ND) in H. congruence. }
  assert (Kin : forall n, In n (map fst set1) <-> In n (map fst embedded)).
  { intros n. change (map fst set1) with (map_keys set1). change (map fst embedded) with (map_keys embedded). rewrite <- !map_get_in, K1. destruct (map_get n embedded); cbn; split; intros H; congruence. }
  set (locals := local_files disk dir (order ("root" :: map fst set1))).
  assert (L : forall n f, In (n, f) locals <-> (n = "root" \/ In n (map fst embedded)) /\ n <> "" /\ disk dir n = Some f).
  { intros n f. unfold locals. rewrite in_local_files. rewrite <- Kin. split; intros (H1 & H2); (split; [|exact H2]).
    - apply (Permutation_in _ (Ho _)) in H1. destruct H1 as [<-|H1]; auto.
    - eapply Permutation_in; [symmetry; apply Ho|]. destruct H1 as [->|H1]; [left; reflexivity|right; exact H1]. }
  destruct (parse_files_simple locals) with (set := set1) as (set2 & E2 & G2).
  { intros n f H. apply L in H. apply Hl; apply H. }
  { intros n f f' H H'. apply L in H. apply L in H'. destruct H as (_ & _ & H), H' as (_ & _ & H'). congruence. }
  assert (K2 : forall n, n <> "root" -> map_get n set2 = option_map (template_of n) (used disk dir embedded n)).
  { intros n Hn. unfold used. destruct (map_get n embedded) as [f|] eqn:Ef.
    - assert (Hin : In n (map fst embedded)) by (change (map fst embedded) with (map_keys embedded); apply map_get_in; congruence).
      destruct (disk dir n) as [f'|] eqn:Ed; cbn.
      + apply (proj1 (G2 n)). apply L. split; [right; exact Hin|]. split; [apply Hne; exact Hin|exact Ed].
      + rewrite (proj2 (G2 n)); [rewrite K1, Ef; reflexivity|]. intros f0 H. apply L in H. destruct H as (_ & _ & H). congruence.
    - cbn. rewrite (proj2 (G2 n)); [rewrite K1, Ef; reflexivity|]. intros f0 H. apply L in H. destruct H as ([->|H] & _); [congruence|].
      change (map fst embedded) with (map_keys embedded) in H. apply map_get_in in H. congruence. }
  assert (P2 : match locals with [] => Done set1 | _ => parse_files parse locals set1 end = Done set2).
  { destruct locals as [|p l]; [exact E2|exact E2]. }
  exists set2. split; [exact K2|]. cbn zeta. unfold M_Render.renderHTML, M_Render.renderTemplate, template_body. rewrite E1. fold dir. fold locals. rewrite P2.
  rewrite (K2 name Hname). destruct (used disk dir embedded name) as [f|]; cbn [option_map].
  - destruct (execute set2 (template_of name f) data) as [out [[]|err|x]]; rewrite answer_traces by auto; auto.
  - rewrite answer_traces by auto. reflexivity.
Qed.

Lemma parse_files_keys files : (forall n f, In (n, f) files -> parse n f = Done [(n, template_of n f)]) ->
  forall set set', parse_files parse files set = Done set' -> NoDup (map fst set) -> NoDup (map fst set').
Proof.
  induction files as [|[m g] files IH]; intros Hp set set'; cbn [parse_files]; [intros [= ->]; auto|].
  rewrite (Hp m g (or_introl eq_refl)), define_one. intros E ND. apply (IH (fun n f H => Hp n f (or_intror H)) _ _ E). apply (map_keys_set_NoDup m (template_of m g) set), ND.
Qed.
Lemma local_files_names dir names : (forall n, In n names -> n <> "") ->
  map fst (local_files disk dir names) = filter (fun n => match disk dir n with Some _ => true | None => false end) names.
Proof.
  induction names as [|m names IH]; intros H; [reflexivity|]. cbn [local_files filter]. destruct (String.eqb_spec m "") as [->|]; [exfalso; apply (H ""); [left|]; reflexivity|].
  destruct (disk dir m); cbn [map fst]; rewrite IH by (intros n0 Hn; apply H; right; exact Hn); reflexivity.
Qed.
Lemma filter_perm {A} (p : A -> bool) l l' : Permutation l l' -> Permutation (filter p l) (filter p l').
Proof.
  induction 1 as [|a l l' H IH|a b l|l l' l'' H1 IH1 H2 IH2]; cbn [filter]; [constructor| | |etransitivity; eassumption].
  - destruct (p a); [constructor|]; exact IH.
  - destruct (p a), (p b); try reflexivity. apply perm_swap.
Qed.

(** The trace tells which files of the directory were used: one line with the paths of all of them,
    in some order, and no such line if there are none. *)
Theorem C97_local_files_told :
  forall execute embedded env name (data : D) took,
    is_order order -> NoDup (map fst embedded) -> ~ In "root" (map fst embedded) ->
    (forall n, In n (map fst embedded) -> n <> "") ->
    (forall n f, In (n, f) embedded -> parse n f = Done [(n, template_of n f)]) ->
    (forall n f, n = "root" \/ In n (map fst embedded) -> disk (localPath Clean env) n = Some f -> parse n f = Done [(n, template_of n f)]) ->
    let dir := localPath Clean env in
    let there := filter (fun n => match disk dir n with Some _ => true | None => false end) ("root" :: map fst embedded) in
    exists names, Permutation names there /\
      lines_with (bullet ++ " local files %v")%string (fst (renderTemplate execute order Clean disk embedded env name data took)) =
        match names with [] => [] | _ => [[strs (map (Join dir) names)]] end.
Proof.
  intros execute embedded env name data took Ho ND Hroot Hne Hp Hl dir there.
  destruct (parse_files_simple embedded Hp) with (set := @nil (string * T)) as (set1 & E1 & G1).
  { intros n f f' H H'. apply (map_get_In _ _ _ ND) in H. apply (map_get_In _ _ _ ND) in H'. congruence. }
  assert (K1 : forall n, map_get n set1 = option_map (template_of n) (map_get n embedded)).
  { intros n. destruct (map_get n embedded) as [f|] eqn:Ef; cbn.
    - apply (proj1 (G1 n)). apply map_get_In; assumption.
    - apply (proj2 (G1 n)). intros f H. apply (map_get_In _ _ _ ND) in H. congruence. }
  assert (Kin : forall n, In n (map fst set1) <-> In n (map fst embedded)).
  { intros n. change (map fst set1) with (map_keys set1). change (map fst embedded) with (map_keys embedded). rewrite <- !map_get_in, K1. destruct (map_get n embedded); cbn; split; intros H; congruence. }
  assert (Kp : Permutation (map fst set1) (map fst embedded)).
  { apply NoDup_Permutation; [apply (parse_files_keys _ Hp _ _ E1); constructor|exact ND|exact Kin]. }
  assert (Hall : forall n, In n (order ("root" :: map fst set1)) -> n = "root" \/ In n (map fst embedded)).
  { intros n H. apply (Permutation_in _ (Ho _)) in H. destruct H as [<-|H]; [auto|]. right. apply Kin, H. }
  set (locals := local_files disk dir (order ("root" :: map fst set1))).
  assert (Ln : map fst locals = filter (fun n => match disk dir n with Some _ => true | None => false end) (order ("root" :: map fst set1))).
  { apply local_files_names. intros n H. destruct (Hall n H) as [->|Hin]; [discriminate|exact (Hne n Hin)]. }
  exists (map fst locals). split.
  { rewrite Ln. apply filter_perm. rewrite (Ho _). constructor. exact Kp. }
  destruct (parse_files_simple locals) with (set := set1) as (set2 & E2 & _).
  { intros n f H. apply in_local_files in H. destruct H as (H1 & _ & H2). apply Hl; [apply Hall, H1|exact H2]. }
  { intros n f f' H H'. apply in_local_files in H. apply in_local_files in H'. destruct H as (_ & _ & H), H' as (_ & _ & H'). congruence. }
  assert (P2 : match locals with [] => Done set1 | _ => parse_files parse locals set1 end = Done set2).
  { destruct locals as [|p l]; [exact E2|exact E2]. }
  unfold M_Render.renderTemplate, template_body. rewrite E1. fold dir. fold locals. rewrite P2. rewrite map_map.
  replace (match map fst locals with [] => [] | _ => [[strs (map (fun x => Join dir (fst x)) locals)]] end) with (match locals with [] => [] | _ => [[strs (map (fun x => Join dir (fst x)) locals)]] end) by (destruct locals; reflexivity).
  destruct (map_get name set2) as [t|]; [destruct (execute set2 t data) as [out [[]|err|x]]|]; destruct locals as [|p l]; reflexivity.
Qed.
End Simple.

(** JSON: the whole text, or a fixed error text; a panic of the encoder goes on, and nothing was sent. *)
Theorem C97_json :
  forall (data : D) r took',
    let a := answer_of r took' (renderJSON data) in
    a_type a = "application/json; charset=utf-8" /\
    match encode data with
    | Done text => a_status a = 200 /\ a_body a = text /\ a_returned a = true /\ a_errored a = false
    | Fails _ => a_status a = 500 /\ a_body a = "{""error"":""failed to marshal response""}" /\ a_returned a = true /\ a_errored a = true
    | Panics _ => a_body a = "" /\ a_returned a = false
    end.
Proof.
  intros data r took' a. subst a. unfold M_Render.renderJSON. destruct (encode data) as [text|err|x].
  - change (HTrace ?c ?k) with (HTraces [c] k). rewrite (answer_traces r took' [_] 200 text) by auto. repeat split.
  - change (HTrace ?c ?k) with (HTraces [c] k). rewrite (answer_traces r took' [_] 500) by auto. repeat split.
  - unfold S_Render.answer_of, Middleware. cbn. repeat split.
Qed.
(** In the last case the response is as it was: neither a status nor a header nor text was sent. *)
Theorem C97_json_panic_sends_nothing :
  forall (data : D) r took' x, encode data = Panics x ->
    let '(_, w, returned) := Middleware str num HumanizeBytes http_WriteHeader http_Write http_Flush r new_response (fst (renderJSON data)) took' in
    w = new_response /\ returned = false.
Proof. intros data r took' x E. unfold M_Render.renderJSON. rewrite E. unfold Middleware. cbn. repeat split. Qed.
End Render.
Print Assumptions C97_whole_page_or_error.
Print Assumptions C97_nothing_of_a_failed_page.
Print Assumptions C97_the_trace_tells_the_steps.
Print Assumptions C97_which_template.
Print Assumptions C97_local_files_told.
Print Assumptions C97_root_breaks_every_page_refuted.
Print Assumptions C97_json.
Print Assumptions C97_json_panic_sends_nothing.

(** *** Instances: files are their text; a template writes its text and the templates after it *)
Definition demo_parse (name f : string) : outcome (list (string * string)) :=
  if String.eqb f "(directory)" then Fails ("read " ++ name ++ ": is a directory")%string else Done [(name, f)].
Definition demo_execute (set : list (string * string)) (t : string) (data : Z) : string * outcome unit :=
  if data =? 0 then (t, Panics "nil pointer") else if data <? 0 then ("<html>half a pa", Fails "bad data")
  else ((t ++ match map_get "traces.css" set with Some c => c | None => "" end)%string, Done tt).
Definition demo_embedded : list (string * string) := [("traces.css", "(css)"); ("traces.html", "(page)")].
Definition demo_answer (disk : string -> string -> option string) (env : string) (data : Z) : answer :=
  answer_of inl inr itoa (MkRequest "1.2.3.4:5" "GET" "/x" (fun _ => "")) "1ms"
    (renderHTML inl (fun _ => inr 0) itoa (fun dir n => dir ++ "/" ++ n)%string demo_parse demo_execute (@rev string) (fun p => p) disk demo_embedded env "traces.html" data "1ms").
Definition cwd (name f : string) : string -> string -> option string :=
  fun dir n => if String.eqb dir "." && String.eqb n name then Some f else None.

(** The variable that names a directory for the assets is not set, and still the file of the
    working directory is served instead of the embedded one. *)
Theorem C97_unset_directory_refuted :
  exists disk, a_body (demo_answer (fun _ _ => None) "" 1) = "(page)(css)" /\ a_body (demo_answer disk "" 1) <> "(page)(css)" /\ a_status (demo_answer disk "" 1) = 200.
Proof. exists (cwd "traces.html" "my own notes"). split; [vm_compute; reflexivity|]. split; [vm_compute; discriminate|vm_compute; reflexivity]. Qed.
Print Assumptions C97_unset_directory_refuted.

Example C97_instance :
  demo_answer (fun _ _ => None) "" 1 = MkAnswer 200 "text/html; charset=utf-8" "(page)(css)" true false /\
  demo_answer (fun _ _ => None) "" (-1) = MkAnswer 500 "text/html; charset=utf-8" (error_page "execute template: bad data") true true /\
  demo_answer (fun _ _ => None) "" 0 = MkAnswer 500 "text/html; charset=utf-8" (error_page "PANIC: nil pointer") true true /\
  demo_answer (cwd "traces.css" "(mine)") "" 1 = MkAnswer 200 "text/html; charset=utf-8" "(page)(mine)" true false /\
  demo_answer (cwd "root" "(directory)") "" 1 = MkAnswer 500 "text/html; charset=utf-8" (error_page "parse local files: read root: is a directory") true true /\
  demo_answer (cwd "root" "(directory)") "/assets" 1 = MkAnswer 200 "text/html; charset=utf-8" "(page)(css)" true false.
Proof. vm_compute. repeat split. Qed.
Example C97_local_files_instance :
  lines_with (bullet ++ " local files %v")%string
    (fst (renderTemplate (fun s => [s]) (fun l => l) itoa (fun dir n => dir ++ "/" ++ n)%string demo_parse demo_execute (@rev string) (fun p => p)
           (fun dir n => if String.eqb dir "/assets" then Some "(mine)" else None) demo_embedded "/assets" "traces.html" 1 "1ms"))
  = [[["/assets/traces.html"; "/assets/traces.css"; "/assets/root"]]].
Proof. vm_compute. reflexivity. Qed.
(** The hypotheses of C97_which_template and of the finding about "root" are met. *)
Example C97_hypotheses :
  is_order (@rev string) /\ NoDup (map fst demo_embedded) /\
  (forall n f, In (n, f) demo_embedded -> demo_parse n f = Done [(n, f)]) /\
  (forall n f, n = "root" \/ In n (map fst demo_embedded) -> cwd "traces.css" "(mine)" "." n = Some f -> demo_parse n f = Done [(n, f)]) /\
  used (cwd "traces.css" "(mine)") "." demo_embedded "traces.css" = Some "(mine)" /\
  used (cwd "traces.css" "(mine)") "." demo_embedded "traces.html" = Some "(page)" /\
  cwd "root" "(directory)" "." "root" = Some "(directory)" /\ (forall defs, demo_parse "root" "(directory)" <> Done defs) /\
  same_pages demo_execute (fun set t d => let '(out, o) := demo_execute set t d in (match o with Done _ => out | _ => "" end, o)).
Proof.
  split; [intros ks; symmetry; apply Permutation_rev|]. split; [repeat constructor; cbn; intuition discriminate|].
  split; [intros n f [E|[E|[]]]; injection E as <- <-; reflexivity|].
  split; [intros n f [->|[<-|[<-|[]]]] H; try discriminate H; injection H as <-; reflexivity|].
  split; [reflexivity|]. split; [reflexivity|]. split; [reflexivity|]. split; [intros defs H; discriminate H|].
  intros set t d. unfold demo_execute. destruct (d =? 0); [split; [reflexivity|discriminate]|]. destruct (d <? 0); [split; [reflexivity|discriminate]|]. split; reflexivity.
Qed.

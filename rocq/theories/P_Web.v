(** C52, C53, C57, C58, C59, C64: the web package and the command line tool. *)
From Verif Require Import Go M_Strings M_Types M_Frame M_RingBuf M_RingBufs M_Filter M_Stats M_Search M_Humanize M_Text M_Url M_Trace
     M_Web S_Web S_Trace S_Filter S_Search S_Collector L_RingBufs L_Filter L_Trace L_Search L_Url P_Url P_Filter P_Search D_Demo.
From Coq Require Import ZifyBool.
Open Scope string_scope.
Open Scope list_scope.
Open Scope Z_scope.

(** ** Middleware *)
Section Middleware.
Context {arg W : Type}.
Variable str : string -> arg.
Variable num : Z -> arg.
Variable HumanizeBytes : Z -> string.
Variable w_WriteHeader : W -> Z -> option W.
Variable w_Write : W -> string -> W * (Z * option string).
Variable w_Flush : W -> W.
Notation direct := (direct w_WriteHeader w_Write w_Flush).
Notation serve := (serve w_WriteHeader w_Write w_Flush).
Notation Middleware := (Middleware str num HumanizeBytes w_WriteHeader w_Write w_Flush).

(** every handler has a run on its own *)
Lemma direct_total (h : handler arg) : forall w, exists w' cs ops ret, direct h w w' cs ops ret.
Proof.
  induction h as [| |c k IH|code k IH|p k IH|k IH]; intros w.
  - do 4 eexists. constructor.
  - do 4 eexists. constructor.
  - destruct (IH w) as (w' & cs & ops & ret & H). do 4 eexists. constructor. exact H.
  - destruct (w_WriteHeader w code) as [w1|] eqn:E.
    + destruct (IH w1) as (w' & cs & ops & ret & H). do 4 eexists. econstructor; eassumption.
    + do 4 eexists. apply d_header_panic. exact E.
  - destruct (w_Write w p) as [w1 [n err]] eqn:E. destruct (IH (n, err) w1) as (w' & cs & ops & ret & H).
    do 4 eexists. econstructor; eassumption.
  - destruct (IH (w_Flush w)) as (w' & cs & ops & ret & H). do 4 eexists. econstructor. exact H.
Qed.

Definition code_after (code : Z) (ops : list wop) : Z := if code =? 0 then first_code ops else code.
Lemma serve_direct (h : handler arg) w w' cs ops ret : direct h w w' cs ops ret ->
  forall code n acc, exists code', serve h (MkI w code n) acc = (MkI w' code' (n + bytes_taken ops), acc ++ cs, ret) /\
    (if code' =? 0 then 200 else code') = code_after code ops.
Proof.
  intros H. induction H as [w|w|c k w w' cs ops ret H IH|c k w w1 w' cs ops ret E H IH|c k w E|p k w w1 m err w' cs ops ret E H IH|k w w' cs ops ret H IH];
    intros code n acc; cbn [M_Web.serve bytes_taken].
  - exists code. rewrite Z.add_0_r, app_nil_r. split; [reflexivity|]. unfold code_after. cbn. reflexivity.
  - exists code. rewrite Z.add_0_r, app_nil_r. split; [reflexivity|]. unfold code_after. cbn. reflexivity.
  - destruct (IH code n (acc ++ [c])) as (code' & -> & Hc). exists code'. rewrite <- app_assoc. split; [reflexivity|exact Hc].
  - unfold i_WriteHeader. cbn [i_code i_w i_n].
    destruct (code =? 0) eqn:Ec; cbn [i_w i_code i_n]; rewrite E.
    + destruct (IH c n acc) as (code' & -> & Hc). exists code'. split; [reflexivity|]. rewrite Hc. unfold code_after. rewrite Ec. reflexivity.
    + destruct (IH code n acc) as (code' & -> & Hc). exists code'. split; [reflexivity|]. rewrite Hc. unfold code_after. rewrite Ec. reflexivity.
  - unfold i_WriteHeader. cbn [i_code i_w i_n]. destruct (code =? 0) eqn:Ec; cbn [i_w i_code i_n]; rewrite E.
    + exists c. rewrite Z.add_0_r, app_nil_r. split; [reflexivity|]. unfold code_after. rewrite Ec. cbn. reflexivity.
    + exists code. rewrite Z.add_0_r, app_nil_r. split; [reflexivity|]. unfold code_after. rewrite Ec. reflexivity.
  - unfold i_Write. cbn [i_code i_w i_n]. rewrite E. cbn [fst]. destruct (IH code (n + m) acc) as (code' & -> & Hc). exists code'.
    rewrite Z.add_assoc. split; [reflexivity|exact Hc].
  - unfold i_Flush. cbn [i_code i_w i_n]. destruct (IH code n acc) as (code' & -> & Hc). exists code'. split; [reflexivity|exact Hc].
Qed.

(** The headers that are recorded. *)
Definition present (r : request) : list string :=
  filter (fun h => negb (String.eqb (r_Header r h) "")) ["User-Agent"; "Accept"; "Content-Type"].
Lemma header_calls_map r l : header_calls str r l =
  map (fun h => CallLog KLazyTracef "%s: %s" [str h; str (r_Header r h)]) (filter (fun h => negb (String.eqb (r_Header r h) "")) l).
Proof.
  induction l as [|h l IH]; [reflexivity|]. cbn [header_calls filter]. rewrite IH.
  destruct (negb (String.eqb (r_Header r h) "")); reflexivity.
Qed.

(** C52.  Whatever the handler does on its own, with the middleware around it it does the
    same to the writer and ends the same way, and the trace gets exactly: the request line,
    the present headers, the handler's calls, one final event, and the finish. *)
Theorem C52_middleware_records :
  forall (r : request) (w : W) (h : handler arg) (took : string) w' cs ops ret,
    direct h w w' cs ops ret ->
    Middleware r w h took =
      (CallLog KLazyTracef "%s %s %s" [str (r_RemoteAddr r); str (r_Method r); str (r_URL r)] ::
       map (fun name => CallLog KLazyTracef "%s: %s" [str name; str (r_Header r name)]) (present r) ++
       cs ++
       [CallLog KLazyTracef "HTTP %d, %s, %s" [num (first_code ops); str (HumanizeBytes (bytes_taken ops)); str took];
        CallFinish],
       w', ret).
Proof.
  intros r w h took w' cs ops ret H. unfold M_Web.Middleware, newInterceptor. rewrite header_calls_map.
  fold (present r). destruct (serve_direct _ _ _ _ _ _ H 0 0
    ([CallLog KLazyTracef "%s %s %s" [str (r_RemoteAddr r); str (r_Method r); str (r_URL r)]] ++
     map (fun h0 => CallLog KLazyTracef "%s: %s" [str h0; str (r_Header r h0)]) (present r))) as (code & -> & Hc).
  cbn [i_n i_w]. unfold i_Code. cbn [i_code]. rewrite Hc. cbn [code_after Z.eqb].
  rewrite Z.add_0_l, <- !app_assoc. reflexivity.
Qed.

(** A trace that gets calls ending in a finish is finished. *)
Section Trace.
Context {World PC : Type}.
Variable Sprintf : World -> string -> list arg -> string.
Variable CallersFrames : list PC -> list rframe.
Notation run := (run Sprintf CallersFrames).
Theorem C52_trace_is_finished :
  forall (r : request) (w : W) (h : handler arg) (took : string) (tr : coreTrace arg PC) (envs : list (env arg World PC)),
    length envs = length (fst (fst (Middleware r w h took))) ->
    ct_finished (run (combine envs (fst (fst (Middleware r w h took)))) tr) = true.
Proof.
  intros r w h took tr envs Hl. destruct (direct_total h w) as (w' & cs & ops & ret & H).
  rewrite (C52_middleware_records r w h took w' cs ops ret H) in *. cbn [fst] in *.
  match goal with |- context [combine envs ?l] => assert (E : exists pre, l = pre ++ [CallFinish]) end.
  { match goal with |- exists pre, ?a :: ?l1 ++ ?l2 ++ [?x; ?y] = pre ++ [_] => exists (a :: l1 ++ l2 ++ [x]) end.
    cbn [app]. rewrite <- !app_assoc. reflexivity. }
  destruct E as (p & E). rewrite E in *. rewrite app_length in Hl. cbn [length] in Hl.
  assert (Hs : exists es e, envs = es ++ [e] /\ length es = length p).
  { destruct (rev envs) as [|e l] eqn:Er; [apply (f_equal (@length _)) in Er; rewrite rev_length in Er; cbn in Er; lia|].
    exists (rev l), e. split; [rewrite <- (rev_involutive envs), Er; reflexivity|].
    rewrite <- (rev_involutive envs), Er in Hl. cbn [rev] in Hl. rewrite app_length in Hl. cbn in Hl. lia. }
  destruct Hs as (es & e & -> & Hes).
  assert (Hc : forall (l1 : list (env arg World PC)) (l2 : list (call arg)) x y, length l1 = length l2 ->
             combine (l1 ++ [x]) (l2 ++ [y]) = combine l1 l2 ++ [(x, y)]).
  { induction l1 as [|a l1 IH]; intros [|b l2] x y; try discriminate; [reflexivity|]. intros HL. cbn. f_equal. apply IH. injection HL as HL. exact HL. }
  rewrite Hc by exact Hes. rewrite run_app. rewrite run_cons, run_nil.
  unfold do_call. cbn [snd fst]. unfold Finish. destruct (ct_finished (run (combine es p) tr)) eqn:Ef; [exact Ef|reflexivity].
Qed.
End Trace.
End Middleware.
Print Assumptions C52_middleware_records.
Print Assumptions C52_trace_is_finished.

(** ** The status code, with net/http's response writer *)
Notation http_direct := (direct http_WriteHeader http_Write http_Flush).

Lemma http_done_stays {arg} (h : handler arg) w w' cs ops ret : http_direct h w w' cs ops ret ->
  forall s, p_status w = Some s -> p_status w' = Some s.
Proof.
  intros H. induction H as [w|w|c k w w' cs ops ret H IH|c k w w1 w' cs ops ret E H IH|c k w E|p k w w1 m err w' cs ops ret E H IH|k w w' cs ops ret H IH];
    intros s Hs; auto.
  - apply IH. unfold http_WriteHeader in E. rewrite Hs in E. injection E as <-. exact Hs.
  - apply IH. unfold http_Write, http_header_done in E. rewrite Hs in E.
    rewrite Hs in E. destruct ((100 <=? s) && (s <=? 199) || (s =? 204) || (s =? 304)); injection E as <- _; first [exact Hs|reflexivity].
  - apply IH. unfold http_Flush, http_header_done. rewrite Hs. exact Hs.
Qed.

Lemma received_client {arg} (h : handler arg) w w' cs ops ret : http_direct h w w' cs ops ret ->
  ret = true -> p_status w = None -> received_status w' = client_code ops.
Proof.
  intros H. induction H as [w|w|c k w w' cs ops ret H IH|c k w w1 w' cs ops ret E H IH|c k w E|p k w w1 m err w' cs ops ret E H IH|k w w' cs ops ret H IH];
    intros Hr Hs; try discriminate.
  - unfold received_status, http_header_done. rewrite Hs. reflexivity.
  - auto.
  - cbn [client_code]. unfold http_WriteHeader in E. rewrite Hs in E.
    destruct ((c <? 100) || (999 <? c)) eqn:Eb; [discriminate|]. fold (informational c) in E.
    destruct (informational c); injection E as <-.
    + apply IH; [exact Hr|reflexivity].
    + pose proof (http_done_stays _ _ _ _ _ _ H c eq_refl) as G. unfold received_status, http_header_done. rewrite G, G. reflexivity.
  - cbn [client_code]. unfold http_Write, http_header_done in E. rewrite Hs in E. cbn [p_status p_info p_body] in E. cbn in E. injection E as <- _ _.
    pose proof (http_done_stays _ _ _ _ _ _ H 200 eq_refl) as G. unfold received_status, http_header_done. rewrite G, G. reflexivity.
  - cbn [client_code]. unfold http_Flush, http_header_done in H. rewrite Hs in H.
    pose proof (http_done_stays _ _ _ _ _ _ H 200 eq_refl) as G. unfold received_status, http_header_done. rewrite G, G. reflexivity.
Qed.

Lemma first_code_none ops : (forall code, ~ In (WHeader code) ops) -> first_code ops = 200.
Proof.
  induction ops as [|o ops IH]; intros H; [reflexivity|]. destruct o as [code|n|]; cbn [first_code].
  - exfalso. apply (H code). left. reflexivity.
  - apply IH. intros code Hc. apply (H code). right. exact Hc.
  - apply IH. intros code Hc. apply (H code). right. exact Hc.
Qed.
Lemma http_header_valid {arg} (h : handler arg) w w' cs code ops : http_direct h w w' cs (WHeader code :: ops) true ->
  p_status w = None -> 100 <= code.
Proof.
  intros H. remember (WHeader code :: ops) as l eqn:El. remember true as ret eqn:Er. revert code ops El Er.
  induction H as [w|w|c k w w' cs ops ret H IH|c k w w1 w' cs ops ret E H IH|c k w E|p k w w1 m err w' cs ops ret E H IH|k w w' cs ops ret H IH];
    intros code ops' El Er Hs; try discriminate; eauto.
  injection El as -> _. unfold http_WriteHeader in E. rewrite Hs in E. destruct ((code <? 100) || (999 <? code)) eqn:Eb; [discriminate|]. lia.
Qed.

(** C53.  For every handler that returns: the recorded code is that of its first WriteHeader
    call, the received one is what [client_code] says... *)
Theorem C53_recorded_and_received :
  forall (arg : Type) str num HumanizeBytes r took (h : handler arg) w' cs ops,
    http_direct h new_response w' cs ops true ->
    (exists before, fst (fst (Middleware str num HumanizeBytes http_WriteHeader http_Write http_Flush r new_response h took)) =
       before ++ [CallLog KLazyTracef "HTTP %d, %s, %s" [num (first_code ops); str (HumanizeBytes (bytes_taken ops)); str took]; CallFinish]) /\
    received_status (snd (fst (Middleware str num HumanizeBytes http_WriteHeader http_Write http_Flush r new_response h took))) = client_code ops.
Proof.
  intros arg str num HB r took h w' cs ops H. rewrite (C52_middleware_records str num HB _ _ _ r _ h took w' cs ops true H). cbn [fst snd]. split.
  - match goal with |- exists pre, ?a :: ?l1 ++ ?l2 ++ ?l3 = _ => exists (a :: l1 ++ l2) end.
    cbn [app]. rewrite <- app_assoc. reflexivity.
  - eapply received_client; [exact H|reflexivity|reflexivity].
Qed.
Print Assumptions C53_recorded_and_received.

(** ... and they agree if the header is sent properly. *)
Theorem C53_recorded_code_is_received :
  forall (arg : Type) (h : handler arg) w' cs ops,
    http_direct h new_response w' cs ops true -> header_first ops -> first_code ops = client_code ops.
Proof.
  intros arg h w' cs ops H Hf. destruct ops as [|o ops]; [reflexivity|].
  destruct o as [code|n|]; cbn [header_first] in Hf.
  - pose proof (http_header_valid _ _ _ _ _ _ H eq_refl) as Hv. cbn [first_code client_code]. rewrite Hf.
    destruct (code =? 0) eqn:E; [lia|reflexivity].
  - rewrite first_code_none by exact Hf. reflexivity.
  - rewrite first_code_none by exact Hf. reflexivity.
Qed.
Print Assumptions C53_recorded_code_is_received.

Definition demo_mw (h : handler (string + Z)) :=
  let '(calls, w, ret) := Middleware inl inr itoa http_WriteHeader http_Write http_Flush
    (MkRequest "1.2.3.4:5" "GET" "/x" (fun h => if String.eqb h "Accept" then "*/*" else "")) new_response h "1ms" in
  (calls, received_status w, p_body w, ret).
Definition demo_http (code n : Z) : list (call (string + Z)) :=
  [CallLog KLazyTracef "%s %s %s" [inl "1.2.3.4:5"; inl "GET"; inl "/x"]; CallLog KLazyTracef "%s: %s" [inl "Accept"; inl "*/*"];
   CallLog KTracef "hello" [];
   CallLog KLazyTracef "HTTP %d, %s, %s" [inr code; inl (itoa n); inl "1ms"]; CallFinish].

Example C52_C53_instance :
  let h := HTrace (CallLog KTracef "hello" []) (HWriteHeader 404 (HWrite "not " (fun r => if fst r =? 4 then HWrite "found" (fun _ => HPanic) else HReturn))) in
  demo_mw h = (demo_http 404 9, 404, "not found", false) /\
  exists w' cs, http_direct (HWriteHeader 404 (HWrite "x" (fun _ => HReturn)) : handler Z) new_response w' cs [WHeader 404; WBody 1] true /\
    header_first [WHeader 404; WBody 1].
Proof.
  split; [vm_compute; reflexivity|]. do 2 eexists. split; [|reflexivity]. eapply d_header; [reflexivity|]. eapply d_write; [reflexivity|]. constructor.
Qed.

(** C53, findings: a header after the body, after a flush, and an informational header. *)
Theorem C53_late_header_refuted :
  demo_mw (HTrace (CallLog KTracef "hello" []) (HWrite "x" (fun _ => HWriteHeader 500 HReturn))) = (demo_http 500 1, 200, "x", true).
Proof. vm_compute. reflexivity. Qed.
Theorem C53_header_after_flush_refuted :
  demo_mw (HTrace (CallLog KTracef "hello" []) (HFlush (HWriteHeader 500 (HWrite "x" (fun _ => HReturn))))) = (demo_http 500 1, 200, "x", true).
Proof. vm_compute. reflexivity. Qed.
Theorem C53_informational_refuted :
  demo_mw (HTrace (CallLog KTracef "hello" []) (HWriteHeader 103 (HWriteHeader 404 (HWrite "x" (fun _ => HReturn))))) = (demo_http 103 1, 404, "x", true).
Proof. vm_compute. reflexivity. Qed.
Print Assumptions C53_late_header_refuted.
Print Assumptions C53_header_after_flush_refuted.
Print Assumptions C53_informational_refuted.

(** ** Search requests *)
Section Handler.
Context {RE : Type}.
Variable Compile : string -> RE + string.
Variable MatchString : RE -> string -> bool.
Variable float_part : Z -> Z -> Z -> Z.
Notation handleSearch := (handleSearch Compile float_part).

(** the request an input asks for *)
Definition asks (inp : input) (req : SearchRequest RE) : Prop :=
  match inp with IQuery raw => req = search_request float_part raw | IJSON d => d = inl req end.

Definition category_problem (stats : SearchStats) : list string :=
  if 100 <=? zlen (Categories stats) then ["way too many categories (" ++ itoa (zlen (Categories stats)) ++ ")"]%string else [].

(** C57.  A searcher that answers: its answer is rendered, with the problems of the request
    and of the response. *)
Theorem C57_answer_is_rendered :
  forall Search inp req reqn errs req' resp stats,
    asks inp req -> Normalize Compile req = Ok (reqn, errs) ->
    Search reqn = Ok (req', inl resp) -> resp_Stats resp = Some stats ->
    handleSearch Search inp =
      Ok (ORendered (MkData req' resp (errs ++ map (fun p => "response: " ++ p)%string (resp_Problems resp) ++ category_problem stats))).
Proof.
  intros Search inp req reqn errs req' resp stats Ha HN HS Hst. unfold M_Web.handleSearch.
  assert (E : match inp with IJSON (inr err) => inr err | IJSON (inl req0) => inl req0 | IQuery raw => inl (search_request float_part raw) end = inl req).
  { destruct inp as [raw|d]; cbn in Ha; subst; reflexivity. }
  rewrite E, HN. cbn [bind]. rewrite HS. cbn [bind]. rewrite Hst. cbn [bind]. unfold category_problem.
  destruct (100 <=? zlen (Categories stats)); rewrite <- ?app_assoc, ?app_nil_r; reflexivity.
Qed.

(** A request that cannot be decoded is rejected without asking the searcher. *)
Theorem C57_bad_request :
  forall Search err, handleSearch Search (IJSON (inr err)) = Ok (OBadRequest err).
Proof. reflexivity. Qed.

(** C57, finding: for a searcher that returns an error the handler panics, every time. *)
Theorem C57_searcher_error_panics :
  forall Search inp req reqn errs req' err,
    asks inp req -> Normalize Compile req = Ok (reqn, errs) -> Search reqn = Ok (req', inr err) ->
    handleSearch Search inp = Panic.
Proof.
  intros Search inp req reqn errs req' err Ha HN HS. unfold M_Web.handleSearch.
  assert (E : match inp with IJSON (inr err) => inr err | IJSON (inl req0) => inl req0 | IQuery raw => inl (search_request float_part raw) end = inl req).
  { destruct inp as [raw|d]; cbn in Ha; subst; reflexivity. }
  rewrite E, HN. cbn [bind]. rewrite HS. reflexivity.
Qed.

(** With a collector behind it the handler never panics: it renders what the collector finds
    for the request. *)
Definition collector_searcher {T} (view : T -> StaticTrace) sort order source (s : rbs T) (req : SearchRequest RE)
  : res (SearchRequest RE * (SearchResponse + string)) :=
  '(req, resp) <- Search Compile MatchString view sort order source s req ;; Ok (req, inl resp).
Theorem C57_collector_answers :
  forall (T : Type) (zero : T) (view : T -> StaticTrace) sort order source ops s freed inp req,
    Forall valid_op ops -> coll_run zero new_collector_storage ops = Ok (s, freed) -> is_order order ->
    asks inp req ->
    exists reqn errs req' resp problems,
      Normalize Compile req = Ok (reqn, errs) /\
      Search Compile MatchString view sort order source s reqn = Ok (req', resp) /\
      handleSearch (collector_searcher view sort order source s) inp = Ok (ORendered (MkData req' resp problems)) /\
      forall e, In e errs -> In e problems.
Proof.
  intros T zero view sort order source ops s freed inp req Hops Hrun Hord Ha.
  destruct (Normalize Compile req) as [[reqn errs]|] eqn:HN; [|rewrite Normalize_spec in HN; discriminate].
  destruct (Search_spec Compile MatchString zero view sort order source ops s freed reqn _ Hops Hrun Hord (fun t => eq_refl)) as
      (req' & resp & names & stats & E & _ & _ & Hst & _).
  exists reqn, errs, req', resp. eexists. split; [reflexivity|]. split; [exact E|]. split.
  - eapply C57_answer_is_rendered; [exact Ha|exact HN| |exact Hst]. unfold collector_searcher. rewrite E. reflexivity.
  - intros e He. apply in_or_app. left. exact He.
Qed.
End Handler.
Print Assumptions C57_answer_is_rendered.
Print Assumptions C57_bad_request.
Print Assumptions C57_searcher_error_panics.
Print Assumptions C57_collector_answers.

Definition demo_answer : SearchResponse := MkResp ["s"] 1 1 [demo_static] (Some (NewSearchStats [0])) ["late"].
Example C57_instance :
  handleSearch demo_compile exact_part (fun req => Ok (req, inl demo_answer)) (IQuery "q=%28&n=3") =
    Ok (ORendered (MkData (MkReq DefaultBucketing no_filter 3 0) demo_answer ["filter: query: invalid, ignoring (missing ))"; "response: late"])) /\
  handleSearch demo_compile exact_part (fun req => Ok (req, inr "connection refused")) (IQuery "") = Panic.
Proof. split; vm_compute; reflexivity. Qed.

(** ** Rendered events *)
Fixpoint deltas (l : list renderEvent) : Z := match l with [] => 0 | r :: l => re_Delta r + deltas l end.
Lemma deltas_app l1 l2 : deltas (l1 ++ l2) = deltas l1 + deltas l2.
Proof. induction l1 as [|r l1 IH]; [reflexivity|]. cbn [app deltas]. rewrite IH. lia. Qed.

(** The row of the i-th event, given the time of the row before. *)
Fixpoint rows (started i prev : Z) (evs : list Event) : list renderEvent :=
  match evs with
  | [] => []
  | ev :: evs => MkRE false false i (When ev) (When ev - prev) (When ev - started) (What ev) (IsError ev) (Stack ev) :: rows started (i + 1) (When ev) evs
  end.
Fixpoint last_when (prev : Z) (evs : list Event) : Z := match evs with [] => prev | ev :: evs => last_when (When ev) evs end.
Lemma render_loop_rows started evs : forall i prev acc,
  render_loop started i prev evs acc = (acc ++ rows started i prev evs, last_when prev evs).
Proof.
  induction evs as [|ev evs IH]; intros i prev acc; cbn [render_loop rows last_when]; [rewrite app_nil_r; reflexivity|].
  rewrite IH, <- app_assoc. reflexivity.
Qed.
Lemma rows_deltas started evs : forall i prev, deltas (rows started i prev evs) = last_when prev evs - prev.
Proof.
  induction evs as [|ev evs IH]; intros i prev; [cbn; lia|]. cbn [rows last_when].
  change (deltas (?x :: ?l)) with (re_Delta x + deltas l). rewrite IH. cbn [re_Delta]. lia.
Qed.
Lemma rows_firstn started n : forall evs i prev, firstn n (rows started i prev evs) = rows started i prev (firstn n evs).
Proof. induction n as [|n IH]; intros [|ev evs] i prev; cbn; try reflexivity. rewrite IH. reflexivity. Qed.
Lemma rows_length started evs : forall i prev, length (rows started i prev evs) = length evs.
Proof. induction evs as [|ev evs IH]; intros; cbn; [|rewrite IH]; reflexivity. Qed.
Lemma rows_nth started evs : forall k i prev ev, nth_error evs k = Some ev ->
  exists d, nth_error (rows started i prev evs) k = Some (MkRE false false (i + Z.of_nat k) (When ev) d (When ev - started) (What ev) (IsError ev) (Stack ev)).
Proof.
  induction evs as [|e evs IH]; intros [|k] i prev ev H; try discriminate.
  - injection H as ->. eexists. cbn. rewrite Z.add_0_r. reflexivity.
  - destruct (IH k (i + 1) (When e) ev H) as (d & E). exists d. cbn [rows nth_error]. rewrite E. do 2 f_equal. lia.
Qed.
Lemma last_when_firstn evs : forall k prev ev, nth_error evs k = Some ev -> last_when prev (firstn (S k) evs) = When ev.
Proof.
  induction evs as [|e evs IH]; intros [|k] prev ev H; try discriminate.
  - injection H as ->. reflexivity.
  - cbn [nth_error] in H. change (firstn (S (S k)) (e :: evs)) with (e :: firstn (S k) evs). cbn [last_when]. apply IH. exact H.
Qed.
Lemma renderEvents_eq st : exists d,
  renderEvents st = MkRE true false (-1) (TraceStarted st) 0 0 "start" false [] :: rows (TraceStarted st) 0 (TraceStarted st) (TraceEvents st) ++
    [MkRE false true (zlen (TraceEvents st)) (TraceStarted st + TraceDuration st) d (TraceDuration st) (if TraceFinished st then "finished" else "active...") false []] /\
  d = TraceStarted st + TraceDuration st - last_when (TraceStarted st) (TraceEvents st).
Proof. eexists. unfold renderEvents. rewrite render_loop_rows. split; reflexivity. Qed.

(** C58.  The rows: one start row, one row for each event, in order, one end row... *)
Theorem C58_rows :
  forall st, exists start middle last,
    renderEvents st = start :: middle ++ [last] /\
    re_IsStart start = true /\ re_When start = TraceStarted st /\
    re_IsEnd last = true /\ re_When last = TraceStarted st + TraceDuration st /\
    re_What last = (if TraceFinished st then "finished" else "active...") /\
    (forall row, In row middle -> re_IsStart row = false /\ re_IsEnd row = false) /\
    map (fun row => MkEvent (re_When row) (re_What row) (re_Stack row) (re_IsError row)) middle = TraceEvents st /\
    (forall k row, nth_error middle k = Some row -> re_Index row = Z.of_nat k).
Proof.
  intros st. destruct (renderEvents_eq st) as (d & E & _). do 3 eexists. split; [exact E|]. repeat (split; [reflexivity|]). split; [|split].
  - assert (G : forall t0 evs i p row, In row (rows t0 i p evs) -> re_IsStart row = false /\ re_IsEnd row = false).
    { intros t0. induction evs as [|ev evs IH]; intros i p row H; [destruct H|]. destruct H as [<-|H]; [split; reflexivity|eapply IH; exact H]. }
    intros row. apply G.
  - assert (G : forall t0 evs i p, map (fun row => MkEvent (re_When row) (re_What row) (re_Stack row) (re_IsError row)) (rows t0 i p evs) = evs).
    { intros t0. induction evs as [|[? ? ? ?] evs IH]; intros i p; [reflexivity|]. cbn [rows map]. rewrite IH. reflexivity. }
    apply G.
  - intros k row H. destruct (nth_error (TraceEvents st) k) as [ev|] eqn:Ev.
    + destruct (rows_nth (TraceStarted st) _ _ 0 (TraceStarted st) _ Ev) as (d' & E'). rewrite E' in H. injection H as <-. cbn. lia.
    + apply nth_error_None in Ev. assert (nth_error (rows (TraceStarted st) 0 (TraceStarted st) (TraceEvents st)) k = None) as Hn
        by (apply nth_error_None; rewrite rows_length; exact Ev). congruence.
Qed.
Print Assumptions C58_rows.

(** ... whose deltas add up: up to each row to its offset, over all of them to the duration. *)
Theorem C58_deltas_add_up :
  forall st,
    (forall k row, nth_error (renderEvents st) k = Some row ->
       deltas (firstn (S k) (renderEvents st)) = re_Cumulative row /\ re_Cumulative row = re_When row - TraceStarted st) /\
    deltas (renderEvents st) = TraceDuration st.
Proof.
  intros st. destruct (renderEvents_eq st) as (d & E & Ed). rewrite E.
  set (t0 := TraceStarted st) in *. set (evs := TraceEvents st) in *. split.
  - intros [|k] row H; [injection H as <-; cbn; lia|]. cbn [nth_error] in H.
    change (firstn (S (S k)) (?x :: ?l)) with (x :: firstn (S k) l).
    destruct (Nat.lt_ge_cases k (length evs)) as [Hk|Hk].
    + rewrite nth_error_app1 in H by (rewrite rows_length; exact Hk).
      destruct (nth_error evs k) as [ev|] eqn:Ev; [|apply nth_error_None in Ev; lia].
      destruct (rows_nth t0 _ _ 0 t0 _ Ev) as (d' & E'). rewrite E' in H. injection H as <-. cbn [re_Cumulative re_When]. split; [|reflexivity].
      change (deltas (?x :: ?l)) with (re_Delta x + deltas l). cbn [re_Delta].
      rewrite firstn_app, rows_length. replace (S k - length evs)%nat with O by lia. rewrite firstn_O, app_nil_r, rows_firstn, rows_deltas.
      rewrite (last_when_firstn _ _ _ _ Ev). lia.
    + rewrite nth_error_app2 in H by (rewrite rows_length; exact Hk). rewrite rows_length in H.
      destruct (k - length evs)%nat as [|j] eqn:Ej; [|destruct j; discriminate H]. injection H as <-. cbn [re_Cumulative re_When]. split; [|lia].
      rewrite firstn_all2 by (cbn [length]; rewrite ?app_length, rows_length; cbn; lia).
      change (deltas (?x :: ?l)) with (re_Delta x + deltas l). cbn [re_Delta]. rewrite deltas_app, rows_deltas. cbn [deltas re_Delta]. lia.
  - change (deltas (?x :: ?l)) with (re_Delta x + deltas l). cbn [re_Delta]. rewrite deltas_app, rows_deltas. cbn [deltas re_Delta]. lia.
Qed.
Print Assumptions C58_deltas_add_up.

Example C58_instance :
  map (fun r => (re_Index r, re_Delta r, re_Cumulative r, re_What r))
      (renderEvents (MkStatic "s" "i" "c" 100 50 "" true false [MkEvent 110 "a" [] false; MkEvent 130 "b" [] true])) =
    [(-1, 0, 0, "start"); (0, 10, 10, "a"); (1, 20, 30, "b"); (2, 20, 50, "finished")].
Proof. vm_compute. reflexivity. Qed.

(** ** Content negotiation *)
(** The Accept header lists a media type: one of its comma-separated parts is parsed as it. *)
Definition lists (ParseMediaType : string -> option string) (accept media : string) : Prop :=
  exists part, In part (split_on "," accept) /\ ParseMediaType part = Some media.
Lemma accepts_lists P accept media : requestExplicitlyAccepts P accept media = true <-> lists P accept media.
Proof.
  unfold requestExplicitlyAccepts, parseAcceptMediaTypes, lists. rewrite existsb_exists.
  assert (G : forall l m, In m (media_types P l) <-> exists part, In part l /\ P part = Some m).
  { induction l as [|a l IH]; intros m; [split; [intros []|intros (? & [] & _)]|]. cbn [media_types]. split.
    - destruct (P a) as [m'|] eqn:E; [intros [<-|H]|intros H].
      + exists a. split; [left; reflexivity|exact E].
      + apply IH in H as (q & H1 & H2). exists q. split; [right; exact H1|exact H2].
      + apply IH in H as (q & H1 & H2). exists q. split; [right; exact H1|exact H2].
    - intros (q & [<-|H1] & H2); [rewrite H2; left; reflexivity|]. destruct (P a); [right|]; apply IH; exists q; split; assumption. }
  split.
  - intros (x & Hx & He). apply String.eqb_eq in He. subst x. apply G. exact Hx.
  - intros H. exists media. split; [apply G; exact H|apply String.eqb_refl].
Qed.

Theorem C59_content_negotiation :
  forall (ParseMediaType : string -> option string) (accept raw : string),
    let json_asked := vHas (Query_of raw) "json" = true in
    (ServeHTTP ParseMediaType accept raw = RStream <-> lists ParseMediaType accept "text/event-stream") /\
    (ServeHTTP ParseMediaType accept raw = RHTML <->
       ~ lists ParseMediaType accept "text/event-stream" /\ lists ParseMediaType accept "text/html" /\ ~ json_asked) /\
    (ServeHTTP ParseMediaType accept raw = RJSON <->
       ~ lists ParseMediaType accept "text/event-stream" /\ (~ lists ParseMediaType accept "text/html" \/ json_asked)).
Proof.
  intros P accept raw json_asked. rewrite <- !accepts_lists. subst json_asked. unfold ServeHTTP, Categorize, renderResponse.
  destruct (requestExplicitlyAccepts P accept "text/event-stream"), (requestExplicitlyAccepts P accept "text/html"),
           (requestExplicitlyAccepts P accept "application/json"), (vHas (Query_of raw) "json"); cbn; intuition congruence.
Qed.
Print Assumptions C59_content_negotiation.

Example C59_instance :
  let P s := if String.eqb s "bad" then None else Some s in
  ServeHTTP P "bad,text/html,application/json" "n=1" = RHTML /\ ServeHTTP P "text/html" "json" = RJSON /\
  ServeHTTP P "text/html,text/event-stream" "json" = RStream /\ ServeHTTP P "*/*" "" = RJSON.
Proof. repeat split; vm_compute; reflexivity. Qed.

(** ** The command line tool *)
(** The conditions of the flags other than --active and --finished. *)
Definition other_conditions {RE} (Compile : string -> RE + string) (MatchString : RE -> string -> bool) (fl : flags) (tr : StaticTrace) : Prop :=
  (flag_sources fl <> [] -> In (TraceSource tr) (flag_sources fl)) /\
  (flag_ids fl <> [] -> In (TraceID tr) (flag_ids fl)) /\
  (flag_category fl <> "" -> TraceCategory tr = flag_category fl) /\
  (forall d, flag_duration fl = Some d -> TraceFinished tr = true /\ d <= TraceDuration tr) /\
  (flag_success fl = true -> TraceErrored tr = false) /\
  (flag_errored fl = true -> TraceErrored tr = true) /\
  query_condition Compile MatchString (flag_query fl) tr.

(** C64.  What trc stream forwards: without --events the finished traces that meet the other
    conditions, with --events all traces that meet them, whatever --active and --finished say. *)
Theorem C64_stream_filter :
  forall (RE : Type) (Compile : string -> RE + string) (MatchString : RE -> string -> bool) (fl : flags) (events : bool) (tr : StaticTrace),
    snd (Allow Compile MatchString (stream_filter fl events) tr) = true <->
    (events = false -> TraceFinished tr = true) /\ other_conditions Compile MatchString fl tr.
Proof.
  intros RE C M fl events tr. rewrite Allow_unused by (destruct events; reflexivity).
  unfold accepts, field_conditions, other_conditions, stream_filter.
  destruct events; cbn [Sources IDs FCategory IsActive IsFinished MinDuration IsSuccess IsErrored Query cli_filter]; intuition congruence.
Qed.
Print Assumptions C64_stream_filter.

(** trc search passes all flags on. *)
Theorem C64_search_filter :
  forall (RE : Type) (Compile : string -> RE + string) (MatchString : RE -> string -> bool) (fl : flags) limit depth (tr : StaticTrace),
    snd (Allow Compile MatchString (req_Filter (cli_search_request fl limit depth)) tr) = true <->
    (flag_active fl = true -> TraceFinished tr = false) /\ (flag_finished fl = true -> TraceFinished tr = true) /\
    other_conditions Compile MatchString fl tr.
Proof.
  intros RE C M fl limit depth tr. rewrite Allow_unused by reflexivity.
  unfold accepts, field_conditions, other_conditions, cli_search_request. cbn [req_Filter Sources IDs FCategory IsActive IsFinished MinDuration IsSuccess IsErrored Query cli_filter].
  intuition congruence.
Qed.
Print Assumptions C64_search_filter.

(** Finding: trc stream --events --duration forwards nothing of a trace that is still running,
    however long it has run already. *)
Theorem C64_duration_needs_finished_refuted :
  forall (RE : Type) (Compile : string -> RE + string) (MatchString : RE -> string -> bool) (fl : flags) (d : Z) (tr : StaticTrace),
    flag_duration fl = Some d -> TraceFinished tr = false ->
    snd (Allow Compile MatchString (stream_filter fl true) tr) = false.
Proof.
  intros RE C M fl d tr Hd Hf. destruct (snd (Allow C M (stream_filter fl true) tr)) eqn:E; [|reflexivity].
  apply C64_stream_filter in E as (_ & _ & _ & _ & H & _). destruct (H d Hd) as [H' _]. congruence.
Qed.
Print Assumptions C64_duration_needs_finished_refuted.

Example C64_duration_instance :
  let fl := MkFlags [] [] "" false false (Some 5) false false "" in
  let tr fin := MkStatic "s" "i" "c" 1 (10 ^ 9) "" fin false [] in
  let ok t := snd (Allow demo_compile demo_match (stream_filter fl true) t) in
  flag_duration fl = Some 5 /\ TraceFinished (tr false) = false /\ (ok (tr true), ok (tr false)) = (true, false).
Proof. repeat split. Qed.

Example C64_instance :
  let fl := MkFlags ["s"] [] "" true false None false false "" in
  let tr fin := MkStatic "s" "i" "c" 1 2 "" fin false [] in
  let ok events t := snd (Allow demo_compile demo_match (stream_filter fl events) t) in
  (ok false (tr true), ok false (tr false), ok true (tr true), ok true (tr false)) = (true, false, true, true).
Proof. vm_compute. reflexivity. Qed.

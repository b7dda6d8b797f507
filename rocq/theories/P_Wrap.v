(** C118: what the middleware changes for a handler and its client. *)
From Verif Require Import Go M_Strings M_Types M_Humanize M_Text S_Trace M_Web M_Wrap S_Wrap.
Open Scope string_scope.
Open Scope list_scope.
Open Scope Z_scope.

Section Wrap.
Context {arg : Type}.
Variable str : string -> arg.
Variable num : Z -> arg.
Variable HumanizeBytes : Z -> string.
Notation wMiddleware := (wMiddleware str num HumanizeBytes).
Notation whandler := (whandler arg).

Lemma wserve_calls {S} (w : writer S) (h : whandler) : forall s calls,
  wserve w h s calls = (let '(s', own, out) := wserve w h s [] in (s', calls ++ own, out)).
Proof.
  induction h as [|v|c k IH|key val k IH|code k IH|p k IH|i k IH|i a k IH]; intros s calls; cbn [wserve].
  - rewrite app_nil_r. reflexivity.
  - rewrite app_nil_r. reflexivity.
  - cbn [app]. rewrite (IH s (calls ++ [c])), (IH s [c]). destruct (wserve w k s []) as [[s' own] out]. rewrite <- app_assoc. reflexivity.
  - apply IH.
  - destruct (wr_WriteHeader w s code) as [s' []]; [apply IH|rewrite app_nil_r; reflexivity].
  - destruct (wr_Write w s p) as [s' r]. apply IH.
  - apply IH.
  - destruct (wr_optional w i) as [f|]; [|rewrite app_nil_r; reflexivity]. destruct (f s a) as [s' r]. apply IH.
Qed.

Lemma offers_wrap {S} (w : writer S) i : offers (wrap w) i = true <-> i = Flusher.
Proof. destruct i; cbn; split; (discriminate || reflexivity). Qed.

Lemma wserve_wrap {S} (w : writer S) (h : whandler) : uses_only (flusher_only w) h -> forall s code n,
  exists code' n', wserve (wrap w) h (MkI s code n) [] = (let '(s', own, out) := wserve w h s [] in (MkI s' code' n', own, out)).
Proof.
  assert (T : forall (f : list (call arg) -> list (call arg)) (x : S * list (call arg) * outcome) code' n' y,
    y = (let '(s', own, out) := x in (MkI s' code' n', own, out)) -> (let '(i, own, out) := y in (i, f own, out)) = (let '(s', own, out) := (let '(s', own, out) := x in (s', f own, out)) in (MkI s' code' n', own, out))).
  { intros f [[s' own] out] code' n' y ->. reflexivity. }
  induction h as [|v|c k IH|key val k IH|code k IH|p k IH|i k IH|i a k IH]; cbn [uses_only]; intros HU s co n; cbn [wserve].
  - exists co, n. reflexivity.
  - exists co, n. reflexivity.
  - destruct (IH HU s co n) as (co' & n' & E). exists co', n'. cbn [app]. rewrite (wserve_calls (wrap w) k), (wserve_calls w k s [c]). apply (T (fun own => [c] ++ own) _ co' n' _ E).
  - cbn [wrap wr_SetHeader i_w i_code i_n]. apply IH, HU.
  - cbn [wrap wr_WriteHeader i_code i_w i_n]. destruct (co =? 0); cbn [i_w i_code i_n]; destruct (wr_WriteHeader w s code) as [s' []]; try (apply IH, HU); eexists _, _; reflexivity.
  - cbn [wrap wr_Write i_w]. destruct (wr_Write w s p) as [s' r]. apply IH, HU.
  - destruct HU as [Hi HU]. assert (E : offers (wrap w) i = offers w i).
    { apply Bool.eq_true_iff_eq. rewrite offers_wrap. symmetry. exact Hi. }
    rewrite E. apply IH, HU.
  - destruct HU as [Hi HU]. destruct (iface_eq i Flusher) as [->|Hne].
    + assert (Hf : offers w Flusher = true) by (apply Hi; reflexivity). unfold offers in Hf. cbn [wrap wr_optional]. destruct (wr_optional w Flusher) as [f|]; [|discriminate].
      cbn [i_w]. destruct (f s a) as [s' r]. apply IH, HU.
    + assert (Hf : wr_optional w i = None). { destruct (wr_optional w i) eqn:Ei; [|reflexivity]. exfalso. apply Hne, Hi. unfold offers. rewrite Ei. reflexivity. }
      assert (Hg : wr_optional (wrap w) i = None) by (destruct i; (contradiction || reflexivity)). rewrite Hf, Hg. exists co, n. reflexivity.
Qed.

(** Behind the middleware, a handler does to the writer what it does without it, logs the same events, and returns
    or panics with the same value, if the only interface it looks for, of those the writer has, is http.Flusher;
    the middleware's own events come before and after. *)
Theorem C118_transparent :
  forall (S : Type) (w : writer S) r (h : whandler) took s, uses_only (flusher_only w) h ->
    let '(s', own, out) := wserve w h s [] in
    exists before status, wMiddleware r w h took s = (s', before ++ own ++ [status; CallFinish], out).
Proof.
  intros S w r h took s HU. destruct (wserve_wrap w h HU s 0 0) as (code' & n' & E). unfold M_Wrap.wMiddleware, newInterceptor. rewrite (wserve_calls (wrap w)), E.
  destruct (wserve w h s []) as [[s' own] out]. cbn [i_w].
  set (b := _ ++ header_calls str r _). clearbody b. exists b. eexists. rewrite <- !app_assoc. reflexivity.
Qed.

(** Behind it, a writer is an http.Flusher and nothing else, whatever it was: so a second middleware
    inside the first changes nothing more, for any handler. *)
Theorem C118_offers :
  forall (S : Type) (w : writer S),
    (forall i, offers (wrap w) i = true <-> i = Flusher) /\
    forall r (h : whandler) took s,
      let '(i, own, out) := wserve (wrap w) h (newInterceptor s) [] in
      exists before status, wMiddleware r (wrap w) h took (newInterceptor s) = (i, before ++ own ++ [status; CallFinish], out).
Proof.
  intros S w. split; [apply offers_wrap|]. intros r h took s. apply C118_transparent.
  induction h as [|v|c k IH|key val k IH|code k IH|p k IH|i k IH|i a k IH]; cbn [uses_only]; try exact Logic.I; try assumption; split; try assumption; apply offers_wrap.
Qed.

(** Finding: whatever else the writer offers is hidden: a handler that needs it answers 500 behind the
    middleware, while without the middleware it goes on. *)
Theorem C118_hidden_refuted :
  forall (S : Type) (w : writer S) i f, wr_optional w i = Some f -> i <> Flusher ->
  forall r a k took s,
    wserve w (needs i a k) s [] = (let '(s', res) := f s a in wserve w (k res) s' (arg := arg) []) /\
    let '(s', _, out) := wMiddleware r w (needs i a k) took s in
    s' = fst (wr_WriteHeader w s 500) /\ (snd (wr_WriteHeader w s 500) = true -> out = Returned).
Proof.
  intros S w i f Hf Hi r a k took s. split; [unfold needs; cbn [wserve]; unfold offers; rewrite Hf; cbn [wserve]; rewrite Hf; reflexivity|].
  unfold M_Wrap.wMiddleware, needs, newInterceptor. cbn [wserve]. assert (E : offers (wrap w) i = false) by (destruct i; (contradiction || reflexivity)). rewrite E. cbn [wserve].
  cbn [wrap wr_WriteHeader i_code i_w i_n Z.eqb]. destruct (wr_WriteHeader w s 500) as [s' []]; cbn [wserve i_w fst snd]; (split; [reflexivity|]); [reflexivity|discriminate].
Qed.

(** Finding: a writer that cannot flush looks as if it could, and flushing does nothing: a handler that would
    have done something else without it is misled. *)
Theorem C118_flush_refuted :
  forall (S : Type) (w : writer S), wr_optional w Flusher = None ->
  forall r (k : string -> whandler) k' took s calls,
    let h := WAsk Flusher (fun ok => if ok then WCall Flusher "" k else k') in
    wserve w h s calls = wserve w k' s calls /\ wMiddleware r w h took s = wMiddleware r w (k "") took s.
Proof.
  intros S w Hw r k k' took s calls h. split.
  - unfold h. cbn [wserve]. unfold offers. rewrite Hw. reflexivity.
  - unfold h, M_Wrap.wMiddleware, newInterceptor. cbn [wserve offers wrap wr_optional]. rewrite Hw. reflexivity.
Qed.
End Wrap.
Print Assumptions C118_transparent.
Print Assumptions C118_offers.
Print Assumptions C118_hidden_refuted.
Print Assumptions C118_flush_refuted.

(** net/http's response as such a writer: it can flush and be hijacked *)
Definition net_writer : writer response :=
  MkWriter (fun s _ _ => s)
    (fun s code => match http_WriteHeader s code with Some s => (s, true) | None => (s, false) end)
    http_Write
    (fun i => match i with
              | Flusher => Some (fun s _ => (http_Flush s, ""))
              | Hijacker => Some (fun s _ => (MkResponse (Some 101) (p_info s) (p_body s), "connection"))
              | _ => None end).

(** This model of the middleware and that of C52 agree, for the handlers of C52. *)
Theorem C118_same_as_C52 :
  forall (arg : Type) str num HumanizeBytes r (h : handler arg) took (s : response),
    let '(calls, s', returned) := Middleware str num HumanizeBytes http_WriteHeader http_Write http_Flush r s h took in
    exists out, wMiddleware str num HumanizeBytes r net_writer (plain h) took s = (s', calls, out) /\ (returned = true <-> out = Returned).
Proof.
  intros arg str num HB r h took s. unfold Middleware, wMiddleware.
  assert (G : forall (h : handler arg) i calls, let '(i', calls', returned) := serve http_WriteHeader http_Write http_Flush h i calls in
            exists out, wserve (wrap net_writer) (plain h) i calls = (i', calls', out) /\ (returned = true <-> out = Returned)).
  { clear. induction h as [| |c k IH|code k IH|p k IH|k IH]; intros [s co n] calls; cbn [serve plain wserve].
    - exists Returned. split; [reflexivity|tauto].
    - exists (Panicked ""). split; [reflexivity|]. split; discriminate.
    - apply IH.
    - unfold i_WriteHeader. cbn [wrap wr_WriteHeader net_writer i_code i_w i_n].
      destruct (co =? 0); cbn [i_w i_code i_n]; destruct (http_WriteHeader s code) as [s'|]; try apply IH; (eexists; split; [reflexivity|split; discriminate]).
    - unfold i_Write. cbn [wrap wr_Write net_writer i_w]. destruct (http_Write s p) as [s' x]. cbn [i_code i_n]. apply IH.
    - cbn [wrap wr_optional net_writer i_w i_code i_n]. apply IH. }
  specialize (G h (newInterceptor s) ([CallLog KLazyTracef "%s %s %s" [str (r_RemoteAddr r); str (r_Method r); str (r_URL r)]] ++ header_calls str r ["User-Agent"; "Accept"; "Content-Type"])).
  destruct (serve _ _ _ _ _ _) as [[i calls] returned]. destruct G as (out & -> & Ho). exists out. split; [|exact Ho]. reflexivity.
Qed.
Print Assumptions C118_same_as_C52.

(** A handler that upgrades a connection, or answers 500: the client gets 101 without the middleware, and 500 behind it;
    one that flushes between two writes gives the same answer. *)
Example C118_instance :
  let upgrade := needs (arg := string) Hijacker "" (fun _ => WReturn) in
  let slow := WWrite "a" (fun _ => WAsk Flusher (fun ok => if ok then WCall Flusher "" (fun _ => WWrite "b" (fun _ => WReturn)) else WReturn)) : whandler string in
  let r := MkRequest "1.2.3.4:5" "GET" "/" (fun _ => "") in
  p_status (fst (fst (wserve net_writer upgrade new_response []))) = Some 101 /\
  p_status (fst (fst (wMiddleware id itoa itoa r net_writer upgrade "1ms" new_response))) = Some 500 /\
  uses_only (flusher_only net_writer) slow /\
  fst (fst (wMiddleware id itoa itoa r net_writer slow "1ms" new_response)) = MkResponse (Some 200) [] "ab".
Proof.
  cbn zeta. split; [reflexivity|]. split; [reflexivity|]. split; [|reflexivity].
  assert (F : flusher_only net_writer Flusher) by (split; reflexivity). cbn. intros _. split; [exact F|]. intros []; cbn; [|exact Logic.I]. split; [exact F|]. intros _ _. exact Logic.I.
Qed.

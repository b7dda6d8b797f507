(** C113: what the trace of a request shows in the end, however much its handler logged. *)
From Verif Require Import Go M_Strings M_Types M_Frame M_Trace S_Trace S_TraceView L_Trace P_Trace M_Web S_Web S_Request P_Web.
From Coq Require Import ZifyBool.
Open Scope string_scope.
Open Scope list_scope.
Open Scope Z_scope.

Section Request.
Context {arg W World PC : Type}.
Variable str : string -> arg.
Variable num : Z -> arg.
Variable HumanizeBytes : Z -> string.
Variable w_WriteHeader : W -> Z -> option W.
Variable w_Write : W -> string -> W * (Z * option string).
Variable w_Flush : W -> W.
Variable Sprintf : World -> string -> list arg -> string.
Variable CallersFrames : list PC -> list rframe.
Notation Middleware := (Middleware str num HumanizeBytes w_WriteHeader w_Write w_Flush).
Notation direct := (direct w_WriteHeader w_Write w_Flush).
Notation env := (env arg World PC).
Notation request_line := (request_line str).
Notation header_lines := (header_lines str).
Notation status_line := (status_line str num HumanizeBytes).
Notation text := (text Sprintf).

Lemma logs_only (h : list (env * call arg)) x e : Forall (fun c => is_line (snd c) = true) h -> logs (h ++ [(e, CallFinish)] ++ x) = h.
Proof.
  unfold logs. induction 1 as [|[e0 c] h Hc _ IH]; [reflexivity|]. destruct c; try discriminate. cbn [app before_finish is_finish snd filter is_log]. f_equal. exact IH.
Qed.
Lemma Forall_combine_r {A B} (P : B -> Prop) (l : list A) (l' : list B) : Forall P l' -> Forall (fun x => P (snd x)) (combine l l').
Proof. intros H. revert l. induction H as [|y l' Hy _ IH]; intros [|x l]; constructor; [exact Hy|apply IH]. Qed.
Lemma What_rendered e nostack l : Forall (fun c => is_line (snd c) = true) l ->
  map What (map (rendered Sprintf CallersFrames e nostack) l) = map (text e) l.
Proof. intros H. rewrite map_map. apply map_ext_in. intros [e0 c] Hc. rewrite Forall_forall in H. specialize (H _ Hc). destruct c; [reflexivity|discriminate..]. Qed.
Lemma combine_app {A B} (a b : list A) (a' b' : list B) : length a = length a' -> combine (a ++ b) (a' ++ b') = combine a a' ++ combine b b'.
Proof. revert a'. induction a as [|x a IH]; intros [|y a']; try discriminate; [reflexivity|]. intros H. injection H as H. cbn [app combine]. f_equal. apply IH, H. Qed.

Lemma request_trace :
  forall (r : request) (w : W) (h : handler arg) (took : string) w' said ops ret
         g start id (pooled : coreTrace arg PC) source category (e : env)
         (e_first : env) (e_headers e_said : list env) (e_status e_finish : env),
    direct h w w' said ops ret -> Forall (fun c => is_line c = true) said ->
    length e_headers = length (header_lines r) -> length e_said = length said ->
    1 <= g_maxEvents g ->
    let M := Z.to_nat (g_maxEvents g) in
    let calls := fst (fst (Middleware r w h took)) in
    let times := e_first :: e_headers ++ e_said ++ [e_status; e_finish] in
    let shown := map What (snd (Events Sprintf CallersFrames e (run Sprintf CallersFrames (combine times calls) (newCoreTrace g start id pooled source category)))) in
    let between := combine e_headers (header_lines r) ++ combine e_said said in
    ((2 + length between <= M)%nat ->
       shown = text e (e_first, request_line r) :: map (text e) between ++ [text e (e_status, status_line ops took)]) /\
    ((M < 2 + length between)%nat ->
       shown = map (text e) (firstn (M - 1) between) ++ ["(truncated event count " ++ itoa (2 + zlen between - g_maxEvents g) ++ ")"]%string).
Proof.
  intros r w h took w' said ops ret g start id pooled source category e e0 eh es e1 ef Hd Hs Lh Ls HM M calls times shown between.
  assert (HC : combine times calls = ((e0, request_line r) :: between ++ [(e1, status_line ops took)]) ++ [(ef, CallFinish)] ++ []).
  { unfold calls, times. rewrite (C52_middleware_records str num HumanizeBytes w_WriteHeader w_Write w_Flush r w h took w' said ops ret Hd). cbn [fst].
    fold (request_line r) (status_line ops took). change (map (fun name => CallLog KLazyTracef "%s: %s" [str name; str (r_Header r name)]) (present r)) with (header_lines r).
    cbn [combine app]. f_equal. unfold between. rewrite combine_app by exact Lh. rewrite combine_app by exact Ls. cbn [combine]. rewrite <- !app_assoc. reflexivity. }
  set (L := (e0, request_line r) :: between ++ [(e1, status_line ops took)]) in *.
  assert (HL : Forall (fun c => is_line (snd c) = true) L).
  { unfold L. constructor; [reflexivity|]. apply Forall_app. split; [|repeat constructor]. unfold between. apply Forall_app.
    split; apply (Forall_combine_r (fun c : call arg => is_line c = true)); [|exact Hs]. unfold header_lines. apply Forall_map, Forall_forall. reflexivity. }
  assert (Hlen : length L = (2 + length between)%nat) by (unfold L; cbn [length]; rewrite app_length; cbn [length]; lia).
  assert (Hn : forall P : env * call arg -> bool, (forall x c, is_line c = true -> P (x, c) = false) -> P (ef, CallFinish) = false ->
             Forall (fun c => P c = false) (L ++ [(ef, CallFinish)] ++ [])).
  { intros P H1 H2. apply Forall_app. split; [|repeat constructor; exact H2]. eapply Forall_impl; [|exact HL]. intros [x c] Hc. apply H1, Hc. }
  pose proof (C09_events_of_truncated_trace arg World PC Sprintf CallersFrames g start id pooled source category (combine times calls) e HM) as E.
  rewrite HC in E. specialize (E (Hn is_setmax ltac:(intros x [] ?; (reflexivity || discriminate)) eq_refl)
                                (Hn is_read ltac:(intros x [] ?; (reflexivity || discriminate)) eq_refl)). cbn zeta in E. fold M in E.
  rewrite (logs_only L [] ef HL), Hlen in E. unfold shown. rewrite HC, E.
  assert (Hf : forall n, Forall (fun c => is_line (snd c) = true) (firstn n L)).
  { intros n. rewrite <- (firstn_skipn n L) in HL. apply Forall_app in HL. apply HL. }
  split; intros HX.
  - destruct (Nat.leb_spec (2 + length between) M); [|lia]. rewrite What_rendered by apply Hf. rewrite firstn_all2 by lia.
    unfold L. cbn [map]. rewrite map_app. reflexivity.
  - destruct (Nat.leb_spec (2 + length between) M); [lia|]. rewrite map_app. cbn [map What].
    assert (HT : map What (tl (map (rendered Sprintf CallersFrames e (g_noStacks g)) (firstn M L))) = map (text e) (firstn (M - 1) between)).
    { unfold L. destruct M as [|M'] eqn:EM; [lia|]. cbn [firstn map tl]. rewrite Nat.sub_succ, Nat.sub_0_r. rewrite firstn_app.
      replace (M' - length between)%nat with 0%nat by lia. cbn [firstn]. rewrite app_nil_r. apply What_rendered.
      specialize (Hf (S M')). unfold L in Hf. cbn [firstn] in Hf. inversion Hf as [|? ? _ Hf']; subst. rewrite firstn_app in Hf'.
      replace (M' - length between)%nat with 0%nat in Hf' by lia. cbn [firstn] in Hf'. rewrite app_nil_r in Hf'. exact Hf'. }
    rewrite HT. unfold zlen. rewrite Hlen. repeat f_equal. lia.
Qed.
(** If there is room: what was requested, the headers, what the handler said, how it ended *)
Theorem C113_request_trace :
  forall (r : request) (w : W) (h : handler arg) (took : string) w' said ops ret
         g start id (pooled : coreTrace arg PC) source category (e : env)
         (e_first : env) (e_headers e_said : list env) (e_status e_finish : env),
    direct h w w' said ops ret -> Forall (fun c => is_line c = true) said ->
    length e_headers = length (header_lines r) -> length e_said = length said ->
    1 <= g_maxEvents g ->
    let M := Z.to_nat (g_maxEvents g) in
    let calls := fst (fst (Middleware r w h took)) in
    let times := e_first :: e_headers ++ e_said ++ [e_status; e_finish] in
    let shown := map What (snd (Events Sprintf CallersFrames e (run Sprintf CallersFrames (combine times calls) (newCoreTrace g start id pooled source category)))) in
    let between := combine e_headers (header_lines r) ++ combine e_said said in
    (2 + length between <= M)%nat ->
    shown = text e (e_first, request_line r) :: map (text e) between ++ [text e (e_status, status_line ops took)].
Proof. intros. eapply request_trace; eassumption. Qed.

(** If not: neither what was requested nor how it ended, although there is room for M events *)
Theorem C113_long_request_refuted :
  forall (r : request) (w : W) (h : handler arg) (took : string) w' said ops ret
         g start id (pooled : coreTrace arg PC) source category (e : env)
         (e_first : env) (e_headers e_said : list env) (e_status e_finish : env),
    direct h w w' said ops ret -> Forall (fun c => is_line c = true) said ->
    length e_headers = length (header_lines r) -> length e_said = length said ->
    1 <= g_maxEvents g ->
    let M := Z.to_nat (g_maxEvents g) in
    let calls := fst (fst (Middleware r w h took)) in
    let times := e_first :: e_headers ++ e_said ++ [e_status; e_finish] in
    let shown := map What (snd (Events Sprintf CallersFrames e (run Sprintf CallersFrames (combine times calls) (newCoreTrace g start id pooled source category)))) in
    let between := combine e_headers (header_lines r) ++ combine e_said said in
    (M < 2 + length between)%nat ->
    shown = map (text e) (firstn (M - 1) between) ++ ["(truncated event count " ++ itoa (2 + zlen between - g_maxEvents g) ++ ")"]%string.
Proof. intros. eapply request_trace; eassumption. Qed.
End Request.
Print Assumptions C113_request_trace.
Print Assumptions C113_long_request_refuted.

(** A request with one header whose handler logs two lines; and one whose handler logs twelve, at limit 10 *)
Definition demo_text (_ : unit) (f : string) (a : list (string + Z)) : string :=
  (f ++ "|" ++ String.concat "," (map (fun x => match x with inl s => s | inr n => itoa n end) a))%string.
Definition demo_request : request :=
  MkRequest "1.2.3.4:5" "GET" "/x" (fun h => if String.eqb h "Accept" then "*/*" else "").
Fixpoint logging (n : nat) (first : Z) (k : handler (string + Z)) : handler (string + Z) :=
  match n with O => k | S n => HTrace (CallLog KTracef "step" [inr first]) (logging n (first + 1) k) end.
Definition demo_env1 (t : Z) : env (string + Z) unit Z := MkEnv t tt [] (MkCE 0 (MkStringer "" [] None) [] [] false) (MkStringer "" [] None).
Definition demo_shown (n : nat) : list string :=
  let calls := fst (fst (Middleware inl inr itoa http_WriteHeader http_Write http_Flush demo_request new_response
                           (logging n 1 (HWriteHeader 404 (HWrite "no" (fun _ => HReturn)))) "1ms")) in
  map What (snd (Events demo_text (fun _ => []) (demo_env1 99)
    (run demo_text (fun _ => []) (combine (map demo_env1 (repeat 5 (length calls))) calls)
       (newCoreTrace (MkGlobals 10 false) 0 "id" (MkCT "" "" "" 0 false false 0 false [] 0 0) "src" "cat")))).
Example C113_instance :
  demo_shown 2 = ["%s %s %s|1.2.3.4:5,GET,/x"; "%s: %s|Accept,*/*"; "step|1"; "step|2"; "HTTP %d, %s, %s|404,2,1ms"] /\
  demo_shown 8 = ["%s: %s|Accept,*/*"; "step|1"; "step|2"; "step|3"; "step|4"; "step|5"; "step|6"; "step|7"; "step|8";
                  "(truncated event count 1)"] /\
  (exists w', http_direct (logging 2 1 (HWriteHeader 404 (HWrite "no" (fun _ => HReturn)))) new_response w'
       [CallLog KTracef "step" [inr 1]; CallLog KTracef "step" [inr 2]] [WHeader 404; WBody 2] true).
Proof.
  split; [vm_compute; reflexivity|]. split; [vm_compute; reflexivity|]. eexists. cbn [logging].
  do 2 eapply d_trace. eapply d_header; [reflexivity|]. eapply d_write; [reflexivity|]. constructor.
Qed.

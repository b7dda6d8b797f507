(** C56, findings: where a search through the client differs. *)
From Verif Require Import Go L_List M_Strings M_Types M_Frame M_RingBuf M_RingBufs M_Filter M_Stats M_Search M_Humanize M_Text M_Url M_Trace
     M_Web S_Web S_Trace S_Filter S_Order L_Order S_Search S_Collector L_RingBufs L_Filter L_Trace L_Stats L_Search L_Url P_Url P_Filter P_Search P_Web D_Demo M_Json S_Json P_Json.
Open Scope string_scope.
Open Scope list_scope.
Open Scope Z_scope.

(** Finding: an invalid query is reported by the collector, but not through the client. *)
Definition demo_searcher (ops : list (coll_op StaticTrace)) : SearchRequest string -> res (SearchRequest string * (SearchResponse + string)) :=
  match coll_run demo_static new_collector_storage ops with
  | Ok (s, _) => collector_searcher demo_compile demo_match (fun t => t) (isort Less) (fun l => l) "s" s
  | Panic => fun _ => Panic
  end.
Definition demo_time (t : Z) : option string := if t =? 0 then Some "0001-01-01T00:00:00Z" else if t =? 7 then Some "0001-01-01T00:00:07Z" else None.
Definition demo_parse_time (s : string) : option Z :=
  if String.eqb s "0001-01-01T00:00:00Z" then Some 0 else if String.eqb s "0001-01-01T00:00:07Z" then Some 7 else None.
Lemma demo_times : times_read_back demo_time demo_parse_time.
Proof.
  intros t s. unfold demo_time. destruct (Z.eqb_spec t 0) as [->|]; [intros H; injection H as <-; reflexivity|].
  destruct (Z.eqb_spec t 7) as [->|]; [intros H; injection H as <-; reflexivity|discriminate].
Qed.
Notation demo_remote ops := (remote demo_time demo_parse_time demo_compile exact_part (demo_searcher ops)).
Definition demo_request (f : Filter string) : SearchRequest string := MkReq [] f 0 0.
Definition demo_seven (what : string) : StaticTrace := MkStatic "s" "1" "a" 7 1 "" true false [MkEvent 7 what [] false].

Ltac exchange H := apply remote_inv in H; destruct H as (data & duration & j & Hh & He & Hd);
  vm_compute in Hh; injection Hh as <-; cbn [d_Request d_Response] in He;
  destruct (response_ok demo_time demo_parse_time demo_times _ _ He) as (stats & D & P);
  [cbn; repeat constructor; cbn; intuition congruence|]; rewrite D in Hd; injection Hd as <-; cbn in P.

Ltac possible := eapply remote_ex; [exact demo_times|vm_compute; reflexivity|split; repeat constructor; discriminate|cbn; repeat constructor; cbn; intuition congruence].

Theorem C56_problems_lost_refuted :
  let req := demo_request (set_query no_filter "(") in
  (exists req' local, demo_searcher [] req = Ok (req', inl local) /\ resp_Problems local = ["filter: query: invalid, ignoring (missing ))"]) /\
  (exists w, demo_remote [] req w) /\ forall w, demo_remote [] req w -> resp_Problems (wr_Response w) = [].
Proof.
  cbn zeta. split; [eexists _, _; split; [vm_compute; reflexivity|reflexivity]|]. split.
  - possible.
  - intros w H. exchange H. reflexivity.
Qed.

(** Finding: a byte that is not valid UTF-8 is replaced, and two categories whose names differ
    only in such bytes become one, so that one of them is lost. *)
Definition demo_stats (names : list string) : SearchStats := MkSS [0] (map (fun n => (n, MkCS n 1 1 [0] 0 0 7)) names).
Theorem C56_invalid_text_refuted :
  (let t := demo_seven (String (ascii_of_nat 255) "") in
   (exists j, enc_static demo_time t j) /\ forall j, enc_static demo_time t j -> exists t', dec_static demo_parse_time j = Some t' /\ t' <> t) /\
  (let s := demo_stats [String (ascii_of_nat 255) ""; String (ascii_of_nat 254) ""] in
   (exists j, enc_stats demo_time s j) /\
   forall j, enc_stats demo_time s j -> exists s', dec_stats demo_parse_time j = Some s' /\ zlen (Categories s) = 2 /\ zlen (Categories s') = 1).
Proof.
  cbn zeta. split; split.
  - apply enc_static_ex. split; [discriminate|]. repeat constructor. discriminate.
  - intros j E. eexists. split; [exact (static_ok _ _ demo_times _ _ E)|]. vm_compute. discriminate.
  - apply enc_stats_ex. repeat constructor; discriminate.
  - intros j (b & c & Hb & Hc & ->). unfold dec_stats. fields. rewrite (dec_nums _ _ Hb). cbn [obind].
    destruct Hc as [[F _]|(m' & js & P & F & ->)]; [discriminate F|].
    assert (Hm : exists c1 c2, m' = [c1; c2] /\ to_utf8 (fst c1) = replacement /\ to_utf8 (fst c2) = replacement).
    { unfold demo_stats in P. cbn [Categories map] in P. apply Permutation_length_2_inv in P. destruct P as [->| ->]; eexists _, _; (split; [reflexivity|]); split; vm_compute; reflexivity. }
    destruct Hm as (c1 & c2 & -> & E1 & E2).
    inversion F as [|? [k1 j1] ? js1 [K1 J1] F1]; subst. inversion F1 as [|? [k2 j2] ? js2 [K2 J2] F2]; subst. inversion F2; subst. cbn [fst snd] in *.
    rewrite E1 in K1. rewrite E2 in K2. subst k1 k2. unfold dec_map. cbn [dec_obj obind dec_pairs].
    rewrite (category_ok _ _ demo_times _ _ J1). cbn [obind]. rewrite (category_ok _ _ demo_times _ _ J2). cbn [obind].
    eexists. split; [reflexivity|]. split; reflexivity.
Qed.

(** Finding: with a negative bucket the statistics have one bucket more through the client. *)
Theorem C56_negative_bucket_refuted :
  let req := MkReq [7; -5] no_filter 0 0 in
  (exists req' local stats, demo_searcher [] req = Ok (req', inl local) /\ resp_Stats local = Some stats /\ Bucketing stats = [0; -5; 7]) /\
  (exists w, demo_remote [] req w) /\ forall w, demo_remote [] req w -> exists stats, resp_Stats (wr_Response w) = Some stats /\ Bucketing stats = [0; -5; 0; 7].
Proof.
  cbn zeta. split; [eexists _, _, _; split; [vm_compute; reflexivity|split; reflexivity]|]. split; [possible|].
  intros w H. exchange H. destruct stats as [s'|]; [|contradiction]. destruct P as [P _]. exists s'. split; [reflexivity|exact P].
Qed.

(** Finding: a request whose filter was used before its Query was changed searches for the
    old query here and for the new one through the client. *)
Theorem C56_stale_query_refuted :
  let ops := [CNew "a" (demo_seven "x")] in
  let req := demo_request (set_query (set_regexp no_filter "y") "x") in
  (exists req' local, demo_searcher ops req = Ok (req', inl local) /\ resp_Traces local = []) /\
  (exists w, demo_remote ops req w) /\ forall w, demo_remote ops req w -> resp_Traces (wr_Response w) = [demo_seven "x"].
Proof.
  cbn zeta. split; [eexists _, _; split; [vm_compute; reflexivity|reflexivity]|]. split; [possible|].
  intros w H. exchange H. reflexivity.
Qed.

Example C56_instance :
  times_read_back demo_time demo_parse_time /\
  let ops := [CNew "a" (demo_seven "hello")] in
  let req := demo_request (set_query no_filter "h") in
  exists s freed req' local,
    Forall valid_op ops /\ coll_run demo_static new_collector_storage ops = Ok (s, freed) /\ is_order (fun l : list string => l) /\
    valid_filter (req_Filter req) /\ unused (req_Filter req) /\
    Search demo_compile demo_match (fun t => t) (isort Less) (fun l => l) "s" s req = Ok (req', local) /\ valid_response local /\
    writable_response (fun t => demo_time t <> None) local /\ resp_Traces local = [demo_seven "hello"] /\
    exists w, remote demo_time demo_parse_time demo_compile exact_part (collector_searcher demo_compile demo_match (fun t => t) (isort Less) (fun l => l) "s" s) req w /\
      resp_Traces (wr_Response w) = [demo_seven "hello"].
Proof.
  split; [exact demo_times|]. cbn zeta.
  destruct (coll_run demo_static new_collector_storage [CNew "a" (demo_seven "hello")]) as [[s freed]|] eqn:R; [|vm_compute in R; discriminate].
  assert (V : Forall valid_op [CNew "a" (demo_seven "hello")]) by repeat constructor.
  assert (O : is_order (fun l : list string => l)) by (intros l; reflexivity).
  assert (VF : valid_filter (req_Filter (demo_request (set_query no_filter "h")))).
  { split; [constructor|]. split; [constructor|]. split; [constructor|]. constructor; [unfold in_range; cbn; lia|constructor]. }
  destruct (C56_remote_equals_local string demo_compile demo_match exact_part demo_time demo_parse_time demo_times StaticTrace demo_static (fun t => t) (isort Less) (fun l => l) "s"
      _ s freed (demo_request (set_query no_filter "h")) V R O) as (req' & local & E & H); [intros b []|exact VF|reflexivity|].
  exists s, freed, req', local.
  assert (El : local = MkResp ["s"] 1 1 [demo_seven "hello"] (Some (MkSS DefaultBucketing [("a", MkCS "a" 1 0 (map (fun x => if x =? 0 then 1 else 0) DefaultBucketing) 0 7 7)])) []).
  { clear H. vm_compute in R. injection R as <- <-. vm_compute in E. injection E as <- <-. reflexivity. }
  assert (VR : valid_response local).
  { assert (U : forall s, to_utf8 s = s -> utf8 s) by (intros x Ex; rewrite <- Ex; apply (to_utf8_valid (String.length x)); lia).
    subst local. split; [constructor; [apply U; reflexivity|constructor]|]. split.
    - constructor; [|constructor]. split; [apply U; reflexivity|]. split; [apply U; reflexivity|]. split; [apply U; reflexivity|]. split; [apply U; reflexivity|].
      constructor; [|constructor]. split; [apply U; reflexivity|constructor].
    - split; [constructor|]. constructor; [|constructor]. split; apply U; reflexivity. }
  assert (WR : writable_response (fun t => demo_time t <> None) local).
  { subst local. split; repeat constructor; discriminate. }
  split; [exact V|]. split; [reflexivity|]. split; [exact O|]. split; [exact VF|]. split; [reflexivity|]. split; [exact E|]. split; [exact VR|]. split; [exact WR|].
  split; [subst local; reflexivity|]. destruct (H VR) as [H1 H2]. destruct (H2 WR) as [w Hw]. exists w. split; [exact Hw|].
  destruct (H1 w Hw) as (_ & _ & _ & T & _). rewrite T. subst local. reflexivity.
Qed.
Print Assumptions C56_problems_lost_refuted.
Print Assumptions C56_invalid_text_refuted.
Print Assumptions C56_negative_bucket_refuted.
Print Assumptions C56_stale_query_refuted.

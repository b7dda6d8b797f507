(** C19, C20: filters.  Everything is for an arbitrary regular expression engine:
    a compiler and a matcher. *)
From Verif Require Import Go M_Strings M_Types M_Frame M_Filter S_Filter L_Filter.
Open Scope string_scope.
Open Scope Z_scope.

(** C19.  Allow accepts exactly what the conjunction of the conditions accepts... *)
Theorem C19_allow_is_conjunction :
  forall (RE : Type) (Compile : string -> RE + string) (MatchString : RE -> string -> bool)
         (f : Filter RE) (tr : StaticTrace),
    unused f -> (snd (Allow Compile MatchString f tr) = true <-> accepts Compile MatchString f tr).
Proof. intros. apply Allow_unused. assumption. Qed.
Print Assumptions C19_allow_is_conjunction.

(** ... so a filter with fewer conditions accepts at least as much... *)
Theorem C19_fewer_conditions_accept_more :
  forall (RE : Type) (Compile : string -> RE + string) (MatchString : RE -> string -> bool)
         (f g : Filter RE) (tr : StaticTrace),
    unused f -> unused g -> weaker g f ->
    snd (Allow Compile MatchString f tr) = true -> snd (Allow Compile MatchString g tr) = true.
Proof. intros RE C M f g tr Hf Hg Hw H. apply Allow_unused; [exact Hg|]. apply (weaker_accepts C M g f tr Hw). apply Allow_unused; assumption. Qed.
Print Assumptions C19_fewer_conditions_accept_more.

(** ... and contradictory conditions accept nothing. *)
Theorem C19_contradictions_accept_nothing :
  forall (RE : Type) (Compile : string -> RE + string) (MatchString : RE -> string -> bool)
         (f : Filter RE) (tr : StaticTrace),
    (IsActive f = true /\ IsFinished f = true) \/ (IsSuccess f = true /\ IsErrored f = true) \/
    (IsActive f = true /\ MinDuration f <> None) ->
    snd (Allow Compile MatchString f tr) = false.
Proof.
  intros RE C M f tr H. apply not_true_iff_false. intros Ha. apply Allow_spec in Ha as [(_&_&_&C4&C5&C6&C7&C8) _].
  destruct H as [[Ha Hf]|[[Hs He]|[Ha Hm]]].
  - rewrite C4 in C5 by exact Ha. discriminate (C5 Hf).
  - rewrite C7 in C8 by exact Hs. discriminate (C8 He).
  - destruct (MinDuration f) as [d|]; [|contradiction]. destruct (C6 d eq_refl) as [Hf _]. rewrite C4 in Hf by exact Ha. discriminate.
Qed.
Print Assumptions C19_contradictions_accept_nothing.

(** A toy engine for examples: "(" does not compile; an expression matches the texts
    that begin with it. *)
Definition demo_compile (q : string) : string + string := if String.eqb q "(" then inr "missing )" else inl q.
Definition demo_match (re s : string) : bool := String.prefix re s.
Definition demo_static : StaticTrace :=
  MkStatic "src" "id1" "cat" 100 50 "" true false
    [MkEvent 101 "hello" [MkFrame "github.com/a/b.f" "/x/y/z.go:3"] false; MkEvent 102 "bye" [] false].
Definition demo_filter (q : string) : Filter string := MkFilter ["s0"; "src"] [] "cat" false true (Some 50) true false q None.

Example C19_instance :
  unused (demo_filter "github.com/a/y/z") /\
  snd (Allow demo_compile demo_match (demo_filter "github.com/a/y/z") demo_static) = true /\
  snd (Allow demo_compile demo_match (demo_filter "zzz") demo_static) = false /\
  weaker (MkFilter [] [] "" false false None true false "" None) (demo_filter "h") /\
  snd (Allow demo_compile demo_match (demo_filter "by") demo_static) = true.
Proof. repeat split; auto. Qed.

(** C20.  However often and in whatever order a filter is normalized and used, each
    verdict is that of its public fields as the user wrote them... *)
Theorem C20_verdict_depends_on_public_fields :
  forall (RE : Type) (Compile : string -> RE + string) (MatchString : RE -> string -> bool)
         (f : Filter RE) (us : list use) (tr : StaticTrace),
    unused f ->
    (snd (Allow Compile MatchString (fold_left (do_use Compile MatchString) us f) tr) = true
     <-> accepts Compile MatchString f tr).
Proof. intros. apply Allow_after_uses. assumption. Qed.
Print Assumptions C20_verdict_depends_on_public_fields.

(** ... an invalid query is reported by the first Normalize, which clears it; the
    next Normalize reports nothing, and the filter accepts what it would accept
    without query... *)
Theorem C20_invalid_query_reported_once :
  forall (RE : Type) (Compile : string -> RE + string) (MatchString : RE -> string -> bool)
         (f : Filter RE) (err : string),
    unused f -> Query f <> "" -> Compile (Query f) = inr err ->
    let '(f', errs) := FilterNormalize Compile f in
    errs = ["query: invalid, ignoring (" ++ err ++ ")"] /\ Query f' = "" /\
    FilterNormalize Compile f' = (f', []) /\
    forall tr, snd (Allow Compile MatchString f' tr) = true <-> field_conditions f tr.
Proof.
  intros RE C M f err Hu Hq Hc. rewrite (Normalize_invalid C f err Hu Hq Hc).
  split; [reflexivity|]. split; [reflexivity|]. split; [apply Normalize_none; reflexivity|].
  intros tr. rewrite Allow_unused by exact Hu. apply set_query_empty_accepts.
Qed.
Print Assumptions C20_invalid_query_reported_once.

(** ... and a valid query is compiled by the first Normalize; a second one changes
    nothing. *)
Theorem C20_valid_query_compiled_once :
  forall (RE : Type) (Compile : string -> RE + string) (f : Filter RE),
    (forall re, unused f -> Query f <> "" -> Compile (Query f) = inl re ->
       FilterNormalize Compile f = (set_regexp f re, [])) /\
    FilterNormalize Compile (fst (FilterNormalize Compile f)) = (fst (FilterNormalize Compile f), []).
Proof. intros RE C f. split; [intros; apply Normalize_valid; assumption|apply Normalize_idem]. Qed.
Print Assumptions C20_valid_query_compiled_once.

(** Finding: a query changed after the first use is ignored: the filter still uses
    the old expression. *)
Theorem C20_changed_query_used_refuted :
  exists (f : Filter string) (tr : StaticTrace),
    unused f /\
    let f1 := set_query (fst (FilterNormalize demo_compile f)) "zzz" in
    Query f1 = "zzz" /\ ~ accepts demo_compile demo_match f1 tr /\
    snd (Allow demo_compile demo_match f1 tr) = true.
Proof.
  exists (demo_filter "h"), demo_static. split; [reflexivity|]. split; [reflexivity|]. split; [|vm_compute; reflexivity].
  intros [_ Hq]. destruct (Hq ltac:(discriminate)) as (s & (ev & [<-|[<-|[]]] & Ht) & Hm); cbn in Ht.
  - destruct Ht as [->|(fr & [<-|[]] & [->|Ht])]; try (vm_compute in Hm; discriminate).
    vm_compute in Ht. injection Ht as <-. vm_compute in Hm. discriminate.
  - destruct Ht as [->|(fr & [] & _)]. vm_compute in Hm. discriminate.
Qed.
Print Assumptions C20_changed_query_used_refuted.

Example C20_instance :
  FilterNormalize demo_compile (demo_filter "(") = (demo_filter "", ["query: invalid, ignoring (missing ))"]) /\
  snd (Allow demo_compile demo_match (demo_filter "(") demo_static) = true.
Proof. vm_compute. auto. Qed.

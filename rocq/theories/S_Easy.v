(** The books of a program that uses the easy interface: which traces it has made, which calls
    each has received, which trace each context stands for.  No decorators, ring buffers or
    clocks. *)
From Verif Require Import Go M_Types S_Trace M_Trace S_Collector M_Humanize M_Text M_Decor M_Easy.
Open Scope string_scope.
Open Scope list_scope.

Section Spec.
Context {arg world pc : Type}.
Variable str : string -> arg.
Notation eop := (eop arg world pc).

(** A trace: the settings (SetTraceMaxEvents, SetTraceStacks), the time and the ID it was made
    with, its source, its category, the calls it has received that change a trace. *)
Record account := MkAccount { a_born : globals * Z * string; a_source : string; a_category : string; a_calls : list (call arg) }.
Definition born (b : birth arg pc) : globals * Z * string := (b_globals b, b_now b, b_id b).
(** What a context stands for: a trace, and a prefix for its events. *)
Record view := MkView { v_trace : nat; v_format : string; v_args : list arg }.
Record book := MkBook {
  k_source : string;                    (* the current source name *)
  k_traces : list account;              (* in the order in which they were made *)
  k_ctx : list (option view);
  k_regions : list (view * string);
  k_stored : list (coll_op nat)         (* what has happened to the collector *)
}.
Definition the_view (k : book) (i : nat) : option view := nth i (k_ctx k) None.

Definition receive (v : view) (c : call arg) (ts : list account) : list account :=
  match nth_error ts (v_trace v) with
  | None => ts
  | Some a => update (v_trace v)
                (MkAccount (a_born a) (a_source a) (a_category a)
                   (a_calls a ++ [match c with CallLog k f args => CallLog k (v_format v ++ f)%string (v_args v ++ args) | _ => c end])) ts
  end.
(** a trace that is in no collector *)
Definition orphan (b : birth arg pc) : account := MkAccount (born b) "" "(orphan)" [].
Definition bare_view (n : nat) : view := MkView n "" [].
(** the trace of a context, which is an orphan made just now if there is none *)
Definition got (k : book) (i : nat) (b : birth arg pc) : list account * view :=
  match the_view k i with
  | Some v => (k_traces k, v)
  | None => (k_traces k ++ [orphan b], bare_view (length (k_traces k)))
  end.
Definition set_traces (k : book) (ts : list account) : book := MkBook (k_source k) ts (k_ctx k) (k_regions k) (k_stored k).
Definition add_ctx (k : book) (v : option view) : book := MkBook (k_source k) (k_traces k) (k_ctx k ++ [v]) (k_regions k) (k_stored k).

Definition book_step (k : book) (o : eop) : book :=
  match o with
  | ESource name => MkBook name (k_traces k) (k_ctx k) (k_regions k) (k_stored k)
  | ENewTraceFunc _ | EDecorators _ => k
  | ESize cap order => MkBook (k_source k) (k_traces k) (k_ctx k) (k_regions k) (k_stored k ++ [CSize cap order])
  | ENew i category b _ _ =>
      match the_view k i with
      | Some v => add_ctx (set_traces k (receive v (CallLog KLazyTracef "(+ %s)" [str category]) (k_traces k))) (Some v)
      | None =>
          let n := length (k_traces k) in
          MkBook (k_source k) (k_traces k ++ [MkAccount (born b) (k_source k) category []]) (k_ctx k ++ [Some (bare_view n)])
                 (k_regions k) (k_stored k ++ [CNew category n])
      end
  | EPrefix i format args b =>
      let '(ts, v) := got k i b in
      let format := TrimSpace format in
      add_ctx (set_traces k ts)
        (if String.eqb format "" then the_view k i
         else Some (MkView (v_trace v) (v_format v ++ format ++ " ") (v_args v ++ args)))
  | ERegion i name b1 b2 _ =>
      let '(ts, v) := got k i b1 in
      let inner := match the_view k i with
                   | Some v => MkView (v_trace v) (v_format v ++ bullet ++ " ") (v_args v)
                   | None => MkView (length ts) (bullet ++ " ") []
                   end in
      let ts := match the_view k i with Some _ => ts | None => ts ++ [orphan b2] end in
      let ts := receive v (CallLog KLazyTracef (arrow_in ++ " " ++ name) []) ts in
      MkBook (k_source k) ts (k_ctx k ++ [Some inner]) (k_regions k ++ [(v, name)]) (k_stored k)
  | EEnd r took _ =>
      match nth_error (k_regions k) r with
      | None => k
      | Some (v, name) =>
          set_traces k (receive v (CallLog KLazyTracef (arrow_out ++ " " ++ name ++ " [%s]") [str (HumanizeDuration took)]) (k_traces k))
      end
  | EEvent i kind_ format args b _ => let '(ts, v) := got k i b in set_traces k (receive v (CallLog kind_ format args) ts)
  | EFinish i b _ => let '(ts, v) := got k i b in set_traces k (receive v CallFinish ts)
  | EOther i => add_ctx k (the_view k i)
  end.
Definition book_init : book := MkBook "default" [] [None] [] [].
Definition books (ops : list eop) : book := fold_left book_step ops book_init.

(** A program that only uses log decorators, never takes the NewTrace function away, and whose
    map iterations visit every key once. *)
Definition proper (o : eop) : Prop :=
  match o with
  | ESize _ order => is_order order
  | ENewTraceFunc given => given = true
  | EDecorators decs => Forall (fun d => d <> DPublish) decs
  | _ => True
  end.
End Spec.
Arguments account : clear implicits.
Arguments view : clear implicits.
Arguments book : clear implicits.

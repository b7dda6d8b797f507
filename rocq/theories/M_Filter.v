(** Model of filter.go. *)
From Verif Require Import Go M_Strings M_Types M_Frame.
Open Scope string_scope.
Open Scope Z_scope.

(** Filter.Allow and the search code see a trace only through the observers of
    the Trace interface.  What the observers of one trace return at one moment is
    a StaticTrace, so these functions take a StaticTrace.  (Observers called at
    different moments while the trace is being written are the subject of C33.) *)

(** [CompactFileLine] never panics (C62). *)
Definition compact_file_line (fr : Frame) : string :=
  match CompactFileLine fr with Ok s => s | Panic => EmptyString end.

Section Filter.
(** The regular expression package: [Compile] gives an expression or an error. *)
Context {RE : Type}.
Variable Compile : string -> RE + string.
Variable MatchString : RE -> string -> bool.

(** filter.go:12-23 *)
Record Filter := MkFilter {
  Sources : list string;
  IDs : list string;
  FCategory : string;
  IsActive : bool;
  IsFinished : bool;
  MinDuration : option Z;
  IsSuccess : bool;
  IsErrored : bool;
  Query : string;
  f_regexp : option RE
}.

Definition set_query (f : Filter) (q : string) : Filter :=
  MkFilter (Sources f) (IDs f) (FCategory f) (IsActive f) (IsFinished f) (MinDuration f) (IsSuccess f) (IsErrored f)
           q (f_regexp f).
Definition set_regexp (f : Filter) (re : RE) : Filter :=
  MkFilter (Sources f) (IDs f) (FCategory f) (IsActive f) (IsFinished f) (MinDuration f) (IsSuccess f) (IsErrored f)
           (Query f) (Some re).

(** filter.go:172-190 *)
Definition initializeQueryRegexp (f : Filter) : Filter * option string :=
  match f_regexp f with
  | Some _ => (f, None)
  | None =>
      if String.eqb (Query f) "" then (f, None)
      else match Compile (Query f) with
           | inr err => (set_query f "", Some ("invalid, ignoring (" ++ err ++ ")")%string)
           | inl re => (set_regexp f re, None)
           end
  end.

(** filter.go:26-34 *)
Definition FilterNormalize (f : Filter) : Filter * list string :=
  let '(f, err) := initializeQueryRegexp f in
  (f, match err with Some e => ["query: " ++ e] | None => [] end)%string.

(** filter.go:157-164: the loop over the frames of an event *)
Fixpoint match_stack (re : RE) (stack : list Frame) : bool :=
  match stack with
  | [] => false
  | c :: stack =>
      if MatchString re (Function c) then true
      else if MatchString re (compact_file_line c) then true
      else match_stack re stack
  end.
(** filter.go:153-166 *)
Fixpoint match_events (re : RE) (evs : list Event) : bool :=
  match evs with
  | [] => false
  | ev :: evs =>
      if MatchString re (What ev) then true
      else if match_stack re (Stack ev) then true
      else match_events re evs
  end.

(** filter.go:88-93, 101-106: the search loops *)
Fixpoint find_string (l : list string) (s : string) : bool :=
  match l with [] => false | x :: l => if String.eqb x s then true else find_string l s end.

(** filter.go:85-170 Allow.  The filter may be changed by it (lazy compilation). *)
Definition Allow (f : Filter) (tr : StaticTrace) : Filter * bool :=
  if (0 <? zlen (Sources f)) && negb (find_string (Sources f) (TraceSource tr)) then (f, false)            (* 86-97 *)
  else if (0 <? zlen (IDs f)) && negb (find_string (IDs f) (TraceID tr)) then (f, false)                   (* 99-110 *)
  else if negb (String.eqb (FCategory f) "") && negb (String.eqb (TraceCategory tr) (FCategory f)) then (f, false) (* 112-116 *)
  else if IsActive f && TraceFinished tr then (f, false)                                                   (* 118-122 *)
  else if IsFinished f && negb (TraceFinished tr) then (f, false)                                          (* 124-128 *)
  else if (match MinDuration f with                                                                        (* 130-137 *)
           | Some d => if negb (TraceFinished tr) then true else TraceDuration tr <? d
           | None => false
           end) then (f, false)
  else if IsSuccess f && TraceErrored tr then (f, false)                                                   (* 139-143 *)
  else if IsErrored f && negb (TraceErrored tr) then (f, false)                                            (* 145-149 *)
  else
    let '(f, _) := initializeQueryRegexp f in                                                              (* 151 *)
    match f_regexp f with                                                                                  (* 152-169 *)
    | Some re => (f, match_events re (TraceEvents tr))
    | None => (f, true)
    end.

(** Filters used more than once: Allow for a list of traces, in order. *)
Fixpoint AllowAll (f : Filter) (trs : list StaticTrace) : Filter * list bool :=
  match trs with
  | [] => (f, [])
  | tr :: trs =>
      let '(f, b) := Allow f tr in
      let '(f, bs) := AllowAll f trs in
      (f, b :: bs)
  end.
End Filter.
Arguments Filter : clear implicits.

(** Valid UTF-8, and values with their strings made valid. *)
From Verif Require Import Go M_Types M_Filter M_Stats M_Search M_Json.
Open Scope string_scope.
Open Scope list_scope.

(** The well-formed byte sequences (Unicode standard, table 3-7). *)
Definition in_range (lo : nat) (a : ascii) (hi : nat) : Prop := (lo <= nat_of_ascii a <= hi)%nat.
Definition well_formed2 (a b : ascii) : Prop := in_range 194 a 223 /\ in_range 128 b 191.
Definition well_formed3 (a b c : ascii) : Prop :=
  ((in_range 224 a 224 /\ in_range 160 b 191) \/ (in_range 225 a 236 /\ in_range 128 b 191) \/
   (in_range 237 a 237 /\ in_range 128 b 159) \/ (in_range 238 a 239 /\ in_range 128 b 191)) /\ in_range 128 c 191.
Definition well_formed4 (a b c d : ascii) : Prop :=
  ((in_range 240 a 240 /\ in_range 144 b 191) \/ (in_range 241 a 243 /\ in_range 128 b 191) \/ (in_range 244 a 244 /\ in_range 128 b 143)) /\
  in_range 128 c 191 /\ in_range 128 d 191.
Inductive utf8 : string -> Prop :=
| utf8_nil : utf8 ""
| utf8_1 a s : in_range 0 a 127 -> utf8 s -> utf8 (String a s)
| utf8_2 a b s : well_formed2 a b -> utf8 s -> utf8 (String a (String b s))
| utf8_3 a b c s : well_formed3 a b c -> utf8 s -> utf8 (String a (String b (String c s)))
| utf8_4 a b c d s : well_formed4 a b c d -> utf8 s -> utf8 (String a (String b (String c (String d s)))).

(** Values whose strings went through JSON. *)
Section Fix.
Context {RE : Type}.
Definition sent_frame (f : Frame) : Frame := MkFrame (to_utf8 (Function f)) (to_utf8 (FileLine f)).
Definition sent_event (e : Event) : Event := MkEvent (When e) (to_utf8 (What e)) (map sent_frame (Stack e)) (IsError e).
Definition sent_trace (t : StaticTrace) : StaticTrace :=
  MkStatic (to_utf8 (TraceSource t)) (to_utf8 (TraceID t)) (to_utf8 (TraceCategory t)) (TraceStarted t) (TraceDuration t) (to_utf8 (TraceDurationStr t))
           (TraceFinished t) (TraceErrored t) (map sent_event (TraceEvents t)).
(** The compiled expression is not sent. *)
Definition sent_filter (f : Filter RE) : Filter RE :=
  MkFilter (map to_utf8 (Sources f)) (map to_utf8 (IDs f)) (to_utf8 (FCategory f)) (IsActive f) (IsFinished f) (MinDuration f) (IsSuccess f) (IsErrored f)
           (to_utf8 (Query f)) None.
Definition sent_request (r : SearchRequest RE) : SearchRequest RE := MkReq (req_Bucketing r) (sent_filter (req_Filter r)) (req_Limit r) (req_StackDepth r).
Definition sent_category (c : CategoryStats) : CategoryStats :=
  MkCS (to_utf8 (cs_Category c)) (EventCount c) (ActiveCount c) (BucketCounts c) (ErroredCount c) (Oldest c) (Newest c).

(** All strings in a value are valid. *)
Definition valid_frame (f : Frame) : Prop := utf8 (Function f) /\ utf8 (FileLine f).
Definition valid_event (e : Event) : Prop := utf8 (What e) /\ Forall valid_frame (Stack e).
Definition valid_trace (t : StaticTrace) : Prop :=
  utf8 (TraceSource t) /\ utf8 (TraceID t) /\ utf8 (TraceCategory t) /\ utf8 (TraceDurationStr t) /\ Forall valid_event (TraceEvents t).
Definition valid_filter (f : Filter RE) : Prop := Forall utf8 (Sources f) /\ Forall utf8 (IDs f) /\ utf8 (FCategory f) /\ utf8 (Query f).
Definition valid_stats (s : SearchStats) : Prop := Forall (fun kc => utf8 (fst kc) /\ utf8 (cs_Category (snd kc))) (Categories s).
Definition valid_response (r : SearchResponse) : Prop :=
  Forall utf8 (resp_Sources r) /\ Forall valid_trace (resp_Traces r) /\ Forall utf8 (resp_Problems r) /\
  match resp_Stats r with Some s => valid_stats s | None => True end.

(** The same response, but for the order in which a map lists its keys. *)
Definition same_stats (s s' : SearchStats) : Prop := Bucketing s' = Bucketing s /\ Permutation (Categories s) (Categories s').
Definition same_response (r r' : SearchResponse) : Prop :=
  resp_Sources r' = resp_Sources r /\ resp_TotalCount r' = resp_TotalCount r /\ resp_MatchCount r' = resp_MatchCount r /\
  resp_Traces r' = resp_Traces r /\ resp_Problems r' = resp_Problems r /\
  match resp_Stats r, resp_Stats r' with
  | None, None => True
  | Some s, Some s' => same_stats s s'
  | _, _ => False
  end.

(** A map has every key once. *)
Definition proper_response (r : SearchResponse) : Prop :=
  match resp_Stats r with Some s => NoDup (map fst (Categories s)) | None => True end.

(** All times in a value can be written: [writable t]. *)
Definition writable_trace (writable : Z -> Prop) (t : StaticTrace) : Prop :=
  writable (TraceStarted t) /\ Forall (fun e => writable (When e)) (TraceEvents t).
Definition writable_response (writable : Z -> Prop) (r : SearchResponse) : Prop :=
  Forall (writable_trace writable) (resp_Traces r) /\
  match resp_Stats r with Some s => Forall (fun kc => writable (Oldest (snd kc)) /\ writable (Newest (snd kc))) (Categories s) | None => True end.

(** The response without what went wrong. *)
Definition without_problems (r : SearchResponse) : SearchResponse :=
  MkResp (resp_Sources r) (resp_TotalCount r) (resp_MatchCount r) (resp_Traces r) (resp_Stats r) [].
End Fix.

(** What the texts of filters and search requests should tell. *)
From Verif Require Import Go M_Types M_Text M_Filter M_Search.
Open Scope string_scope.
Open Scope Z_scope.

Definition has_byte (c : ascii) (s : string) : Prop := In c (list_ascii_of_string s).

(** The filter states no condition at all. *)
Definition unconditional {RE} (f : Filter RE) : Prop :=
  Sources f = [] /\ IDs f = [] /\ FCategory f = "" /\ IsActive f = false /\ IsFinished f = false /\
  MinDuration f = None /\ IsSuccess f = false /\ IsErrored f = false /\ Query f = "".

(** No text of the filter contains the bytes the notation uses; the duration is a time.Duration. *)
Definition plain {RE} (f : Filter RE) : Prop :=
  (forall s, In s (Sources f) -> ~ has_byte " " s /\ ~ has_byte "]" s) /\
  ~ has_byte "'" (FCategory f) /\ ~ has_byte "'" (Query f) /\
  (forall d, MinDuration f = Some d -> int64 d).

(** The same conditions, except that the IDs may differ (when there are any). *)
Definition same_but_ids {RE} (f g : Filter RE) : Prop :=
  Sources f = Sources g /\ (IDs f = [] <-> IDs g = []) /\ FCategory f = FCategory g /\ IsActive f = IsActive g /\
  IsFinished f = IsFinished g /\ MinDuration f = MinDuration g /\ IsSuccess f = IsSuccess g /\
  IsErrored f = IsErrored g /\ Query f = Query g.

(** The integers of a request are Go's. *)
Definition plain_request {RE} (req : SearchRequest RE) : Prop :=
  plain (req_Filter req) /\ (forall d, In d (req_Bucketing req) -> int64 d) /\
  int64 (req_Limit req) /\ int64 (req_StackDepth req).

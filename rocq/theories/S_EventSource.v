(** Messages that a stream can carry. *)
From Verif Require Import Go M_Json S_Json S_JsonText M_EventSource.
Open Scope list_scope.
Open Scope string_scope.

(** A type on one line and some data, without carriage returns; valid UTF-8. *)
Definition sendable (e : message) : Prop :=
  m_type e <> "" /\ all_bytes_in (fun n => n <> 10 /\ n <> 13)%Z (m_type e) /\ utf8 (m_type e) /\
  m_data e <> "" /\ all_bytes_in (fun n => n <> 13)%Z (m_data e) /\ utf8 (m_data e).

(** What a stream request with a JSON body asks for: spec for C114. *)
From Verif Require Import Go M_Strings M_Types M_Filter M_Json.
Open Scope string_scope.
Open Scope list_scope.
Open Scope Z_scope.

(** What is meant by a member that is a string, a list of strings, true or false; anything else means nothing. *)
Definition as_string (j : json) : string := match j with JStr s => s | _ => "" end.
Definition as_bool (j : json) : bool := match j with JBool b => b | _ => false end.
Definition as_strings (j : json) : list string := match j with JArr l => map as_string l | _ => [] end.
(** A number is a duration; null is none; anything else is zero, not none. *)
Definition a_duration (n : Z) : Prop := - 2 ^ 63 <= n < 2 ^ 63.
Inductive as_duration : json -> option Z -> Prop :=
| ad_none : as_duration JNull None
| ad_num n : a_duration n -> as_duration (JNum n) (Some n)
| ad_big n : ~ a_duration n -> as_duration (JNum n) (Some 0)
| ad_bool b : as_duration (JBool b) (Some 0)
| ad_float s : as_duration (JFloat s) (Some 0)
| ad_str s : as_duration (JStr s) (Some 0)
| ad_arr l : as_duration (JArr l) (Some 0)
| ad_obj l : as_duration (JObj l) (Some 0).

(** The member with a name, null if there is none *)
Definition member (o : list (string * json)) (k : string) (j : json) : Prop := In (k, j) o \/ (~ In k (map fst o) /\ j = JNull).

(** Values that fit *)
Definition fits_string (j : json) : Prop := match j with JNull | JStr _ => True | _ => False end.
Definition fits_bool (j : json) : Prop := match j with JNull | JBool _ => True | _ => False end.
Definition fits_strings (j : json) : Prop := match j with JNull => True | JArr l => Forall fits_string l | _ => False end.
Definition fits_duration (j : json) : Prop := match j with JNull => True | JNum n => a_duration n | _ => False end.
Definition fits (k : string) (j : json) : Prop :=
  (In k ["sources"; "ids"] -> fits_strings j) /\ (In k ["category"; "query"] -> fits_string j) /\
  (In k ["is_active"; "is_finished"; "is_success"; "is_errored"] -> fits_bool j) /\ (k = "min_duration" -> fits_duration j).

Section Filter.
Context {RE : Type}.
Definition asks_for (o : list (string * json)) (f : Filter RE) : Prop :=
  (forall j, member o "sources" j -> Sources f = as_strings j) /\
  (forall j, member o "ids" j -> IDs f = as_strings j) /\
  (forall j, member o "category" j -> FCategory f = as_string j) /\
  (forall j, member o "is_active" j -> IsActive f = as_bool j) /\
  (forall j, member o "is_finished" j -> IsFinished f = as_bool j) /\
  (forall j, member o "min_duration" j -> as_duration j (MinDuration f)) /\
  (forall j, member o "is_success" j -> IsSuccess f = as_bool j) /\
  (forall j, member o "is_errored" j -> IsErrored f = as_bool j) /\
  (forall j, member o "query" j -> Query f = as_string j) /\
  f_regexp f = None.
End Filter.

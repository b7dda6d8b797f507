(** What arrives of the body of a request. *)
From Verif Require Import Go M_Json S_JsonText.
Open Scope string_scope.
Open Scope Z_scope.

Definition container (v : json) : Prop := match v with JArr _ | JObj _ => True | _ => False end.
(** The body starts with a text of the value [v], after white space, and the first [limit] bytes
    of the body are enough to see it: an array or an object ends with its last byte, anything
    else with the byte that follows or the end of the body. *)
Definition arrives (limit : Z) (body : string) (v : json) : Prop :=
  exists w p rest, white w /\ body = w ++ p ++ rest /\ value_text p v /\
    let n := Z.of_nat (String.length (w ++ p)) in
    (n < limit \/ (n = limit /\ container v) \/ Z.of_nat (String.length body) <= limit).

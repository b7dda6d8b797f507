(** What surrounding white space is, in terms of Unicode. *)
From Verif Require Import Go.
Open Scope string_scope.
Open Scope list_scope.
Open Scope N_scope.

(** the code points with the property White_Space *)
Definition space_points : list N :=
  [9; 10; 11; 12; 13; 32; 133; 160; 5760; 8192; 8193; 8194; 8195; 8196; 8197; 8198; 8199; 8200; 8201; 8202; 8232; 8233; 8239; 8287; 12288].
(** UTF-8, for code points below 65536 *)
Definition encode (c : N) : string :=
  if c <? 128 then String (ascii_of_N c) ""
  else if c <? 2048 then String (ascii_of_N (192 + c / 64)) (String (ascii_of_N (128 + c mod 64)) "")
  else String (ascii_of_N (224 + c / 4096)) (String (ascii_of_N (128 + (c / 64) mod 64)) (String (ascii_of_N (128 + c mod 64)) "")).
Definition is_space (w : string) : Prop := exists c, In c space_points /\ w = encode c.
(** only white space *)
Inductive blank : string -> Prop :=
| blank_nil : blank ""
| blank_cons : forall w s, is_space w -> blank s -> blank (w ++ s)%string.
(** [t] is [s] without the white space around it *)
Definition trimmed (s t : string) : Prop :=
  (exists a b, s = (a ++ t ++ b)%string /\ blank a /\ blank b) /\
  (forall w q, is_space w -> t <> (w ++ q)%string /\ t <> (q ++ w)%string).

(** What JSON text means (RFC 8259), independently of how it is written or read. *)
From Verif Require Import Go M_Json S_Json.
Open Scope list_scope.
Open Scope string_scope.

Definition code (a : ascii) : Z := Z.of_nat (nat_of_ascii a).
Fixpoint all_bytes_in (P : Z -> Prop) (s : string) : Prop := match s with "" => True | String a s => P (code a) /\ all_bytes_in P s end.
(** space, tab, line feed, carriage return *)
Definition white (s : string) : Prop := all_bytes_in (fun n => n = 32 \/ n = 9 \/ n = 10 \/ n = 13)%Z s.

(** *** Numbers *)
Definition is_digit_code (n : Z) : Prop := (48 <= n <= 57)%Z.
Definition digits (s : string) : Prop := s <> "" /\ all_bytes_in is_digit_code s.
(** the number some digits mean *)
Inductive decimal_value : string -> Z -> Prop :=
| decimal_value_nil : decimal_value "" 0
| decimal_value_snoc s n a : decimal_value s n -> is_digit_code (code a) -> decimal_value (s ++ String a "") (10 * n + (code a - 48)).
(** no leading zeros *)
Definition integer_part (s : string) : Prop := digits s /\ (s = "0" \/ forall r, s <> String "0" r).
Definition sign_part (s : string) : Prop := s = "" \/ s = "-".
Definition fraction (s : string) : Prop := exists d, s = String "." d /\ digits d.
Definition exponent (s : string) : Prop := exists e sg d, s = e ++ sg ++ d /\ (e = "e" \/ e = "E") /\ (sg = "" \/ sg = "+" \/ sg = "-") /\ digits d.
Definition integer (s : string) (n : Z) : Prop :=
  exists sg ip m, s = sg ++ ip /\ integer_part ip /\ decimal_value ip m /\ ((sg = "" /\ n = m) \/ (sg = "-" /\ n = - m)%Z).
(** a number that is not written as an integer *)
Definition float (s : string) : Prop :=
  exists sg ip fp ep, s = sg ++ ip ++ fp ++ ep /\ sign_part sg /\ integer_part ip /\ (fp = "" \/ fraction fp) /\ (ep = "" \/ exponent ep) /\ fp ++ ep <> "".

(** *** Strings *)
(** the UTF-8 form of a code point *)
Inductive code_point : Z -> string -> Prop :=
| cp1 a : (code a < 128)%Z -> code_point (code a) (String a "")
| cp2 a b : well_formed2 a b -> code_point ((code a - 192) * 64 + (code b - 128)) (String a (String b ""))
| cp3 a b c : well_formed3 a b c -> code_point (((code a - 224) * 64 + (code b - 128)) * 64 + (code c - 128)) (String a (String b (String c "")))
| cp4 a b c d : well_formed4 a b c d ->
    code_point ((((code a - 240) * 64 + (code b - 128)) * 64 + (code c - 128)) * 64 + (code d - 128)) (String a (String b (String c (String d "")))).
(** hexadecimal digits *)
Inductive hexadecimal : string -> Z -> Prop :=
| hex_nil : hexadecimal "" 0
| hex_snoc s n a d : hexadecimal s n ->
    (48 <= code a <= 57 /\ d = code a - 48 \/ 97 <= code a <= 102 /\ d = code a - 97 + 10 \/ 65 <= code a <= 70 /\ d = code a - 65 + 10)%Z ->
    hexadecimal (s ++ String a "") (16 * n + d).
Definition bs : ascii := ascii_of_nat 92.
(** backslash u and four hexadecimal digits: a UTF-16 code unit *)
Definition unit_escape (s : string) (n : Z) : Prop := exists h, s = String bs (String "u" h) /\ String.length h = 4%nat /\ hexadecimal h n.
Definition is_high (n : Z) : Prop := (55296 <= n <= 56319)%Z.
Definition is_low (n : Z) : Prop := (56320 <= n <= 57343)%Z.
(** what may follow a backslash, and what the two mean *)
Definition short_escapes : list (Z * Z) := [(34, 34); (92, 92); (47, 47); (98, 8); (102, 12); (110, 10); (114, 13); (116, 9)]%Z.
(** [characters s v]: between quotation marks, [s] means [v] *)
Inductive characters : string -> string -> Prop :=
| ch_nil : characters "" ""
| ch_raw a s v : (32 <= code a /\ code a <> 34 /\ code a <> 92)%Z -> characters s v -> characters (String a s) (String a v)
| ch_short a b s v : In (code a, code b) short_escapes -> characters s v -> characters (String bs (String a s)) (String b v)
| ch_code e n u s v : unit_escape e n -> ~ is_high n -> ~ is_low n -> code_point n u -> characters s v -> characters (e ++ s) (u ++ v)
| ch_pair e1 e2 n1 n2 u s v : unit_escape e1 n1 -> unit_escape e2 n2 -> is_high n1 -> is_low n2 ->
    code_point (65536 + (n1 - 55296) * 1024 + (n2 - 56320)) u -> characters s v -> characters (e1 ++ e2 ++ s) (u ++ v)
(* a surrogate that is not part of a pair: U+FFFD *)
| ch_lone e n u s v : unit_escape e n -> is_high n \/ is_low n -> ~ (is_high n /\ exists e2 n2 r, s = e2 ++ r /\ unit_escape e2 n2 /\ is_low n2) ->
    code_point 65533 u -> characters s v -> characters (e ++ s) (u ++ v).
Definition dquote : string := String (ascii_of_nat 34) "".
(** bytes that are not valid UTF-8 are replaced *)
Definition string_text (s v : string) : Prop := exists c b, s = dquote ++ c ++ dquote /\ characters c b /\ v = to_utf8 b.

(** *** Values *)
Inductive value_text : string -> json -> Prop :=
| vt_null : value_text "null" JNull
| vt_true : value_text "true" (JBool true)
| vt_false : value_text "false" (JBool false)
| vt_integer s n : integer s n -> value_text s (JNum n)
| vt_float s : float s -> value_text s (JFloat s)
| vt_string s v : string_text s v -> value_text s (JStr v)
| vt_array0 w : white w -> value_text ("[" ++ w ++ "]") (JArr [])
| vt_array s l : elements_text s l -> value_text ("[" ++ s ++ "]") (JArr l)
| vt_object0 w : white w -> value_text ("{" ++ w ++ "}") (JObj [])
| vt_object s l : members_text s l -> value_text ("{" ++ s ++ "}") (JObj l)
with elements_text : string -> list json -> Prop :=
| et_one w1 s w2 v : white w1 -> white w2 -> value_text s v -> elements_text (w1 ++ s ++ w2) [v]
| et_more w1 s w2 v s' l : white w1 -> white w2 -> value_text s v -> elements_text s' l -> elements_text (w1 ++ s ++ w2 ++ "," ++ s') (v :: l)
with members_text : string -> list (string * json) -> Prop :=
| mt_one w1 k w2 w3 s w4 key v : white w1 -> white w2 -> white w3 -> white w4 -> string_text k key -> value_text s v ->
    members_text (w1 ++ k ++ w2 ++ ":" ++ w3 ++ s ++ w4) [(key, v)]
| mt_more w1 k w2 w3 s w4 key v s' l : white w1 -> white w2 -> white w3 -> white w4 -> string_text k key -> value_text s v -> members_text s' l ->
    members_text (w1 ++ k ++ w2 ++ ":" ++ w3 ++ s ++ w4 ++ "," ++ s') ((key, v) :: l).

(** Values that can be written: strings are valid UTF-8 and floats are written as such. *)
Inductive writable_json : json -> Prop :=
| wj_null : writable_json JNull
| wj_bool b : writable_json (JBool b)
| wj_num n : writable_json (JNum n)
| wj_float s : float s -> writable_json (JFloat s)
| wj_str s : utf8 s -> writable_json (JStr s)
| wj_arr l : Forall writable_json l -> writable_json (JArr l)
| wj_obj l : Forall (fun kv => utf8 (fst kv) /\ writable_json (snd kv)) l -> writable_json (JObj l).

(** What may follow a number that ends there. *)
Definition ends_number (r : string) : Prop :=
  match r with "" => True | String a _ => ~ is_digit_code (code a) /\ a <> "."%char /\ a <> "e"%char /\ a <> "E"%char end.
Definition is_number (v : json) : Prop := match v with JNum _ | JFloat _ => True | _ => False end.

(** The lines of a text: it is cut after every newline. *)
Fixpoint lines (s : string) : list string :=
  match s with
  | "" => []
  | String a s =>
      if Z.eqb (code a) 10 then "" :: lines s
      else match lines s with [] => [String a ""] | l :: ls => String a l :: ls end
  end.

(** Times are written as valid text: RFC 3339. *)
Definition times_are_text (time_text : Z -> option string) : Prop := forall t s, time_text t = Some s -> utf8 s.

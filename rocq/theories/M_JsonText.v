(** The text of JSON: how encoding/json writes a value (Marshal, Encoder.Encode, SetIndent) and
    reads one (Unmarshal, Decoder.Decode).  From its documentation and source; used at
    trcweb/trace_server.go:117, 188, 215, 238, 293-345 and 495-520, trcweb/render.go:61-81,
    cmd/trc/search.go:32-46 and cmd/trc/stream.go:183-195. *)
From Verif Require Import Go M_Strings M_Types M_Filter M_Stats M_Search M_Web M_Json.
Open Scope list_scope.
Open Scope string_scope.

(** *** Writing *)
Definition chr (n : nat) : ascii := ascii_of_nat n.
Definition quotation : ascii := chr 34.
Definition backslash : ascii := chr 92.
Definition hex_digit (n : nat) : ascii := if Nat.ltb n 10 then chr (48 + n) else chr (87 + n).
(** encoding/json: encodeState.string, appendString, with escapeHTML.  Go 1.22 and later write
    backspace and form feed as \b and \f ([short]), earlier versions as \u0008 and \u000c. *)
Definition esc (short : bool) (a : ascii) : string :=
  let n := byte a in
  if Nat.eqb n 34 || Nat.eqb n 92 then String backslash (String a "")
  else if Nat.eqb n 8 && short then String backslash "b"
  else if Nat.eqb n 12 && short then String backslash "f"
  else if Nat.eqb n 10 then String backslash "n"
  else if Nat.eqb n 13 then String backslash "r"
  else if Nat.eqb n 9 then String backslash "t"
  else if Nat.ltb n 32 || Nat.eqb n 60 || Nat.eqb n 62 || Nat.eqb n 38
  then String backslash (String "u" (String "0" (String "0" (String (hex_digit (n / 16)) (String (hex_digit (n mod 16)) "")))))
  else String a "".
(** U+2028 and U+2029 are escaped too; they are the bytes e2 80 a8 and e2 80 a9. *)
Definition separator (a b c : ascii) : option string :=
  if Nat.eqb (byte a) 226 && Nat.eqb (byte b) 128 then
    if Nat.eqb (byte c) 168 then Some (String backslash "u2028") else if Nat.eqb (byte c) 169 then Some (String backslash "u2029") else None
  else None.
Fixpoint escaped (short : bool) (s : string) : string :=
  match s with
  | "" => ""
  | String a r =>
      match r with
      | String b (String c r2) =>
          match separator a b c with
          | Some e => e ++ escaped short r2
          | None => esc short a ++ escaped short r
          end
      | _ => esc short a ++ escaped short r
      end
  end.
Definition quote (short : bool) (s : string) : string := String quotation (escaped short s ++ String quotation "").

(** The start of a line at a depth, after SetIndent("", "    "); nothing without it.
    encoding/json indents the compact text, here it is written indented. *)
Definition newline : ascii := chr 10.
Fixpoint spaces (n : nat) : string := match n with O => "" | S n => String " " (spaces n) end.
Definition line (ind : option nat) : string := match ind with None => "" | Some d => String newline (spaces (4 * d)) end.
Definition colon (ind : option nat) : string := match ind with None => ":" | Some _ => ": " end.
(** the first, and the others after a comma *)
Fixpoint items (sep : string) (l : list string) : string :=
  match l with [] => "" | [x] => x | x :: l => x ++ "," ++ sep ++ items sep l end.
Definition wrap (ind : option nat) (o c : string) (l : list string) : string :=
  match l with
  | [] => o ++ c
  | _ => o ++ line (option_map S ind) ++ items (line (option_map S ind)) l ++ line ind ++ c
  end.
(** Marshal: [ind] is None; Encode with SetIndent: [Some 0] *)
Fixpoint text (short : bool) (ind : option nat) (v : json) : string :=
  match v with
  | JNull => "null"
  | JBool true => "true"
  | JBool false => "false"
  | JNum n => itoa n
  | JFloat s => s
  | JStr s => quote short s
  | JArr l => wrap ind "[" "]" (map (text short (option_map S ind)) l)
  | JObj l => wrap ind "{" "}" (map (fun kv => quote short (fst kv) ++ colon ind ++ text short (option_map S ind) (snd kv)) l)
  end.
(** Encoder.Encode: the value and a newline *)
Definition encoded (short : bool) (ind : option nat) (v : json) : string := text short ind v ++ String newline "".

(** values one after another, as the command writes them (cmd/trc/stream.go:183-208) *)
Fixpoint output (short : bool) (ind : option nat) (vs : list json) : string :=
  match vs with [] => "" | v :: vs => encoded short ind v ++ output short ind vs end.

(** *** Reading *)
Definition is_space (a : ascii) : bool := Nat.eqb (byte a) 32 || Nat.eqb (byte a) 9 || Nat.eqb (byte a) 10 || Nat.eqb (byte a) 13.
Fixpoint skip (s : string) : string := match s with String a r => if is_space a then skip r else s | "" => "" end.

(** Strings: encoding/json, unquote.  First what is written: bytes and escaped UTF-16 code units. *)
Inductive unit16 := Raw (a : ascii) | Code (n : Z).
Definition hex_value (a : ascii) : option Z :=
  let n := byte a in
  if between 48 n 57 then Some (Z.of_nat n - 48)%Z
  else if between 97 n 102 then Some (Z.of_nat n - 87)%Z
  else if between 65 n 70 then Some (Z.of_nat n - 55)%Z
  else None.
Definition hex4 (a b c d : ascii) : option Z :=
  match hex_value a, hex_value b, hex_value c, hex_value d with
  | Some x, Some y, Some z, Some w => Some (((x * 16 + y) * 16 + z) * 16 + w)%Z
  | _, _, _, _ => None
  end.
(** the escapes of one character *)
Definition short_escape (c : ascii) : option ascii :=
  let n := byte c in
  if Nat.eqb n 34 || Nat.eqb n 92 || Nat.eqb n 47 then Some c
  else if Nat.eqb n 98 then Some (chr 8)
  else if Nat.eqb n 102 then Some (chr 12)
  else if Nat.eqb n 110 then Some (chr 10)
  else if Nat.eqb n 114 then Some (chr 13)
  else if Nat.eqb n 116 then Some (chr 9)
  else None.
Definition ocons {A B} (x : A) (o : option (list A * B)) : option (list A * B) := match o with Some (l, r) => Some (x :: l, r) | None => None end.
(** after the opening quotation mark; what follows the closing one *)
Fixpoint units (s : string) : option (list unit16 * string) :=
  match s with
  | "" => None
  | String a r =>
      if Ascii.eqb a quotation then Some ([], r)
      else if Ascii.eqb a backslash then
        match r with
        | "" => None
        | String c r1 =>
            if Ascii.eqb c "u" then
              match r1 with
              | String h1 (String h2 (String h3 (String h4 r2))) =>
                  match hex4 h1 h2 h3 h4 with Some n => ocons (Code n) (units r2) | None => None end
              | _ => None
              end
            else match short_escape c with Some b => ocons (Raw b) (units r1) | None => None end
        end
      else if Nat.ltb (byte a) 32 then None
      else ocons (Raw a) (units r)
  end.
(** utf8.EncodeRune *)
Definition zchr (z : Z) : ascii := chr (Z.to_nat z).
Definition rune (n : Z) : string :=
  (if n <? 128 then String (zchr n) ""
   else if n <? 2048 then String (zchr (192 + n / 64)) (String (zchr (128 + n mod 64)) "")
   else if n <? 65536 then String (zchr (224 + n / 4096)) (String (zchr (128 + n / 64 mod 64)) (String (zchr (128 + n mod 64)) ""))
   else String (zchr (240 + n / 262144)) (String (zchr (128 + n / 4096 mod 64)) (String (zchr (128 + n / 64 mod 64)) (String (zchr (128 + n mod 64)) ""))))%Z.
Definition high (n : Z) : bool := ((55296 <=? n) && (n <? 56320))%Z.
Definition low (n : Z) : bool := ((56320 <=? n) && (n <? 57344))%Z.
(** utf16.DecodeRune *)
Definition pair_rune (n m : Z) : Z := ((n - 55296) * 1024 + (m - 56320) + 65536)%Z.
(** A surrogate that is not part of a pair becomes U+FFFD. *)
Fixpoint join (l : list unit16) : string :=
  match l with
  | [] => ""
  | Raw a :: l => String a (join l)
  | Code n :: l =>
      if high n then
        match l with
        | Code m :: l' => if low m then rune (pair_rune n m) ++ join l' else replacement ++ join l
        | _ => replacement ++ join l
        end
      else if low n then replacement ++ join l
      else rune n ++ join l
  end.
(** bytes that are not valid UTF-8 become U+FFFD *)
Definition unquote (s : string) : option (string * string) :=
  match units s with Some (l, r) => Some (to_utf8 (join l), r) | None => None end.

Fixpoint expects (p s : string) : option string :=
  match p with "" => Some s | String c p => match expect c s with Some r => expects p r | None => None end end.
Definition result {A} (v : json) (o : option A) : option (json * A) := match o with Some r => Some (v, r) | None => None end.
(** The value at the start of [s], after white space, and what follows it.  [fuel] bounds the
    steps; encoding/json accepts at most 10000 nested values, here there is no limit. *)
Fixpoint value (fuel : nat) (s : string) : option (json * string) :=
  match fuel with
  | O => None
  | S n =>
      match skip s with
      | "" => None
      | String a r =>
          if Ascii.eqb a quotation then match unquote r with Some (x, r') => Some (JStr x, r') | None => None end
          else if Ascii.eqb a "[" then
            match expect "]" (skip r) with
            | Some r' => Some (JArr [], r')
            | None => match elements n r with Some (l, r') => Some (JArr l, r') | None => None end
            end
          else if Ascii.eqb a "{" then
            match expect "}" (skip r) with
            | Some r' => Some (JObj [], r')
            | None => match members n r with Some (l, r') => Some (JObj l, r') | None => None end
            end
          else if Ascii.eqb a "n" then result JNull (expects "ull" r)
          else if Ascii.eqb a "t" then result (JBool true) (expects "rue" r)
          else if Ascii.eqb a "f" then result (JBool false) (expects "alse" r)
          else scan_number (String a r)
      end
  end
(** the elements of an array that is not empty, and its end *)
with elements (fuel : nat) (s : string) : option (list json * string) :=
  match fuel with
  | O => None
  | S n =>
      match value n s with
      | None => None
      | Some (v, r) =>
          match expect "," (skip r) with
          | Some r' => ocons v (elements n r')
          | None => match expect "]" (skip r) with Some r' => Some ([v], r') | None => None end
          end
      end
  end
(** the members of an object that is not empty, and its end *)
with members (fuel : nat) (s : string) : option (list (string * json) * string) :=
  match fuel with
  | O => None
  | S n =>
      match expect quotation (skip s) with
      | None => None
      | Some r0 =>
          match unquote r0 with
          | None => None
          | Some (k, r1) =>
              match expect ":" (skip r1) with
              | None => None
              | Some r2 =>
                  match value n r2 with
                  | None => None
                  | Some (v, r) =>
                      match expect "," (skip r) with
                      | Some r' => ocons (k, v) (members n r')
                      | None => match expect "}" (skip r) with Some r' => Some ([(k, v)], r') | None => None end
                      end
                  end
              end
          end
      end
  end.
(** Decoder.Decode; None is an error *)
Definition decode (s : string) : option (json * string) := value (2 * String.length s + 1) s.
(** Decode until the end of the text *)
Fixpoint decode_all_ (fuel : nat) (s : string) : option (list json) :=
  match fuel with
  | O => None
  | S n =>
      if is_empty (skip s) then Some []
      else match decode s with
           | Some (v, r) => match decode_all_ n r with Some l => Some (v :: l) | None => None end
           | None => None
           end
  end.
Definition decode_all (s : string) : option (list json) := decode_all_ (S (String.length s)) s.
(** json.Unmarshal and Decoder.Decode into a struct; Unmarshal also
    rejects what follows the value, Decode leaves it *)
Definition read {A} (dec : json -> option A) (s : string) : option A := match decode s with Some (j, _) => dec j | None => None end.

(** A search through the client with the text of request and response
    (trcweb/trace_server.go:179-222 and 105-154, trcweb/render.go:61-81), as [remote]. *)
Definition remote_text {RE} (short short' : bool) time_text parse_time (Compile : string -> RE + string) float_part
    (Search : SearchRequest RE -> res (SearchRequest RE * (SearchResponse + string))) (req : SearchRequest RE) (w : wire_response RE) : Prop :=
  exists body req' data duration answer,
    enc_request req body /\ read dec_request (text short None body) = Some req' /\
    handleSearch Compile float_part Search (IJSON (inl req')) = Ok (ORendered data) /\
    enc_data time_text (d_Request data) (MkWire (Some (d_Request data)) (d_Response data) duration) answer /\
    read (dec_data parse_time) (encoded short' (Some 0%nat) answer) = Some w.

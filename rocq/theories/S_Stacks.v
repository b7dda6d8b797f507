(** What a browser makes of the stack of an event on the search page: a reading of HTML with
    attributes, the short name of a function, and the file a link opens. *)
From Verif Require Import Go.
Open Scope string_scope.
Open Scope list_scope.

(** ** HTML: text, and tags with their attributes *)
Inductive piece :=
| Text (c : ascii)
| Start (name : string) (attributes : list (string * string))
| End_ (name : string).

(** the character references that are used; any other is refused *)
Definition reference (name : string) : option string :=
  if String.eqb name "amp" then Some "&"
  else if String.eqb name "lt" then Some "<"
  else if String.eqb name "gt" then Some ">"
  else if String.eqb name "#34" then Some (String "034" "")
  else if String.eqb name "#39" then Some "'"
  else if String.eqb name "#43" then Some "+"
  else if String.eqb name "middot" then Some (String "194" (String "183" ""))
  else None.

Fixpoint text (s : string) : list piece :=
  match s with EmptyString => [] | String c s => Text c :: text s end.

Inductive reading :=
| InText
| InRef (r : string)
| InName (name : string)
| InTag (name : string) (attrs : list (string * string))
| InKey (name : string) (attrs : list (string * string)) (key : string)
| InEq (name : string) (attrs : list (string * string)) (key : string)
| InValue (name : string) (attrs : list (string * string)) (key val : string)
| InValueRef (name : string) (attrs : list (string * string)) (key val r : string)
| InEnd (name : string).

Definition quote : ascii := "034".
Definition snoc (s : string) (c : ascii) : string := (s ++ String c "")%string.

(** A tag is a name and attributes key="value" in double quotes, a blank before each; "/" before ">" is passed
    over.  References are read in text and in values.  [None]: not HTML of this kind. *)
Fixpoint read (st : reading) (s : string) : option (list piece) :=
  match s with
  | EmptyString => match st with InText => Some [] | _ => None end
  | String c s =>
      match st with
      | InText =>
          if Ascii.eqb c "<" then read (InName "") s
          else if Ascii.eqb c "&" then read (InRef "") s
          else option_map (cons (Text c)) (read InText s)
      | InRef r =>
          if Ascii.eqb c ";" then
            match reference r with Some x => option_map (app (text x)) (read InText s) | None => None end
          else read (InRef (snoc r c)) s
      | InName name =>
          if Ascii.eqb c ">" then option_map (cons (Start name [])) (read InText s)
          else if Ascii.eqb c " " then read (InKey name [] "") s
          else if Ascii.eqb c "/" then (if String.eqb name "" then read (InEnd "") s else read (InTag name []) s)
          else read (InName (snoc name c)) s
      | InTag name attrs =>
          if Ascii.eqb c ">" then option_map (cons (Start name attrs)) (read InText s)
          else if Ascii.eqb c " " then read (InKey name attrs "") s
          else None
      | InKey name attrs key =>
          if Ascii.eqb c "=" then read (InEq name attrs key) s else read (InKey name attrs (snoc key c)) s
      | InEq name attrs key =>
          if Ascii.eqb c quote then read (InValue name attrs key "") s else None
      | InValue name attrs key val =>
          if Ascii.eqb c quote then read (InTag name (attrs ++ [(key, val)])) s
          else if Ascii.eqb c "&" then read (InValueRef name attrs key val "") s
          else read (InValue name attrs key (snoc val c)) s
      | InValueRef name attrs key val r =>
          if Ascii.eqb c ";" then
            match reference r with Some x => read (InValue name attrs key (val ++ x)) s | None => None end
          else read (InValueRef name attrs key val (snoc r c)) s
      | InEnd name =>
          if Ascii.eqb c ">" then option_map (cons (End_ name)) (read InText s)
          else read (InEnd (snoc name c)) s
      end
  end.

(** NUL cannot be shown: U+FFFD stands for it *)
Fixpoint showable (s : string) : string :=
  match s with
  | EmptyString => ""
  | String c s => if Ascii.eqb c "000" then String "239" (String "191" (String "189" (showable s))) else String c (showable s)
  end.

(** ** The short name of a function: what follows its last slash, unless that is its first byte *)
Definition no_slash (s : string) : Prop := ~ In "/"%char (list_ascii_of_string s).
Definition short_name (f b : string) : Prop :=
  (exists d, d <> "" /\ f = (d ++ "/" ++ b)%string /\ no_slash b) \/
  (b = f /\ forall d b', f = (d ++ "/" ++ b')%string -> no_slash b' -> d = "").

(** ** How one frame is shown: the function's short name, with its whole name as a tooltip, a dot, and the place in
    the file; the place is a link if there is an address for it. *)
Definition frame_pieces (function shown place href : string) : list piece :=
  [Start "span" [("style", "color: #999;")];
   Start "span" [("class", "searchable"); ("title", showable function)]] ++ text (showable shown) ++ [End_ "span"] ++
  text (String "194" (String "183" "")) ++ [End_ "span"] ++
  (if String.eqb href "" then
     [Start "span" [("class", "searchable")]] ++ text (showable place) ++ [End_ "span"]
   else
     [Start "a" [("class", "searchable"); ("href", href)]] ++ text (showable place) ++ [End_ "a"]) ++
  [Start "br" []].
(** the whole stack, closed until it is opened by its reader *)
Definition stack_pieces (frames : list (list piece)) : list piece :=
  [Start "div" [("class", "stack")]; Start "details" [("class", "stack-details")]; Start "summary" []; End_ "summary"] ++
  concat frames ++ [End_ "details"; End_ "div"].

(** ** What a link of the editor opens *)
Definition hex_value (c : ascii) : option N :=
  let n := N_of_ascii c in
  if ((48 <=? n) && (n <=? 57))%N then Some (n - 48)%N
  else if ((97 <=? n) && (n <=? 102))%N then Some (n - 87)%N
  else if ((65 <=? n) && (n <=? 70))%N then Some (n - 55)%N
  else None.
(** % before two hexadecimal digits stands for a byte *)
Fixpoint percent_decode (s : string) : string :=
  match s with
  | EmptyString => ""
  | String c r =>
      if Ascii.eqb c "%" then
        match r with
        | String x (String y r') =>
            match hex_value x, hex_value y with
            | Some a, Some b => String (ascii_of_N (16 * a + b)) (percent_decode r')
            | _, _ => String c (percent_decode r)
            end
        | _ => String c (percent_decode r)
        end
      else String c (percent_decode r)
  end.
(** a path ends where a query or a fragment begins *)
Fixpoint path_of (s : string) : string :=
  match s with
  | EmptyString => ""
  | String c s => if Ascii.eqb c "?" || Ascii.eqb c "#" then "" else String c (path_of s)
  end.
Fixpoint without_prefix (p s : string) : option string :=
  match p, s with
  | EmptyString, _ => Some s
  | String a p, String b s => if Ascii.eqb a b then without_prefix p s else None
  | String _ _, EmptyString => None
  end.
Definition opens (href : string) : option string :=
  option_map (fun p => percent_decode (path_of p)) (without_prefix "vscode://file/" href).
(** a path that means itself in a link *)
Definition plain_path (s : string) : Prop :=
  (forall c, In c (list_ascii_of_string s) -> c <> "?"%char /\ c <> "#"%char) /\
  (forall a x y b, s = (a ++ String "%" (String x (String y b)))%string -> hex_value x = None \/ hex_value y = None).

(** An address as it may stand in a page: bytes that addresses are made of, and the same bytes behind it, in the path
    and as a whole. *)
Definition address_byte (c : ascii) : Prop :=
  In c (list_ascii_of_string "abcdefghijklmnopqrstuvwxyzABCDEFGHIJKLMNOPQRSTUVWXYZ0123456789-._~!#$&*+,/:;=?@[]%").
Definition same_address (u href : string) : Prop :=
  Forall address_byte (list_ascii_of_string href) /\
  percent_decode href = percent_decode u /\
  percent_decode (path_of href) = percent_decode (path_of u).

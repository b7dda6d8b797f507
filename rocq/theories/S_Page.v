(** What a browser makes of the search page: a small reading of HTML text, and the searches
    the links and the form of the page are meant to make. *)
From Verif Require Import Go M_Types M_Filter M_Search.
Open Scope string_scope.
Open Scope list_scope.
Open Scope Z_scope.

(** ** HTML text: characters and tags *)
Inductive token := Txt (c : ascii) | Tag (name : string).
Inductive html_state := InText | InTag (name : string) | InRef (name : string).

(** character references; any other is refused *)
Definition reference (name : string) : option ascii :=
  if String.eqb name "amp" then Some "&"%char
  else if String.eqb name "lt" then Some "<"%char
  else if String.eqb name "gt" then Some ">"%char
  else if String.eqb name "#34" then Some "034"%char
  else if String.eqb name "#39" then Some "'"%char
  else None.

(** "<" opens a tag, which ends at ">"; "&" opens a character reference, which ends at ";";
    any other byte is itself.  [None]: a tag or a reference without an end, or an unknown reference. *)
Fixpoint read_html (st : html_state) (s : string) : option (list token) :=
  match s with
  | EmptyString => match st with InText => Some [] | _ => None end
  | String c s =>
      match st with
      | InText =>
          if Ascii.eqb c "<" then read_html (InTag "") s
          else if Ascii.eqb c "&" then read_html (InRef "") s
          else option_map (cons (Txt c)) (read_html InText s)
      | InTag name =>
          if Ascii.eqb c ">" then option_map (cons (Tag name)) (read_html InText s)
          else read_html (InTag (name ++ String c "")) s
      | InRef name =>
          if Ascii.eqb c ";" then
            match reference name with
            | Some x => option_map (cons (Txt x)) (read_html InText s)
            | None => None
            end
          else read_html (InRef (name ++ String c "")) s
      end
  end.

(** the text the reader of the page sees, and the elements *)
Fixpoint text_content (l : list token) : string :=
  match l with [] => "" | Txt c :: l => String c (text_content l) | Tag _ :: l => text_content l end.
Fixpoint tags (l : list token) : list string :=
  match l with [] => [] | Tag t :: l => t :: tags l | Txt _ :: l => tags l end.

(** NUL cannot be shown: U+FFFD stands for it *)
Fixpoint showable (s : string) : string :=
  match s with
  | EmptyString => ""
  | String c s => if Ascii.eqb c "000" then String "239" (String "191" (String "189" (showable s))) else String c (showable s)
  end.

(** ** Searches *)
Section Searches.
Context {RE : Type}.
(** The search of the page, without what its filter selects by category, state and
    duration, and with what the link selects instead. *)
Definition selection (req : @SearchRequest RE) (category : string) (active errored : bool) (min : option Z) : @SearchRequest RE :=
  MkReq (req_Bucketing req)
        (MkFilter (Sources (req_Filter req)) [] category active false min false errored (Query (req_Filter req)) None)
        (req_Limit req) 0.
(** No bucketing in the parameters means the default one (search_types.go:35-37). *)
Definition with_bucketing (req : @SearchRequest RE) : @SearchRequest RE :=
  MkReq (match req_Bucketing req with [] => DefaultBucketing | b => b end) (req_Filter req) (req_Limit req) (req_StackDepth req).

(** A request as the page has it, after Normalize: a limit in range, a bucketing that is
    ascending and starts at 0. *)
Definition page_request (req : @SearchRequest RE) : Prop :=
  1 <= req_Limit req <= 250 /\
  (exists b, req_Bucketing req = 0 :: b) /\
  (forall i j, (i <= j < length (req_Bucketing req))%nat -> nth i (req_Bucketing req) 0 <= nth j (req_Bucketing req) 0) /\
  (forall d, In d (req_Bucketing req) -> - 2 ^ 63 <= d < 2 ^ 63).
End Searches.

(** Text that may stand in a link as it is: none of & + # ; and no % before two
    hexadecimal digits. *)
Definition hex_digit (c : ascii) : Prop := In c (list_ascii_of_string "0123456789abcdefABCDEF").
Definition link_text (s : string) : Prop :=
  (forall c, In c (list_ascii_of_string s) -> c <> "&"%char /\ c <> "+"%char /\ c <> "#"%char /\ c <> ";"%char) /\
  (forall a x y b, s = (a ++ String "%" (String x (String y b)))%string -> ~ (hex_digit x /\ hex_digit y)).

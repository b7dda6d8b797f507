(** Specification for C45: what a format is made of, and the text it stands for. *)
From Verif Require Import Go M_Strings.
Open Scope string_scope.
Open Scope list_scope.

Definition made_of (chars s : string) : Prop := forall c, In c (list_of_string s) -> In c (list_of_string chars).
Definition flag_chars : string := "#0+- ".
Definition digit_chars : string := "0123456789".

(** One byte of text, or a directive: flags, a width, a precision, and the verb.  The verb may be
    another percent sign, which takes no argument. *)
Inductive piece := Text (c : ascii) | Directive (flags width : string) (precision : option string) (verb : ascii).
Definition settings (flags width : string) (precision : option string) : string :=
  (flags ++ width ++ match precision with Some p => String "." p | None => "" end)%string.
Fixpoint format_of (l : list piece) : string :=
  match l with
  | [] => ""
  | Text c :: l => String c (format_of l)
  | Directive flags width precision verb :: l => String "%" (settings flags width precision ++ String verb (format_of l))%string
  end.
(** No explicit argument indexes and no stars, and verbs in ASCII; what can be read as part of the
    settings is. *)
Definition proper (p : piece) : Prop :=
  match p with
  | Text c => c <> "%"%char
  | Directive flags width precision verb =>
      made_of flag_chars flags /\
      made_of digit_chars width /\ (forall r, width <> String "0" r) /\
      match precision with Some p => made_of digit_chars p | None => verb <> "."%char end /\
      (width = "" -> precision = None -> ~ In verb (list_of_string flag_chars)) /\
      ~ In verb (list_of_string digit_chars) /\ verb <> "["%char /\ verb <> "*"%char /\ (N_of_ascii verb < 128)%N
  end.

(** The text: directives take the arguments one after another. *)
Inductive stands_for {arg} (print : string -> ascii -> arg -> string) : list piece -> list arg -> string -> Prop :=
| stands_end : stands_for print [] [] ""
| stands_text c l a s : stands_for print l a s -> stands_for print (Text c :: l) a (String c s)
| stands_percent flags width precision l a s :
    stands_for print l a s -> stands_for print (Directive flags width precision "%" :: l) a (String "%" s)
| stands_verb flags width precision verb l x a s : verb <> "%"%char ->
    stands_for print l a s ->
    stands_for print (Directive flags width precision verb :: l) (x :: a) (print (settings flags width precision) verb x ++ s)%string.

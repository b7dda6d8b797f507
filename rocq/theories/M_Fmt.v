(** Model of fmt.Sprintf: how a format string is split into literal text and directives
    and which argument each directive takes (doPrintf in package fmt).  What a directive does
    with its argument is an input. *)
From Verif Require Import Go M_Strings M_Text.
Open Scope string_scope.
Open Scope list_scope.

Section Fmt.
Context {arg world : Type}.
(** the text of one argument for a directive: its flags, width and precision, the verb,
    and the argument, formatted in the current world (pointers may be followed) *)
Variable printArg : world -> string -> ascii -> arg -> string.
(** an argument that no directive took: type=value *)
Variable printExtra : world -> arg -> string.
(** A directive with an explicit argument index ('['), a '*', or a verb that is not
    ASCII: everything from its flags on is rendered by this. *)
Variable special : world -> string -> string -> list arg -> string.

Inductive phase := PLit | PFlags | PWidth | PPrec.

Definition is_flag (c : ascii) : bool :=
  Ascii.eqb c "#" || Ascii.eqb c "0" || Ascii.eqb c "+" || Ascii.eqb c "-" || Ascii.eqb c " ".
Definition is_special (c : ascii) : bool :=
  Ascii.eqb c "[" || Ascii.eqb c "*" || (128 <=? N_of_ascii c)%N.

(** what the next byte of a directive is *)
Inductive part := More (ph : phase) | Special | Percent | Verb.
Definition classify (ph : phase) (c : ascii) : part :=
  match ph with
  | PLit => Verb (* not used *)
  | _ =>
      if (match ph with PFlags => true | _ => false end) && is_flag c then More PFlags
      else if (match ph with PPrec => false | _ => true end) && is_digit c then More PWidth
      else if (match ph with PPrec => true | _ => false end) && is_digit c then More PPrec
      else if (match ph with PPrec => false | _ => true end) && Ascii.eqb c "." then More PPrec
      else if is_special c then Special
      else if Ascii.eqb c "%" then Percent
      else Verb
  end.

Definition snoc (d : string) (c : ascii) : string := (d ++ String c EmptyString)%string.

Fixpoint join (sep : string) (l : list string) : string :=
  match l with [] => "" | [x] => x | x :: l => (x ++ sep ++ join sep l)%string end.

(** the arguments that are left at the end *)
Definition extras (w : world) (a : list arg) : string :=
  match a with [] => "" | _ => ("%!(EXTRA " ++ join ", " (map (printExtra w) a) ++ ")")%string end.

(** doPrintf: [f] is the rest of the format, [ph] the part of a directive we are in,
    [d] the directive so far, [a] the arguments not used yet.  (Widths beyond a million,
    which Go rejects, are treated as ordinary directives.) *)
Fixpoint doPrintf (w : world) (f : string) (ph : phase) (d : string) (a : list arg) : string :=
  match f with
  | EmptyString => ((match ph with PLit => "" | _ => "%!(NOVERB)" end) ++ extras w a)%string
  | String c r =>
      match ph with
      | PLit => if Ascii.eqb c "%" then doPrintf w r PFlags "" a else String c (doPrintf w r PLit "" a)
      | _ =>
          match classify ph c with
          | More ph => doPrintf w r ph (snoc d c) a
          | Special => special w d f a
          | Percent => String "%" (doPrintf w r PLit "" a)
          | Verb =>
              match a with
              | [] => ("%!" ++ String c "(MISSING)" ++ doPrintf w r PLit "" [])%string
              | x :: a => (printArg w d c x ++ doPrintf w r PLit "" a)%string
              end
          end
      end
  end.

Definition Sprintf (w : world) (format : string) (args : list arg) : string := doPrintf w format PLit "" args.
End Fmt.

(** How many arguments a format takes, if it has no special directive and does not end
    inside a directive. *)
Fixpoint takes_from (f : string) (ph : phase) : option nat :=
  match f with
  | EmptyString => match ph with PLit => Some 0%nat | _ => None end
  | String c r =>
      match ph with
      | PLit => if Ascii.eqb c "%" then takes_from r PFlags else takes_from r PLit
      | _ =>
          match classify ph c with
          | More ph => takes_from r ph
          | Special => None
          | Percent => takes_from r PLit
          | Verb => option_map S (takes_from r PLit)
          end
      end
  end.
Definition takes (f : string) : option nat := takes_from f PLit.

(** no directive at all *)
Definition literal (f : string) : Prop := forall c, c = "%"%char -> ~ In c (list_of_string f).

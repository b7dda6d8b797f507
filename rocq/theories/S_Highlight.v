(** What a browser makes of the style sheet of the search page, and which cells of the
    summary table are meant to be highlighted. *)
From Verif Require Import Go M_Types M_Filter M_Humanize M_Highlight.
Open Scope string_scope.
Open Scope list_scope.
Open Scope Z_scope.

(** ** Style sheets *)
(** CSS names: they begin with a letter, an underscore or a byte above ASCII (after an
    optional hyphen), and go on with those, digits and hyphens. *)
Definition letter (c : ascii) : bool := byte_in 65 90 c || byte_in 97 122 c || Ascii.eqb c "_" || (128 <=? N_of_ascii c)%N.
Definition name_byte (c : ascii) : bool := letter c || byte_in 48 57 c || Ascii.eqb c "-".
Fixpoint all_bytes_are (p : ascii -> bool) (s : string) : bool :=
  match s with EmptyString => true | String c s => p c && all_bytes_are p s end.
Definition starts_with (p : ascii -> bool) (s : string) : bool := match s with EmptyString => false | String c _ => p c end.
Definition css_name (s : string) : bool :=
  (starts_with letter s || match s with String "-"%char r => starts_with (fun c => letter c || Ascii.eqb c "-") r | _ => false end) &&
  all_bytes_are name_byte s.
(** the text between the dots *)
Fixpoint pieces (s : string) : list string :=
  match s with
  | EmptyString => [""]
  | String c s =>
      if Ascii.eqb c "." then "" :: pieces s
      else match pieces s with p :: ps => String c p :: ps | [] => [String c ""] end
  end.
(** A selector of the form element.class.class; None: the browser cannot read it. *)
Definition read_selector (s : string) : option (string * list string) :=
  if forallb css_name (pieces s) then match pieces s with e :: cs => Some (e, cs) | [] => None end else None.
Definition selects (sel : string * list string) (e : element) : Prop :=
  fst sel = e_name e /\ forall c, In c (snd sel) -> In c (e_classes e).
(** A rule with a list of selectors applies to what one of them selects; a browser drops
    the rule if it cannot read one of its selectors. *)
Definition applies (selectors : list string) (e : element) : Prop :=
  (forall s, In s selectors -> read_selector s <> None) /\
  exists s sel, In s selectors /\ read_selector s = Some sel /\ selects sel e.

(** The cell [e] of line [l], before the lines [below], is highlighted. *)
Definition highlighted (st : style) (l : table_line) (below : list table_line) (e : element) : Prop :=
  match st with
  | Rule selectors => applies selectors e \/ applies selectors (l_element l)
  | LastRow => below = [] /\ e_name e = "td"
  | NoRule => False
  end.

(** ** Selections *)
(** The search selects something the table has a row or a column for. *)
Definition selects_some {RE} (f : Filter RE) : Prop :=
  FCategory f <> "" \/ IsActive f = true \/ MinDuration f <> None \/ IsErrored f = true.
(** The cell in this row and column is (a part of) what the search selects. *)
Definition in_selection {RE} (f : Filter RE) (category : option string) (col : column) : Prop :=
  (FCategory f <> "" -> category = Some (FCategory f)) /\
  (IsActive f = true -> col = ActiveColumn) /\
  (forall d, MinDuration f = Some d -> col = MinColumn d) /\
  (IsErrored f = true -> col = ErroredColumn).

(** Durations of a whole number of the unit they are written in *)
Definition whole (d : Z) : Prop :=
  0 <= d /\
  (d < Microsecond \/ d < Millisecond /\ d mod Microsecond = 0 \/ d < Second /\ d mod Millisecond = 0 \/ d mod Second = 0).

Definition lower_hex (c : ascii) : bool := byte_in 48 57 c || byte_in 97 102 c.

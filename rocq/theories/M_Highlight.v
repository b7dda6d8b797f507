(** Model of how the summary table of the search page shows what is selected:
    highlightClasses and categoryClass (trcweb/render.go:247-269), the style sheet
    (trcweb/assets/traces.html:11-32) and the classes of the table (traces.html:126-233). *)
From Verif Require Import Go M_Strings M_Types M_Stats M_Filter M_Search M_Text M_Humanize.
Open Scope string_scope.
Open Scope list_scope.
Open Scope Z_scope.

(** ** html/template in a style sheet *)

(** html/template: cssValueFilter.  The bytes it refuses, and two hyphens in a row.  (Its
    first step, decodeCSS, changes only text with a backslash, which no class has.) *)
Definition css_refused : list ascii :=
  ["000"; "034"; "'"; "("; ")"; "/"; ";"; "@"; "["; "\"; "]"; "`"; "{"; "}"; "<"; ">"]%char.
Fixpoint css_unsafe (after_hyphen : bool) (s : string) : bool :=
  match s with
  | EmptyString => false
  | String c s => existsb (Ascii.eqb c) css_refused || (Ascii.eqb c "-" && after_hyphen) || css_unsafe (Ascii.eqb c "-") s
  end.
(** ... the ASCII letters, digits and underscores of the text, in lower case *)
Definition byte_in (lo hi : N) (c : ascii) : bool := ((lo <=? N_of_ascii c) && (N_of_ascii c <=? hi))%N.
Fixpoint css_id (s : string) : string :=
  match s with
  | EmptyString => ""
  | String c s =>
      if byte_in 65 90 c then String (ascii_of_N (N_of_ascii c + 32)) (css_id s)
      else if byte_in 97 122 c || byte_in 48 57 c || Ascii.eqb c "_" then String c (css_id s)
      else css_id s
  end.
(** bytes.Contains *)
Fixpoint Contains (s sub : string) : bool :=
  String.prefix sub s || match s with EmptyString => false | String _ s => Contains s sub end.
Definition cssValueFilter (s : string) : string :=
  if css_unsafe false s || Contains (css_id s) "expression" || Contains (css_id s) "mozbinding" then "ZgotmplZ" else s.

Section Page.
Context {RE : Type}.
(** trcweb/render.go:301-305: the SHA-256 of the text in hexadecimal *)
Variable sha256hex : string -> string.

(** trcweb/render.go:247-249 *)
Definition categoryClass (category : string) : string := ("category-" ++ sha256hex category)%string.

(** trcweb/render.go:251-269 *)
Definition highlightClasses (f : @Filter RE) : list string :=
  match IDs f with
  | _ :: _ => []
  | [] =>
      (if String.eqb (FCategory f) "" then [] else [categoryClass (FCategory f)]) ++
      (if IsActive f then ["active"] else []) ++
      (match MinDuration f with Some d => [("min-" ++ DurationString d)%string] | None => [] end) ++
      (if IsErrored f then ["errored"] else [])
  end.

(** traces.html:14-16: the last part of each selector, {{ range $highlight_classes }}.{{.}}{{ end }}
    after the name of an element.  (The first part, table#summary, holds for all of the table.) *)
Fixpoint class_selectors (classes : list string) : string :=
  match classes with [] => "" | c :: classes => ("." ++ cssValueFilter c ++ class_selectors classes)%string end.
Definition selector (element : string) (classes : list string) : string := (element ++ class_selectors classes)%string.

(** traces.html:11-32: the rule for a selection, the rule for the last row, or none *)
Inductive style := Rule (selectors : list string) | LastRow | NoRule.
Definition page_style (f : @Filter RE) : style :=
  match highlightClasses f with
  | _ :: _ => Rule (map (fun e => selector e (highlightClasses f)) ["th"; "td"; "tr"])
  | [] => match IDs f with [] => LastRow | _ => NoRule end
  end.

(** ** The table *)

(** The columns of the table.  This is only a name for a place in it. *)
Inductive column := CategoryColumn | ActiveColumn | MinColumn (d : Z) | ErroredColumn | TotalColumn | Separator
  | OldestColumn | NewestColumn | RateColumn.
(** An element, its classes (no duration and no hash has white space in it) *)
Record element := MkElement { e_name : string; e_classes : list string }.
(** A row: the category it is for (None: the header), its element, its cells *)
Record table_line := MkLine { l_category : option string; l_element : element; l_cells : list (column * element) }.

(** traces.html:127-164 *)
Definition header_line (bucketing : list Z) : table_line :=
  MkLine None (MkElement "tr" ["header"])
    ([(CategoryColumn, MkElement "th" ["category"; "text"]); (ActiveColumn, MkElement "th" ["active"])] ++
     map (fun d => (MinColumn d, MkElement "th" ["bucket"; ("min-" ++ DurationString d)%string])) bucketing ++
     [(ErroredColumn, MkElement "th" ["errored"]); (TotalColumn, MkElement "th" ["total"]); (Separator, MkElement "th" ["separator"]);
      (OldestColumn, MkElement "th" ["oldest"]); (NewestColumn, MkElement "th" ["newest"]); (RateColumn, MkElement "th" ["rate"; "numeric"])]).

(** traces.html:191-198; None is the failure of [index] *)
Fixpoint bucket_elements (class : string) (bucketing counts : list Z) : option (list (column * element)) :=
  match counts, bucketing with
  | [], _ => Some []
  | _ :: counts, d :: bucketing =>
      match bucket_elements class bucketing counts with
      | Some l => Some ((MinColumn d, MkElement "td" ["bucket"; "count"; "progress"; ("min-" ++ DurationString d)%string; class]) :: l)
      | None => None
      end
  | _ :: _, [] => None
  end.
(** traces.html:166-232 *)
Definition category_line (bucketing : list Z) (cs : CategoryStats) : option table_line :=
  let class := categoryClass (cs_Category cs) in
  match bucket_elements class bucketing (BucketCounts cs) with
  | Some buckets =>
      Some (MkLine (Some (cs_Category cs)) (MkElement "tr" ["category"])
        ([(CategoryColumn, MkElement "td" ["category"; "text"; class]);
          (ActiveColumn, MkElement "td" ["active"; "count"; "progress"; "active"; class])] ++
         buckets ++
         [(ErroredColumn, MkElement "td" ["errored"; "count"; "progress"; class]); (TotalColumn, MkElement "td" ["total"; "count"; class]);
          (Separator, MkElement "td" ["separator"; class]); (OldestColumn, MkElement "td" ["oldest"; class]);
          (NewestColumn, MkElement "td" ["newest"; class]); (RateColumn, MkElement "td" ["rate"; "numeric"; class])]))
  | None => None
  end.
Fixpoint category_lines (bucketing : list Z) (css : list CategoryStats) : option (list table_line) :=
  match css with
  | [] => Some []
  | cs :: css =>
      match category_line bucketing cs, category_lines bucketing css with
      | Some l, Some ls => Some (l :: ls)
      | _, _ => None
      end
  end.
(** traces.html:126-235: the header has the bucketing of the response, the lines below it
    that of the request; [css] is .Response.Stats.AllCategories (C74). *)
Definition table_lines (req : @SearchRequest RE) (response_bucketing : list Z) (css : list CategoryStats) : option (list table_line) :=
  match category_lines (req_Bucketing req) css with
  | Some ls => Some (header_line response_bucketing :: ls)
  | None => None
  end.
End Page.

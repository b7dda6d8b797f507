(** Model of the parts of trcweb/assets/traces.html and trcweb/render.go that put text and
    links into the search page, with the library functions of html/template they rely on. *)
From Verif Require Import Go M_Strings M_Types M_Frame M_Filter L_Order M_Humanize M_Text M_Search M_Url.
Open Scope string_scope.
Open Scope list_scope.
Open Scope Z_scope.

(** ** Event text *)

(** template.HTMLEscapeString, one byte; NUL becomes U+FFFD *)
Definition replacement_char : string := String "239" (String "191" (String "189" EmptyString)).
Definition escape_byte_html (c : ascii) : string :=
  if Ascii.eqb c "000" then replacement_char
  else if Ascii.eqb c "034" then "&#34;"
  else if Ascii.eqb c "'" then "&#39;"
  else if Ascii.eqb c "&" then "&amp;"
  else if Ascii.eqb c "<" then "&lt;"
  else if Ascii.eqb c ">" then "&gt;"
  else String c EmptyString.
Fixpoint HTMLEscapeString (s : string) : string :=
  match s with
  | EmptyString => EmptyString
  | String c s => (escape_byte_html c ++ HTMLEscapeString s)%string
  end.

(** trcweb/render.go:176-179: breaksReplacer.Replace.  Each old string is one byte, so the
    replacer works byte by byte. *)
Fixpoint InsertBreaks (s : string) : string :=
  match s with
  | EmptyString => EmptyString
  | String c s =>
      if Ascii.eqb c "," then (",<wbr>" ++ InsertBreaks s)%string
      else if Ascii.eqb c ";" then (";<wbr>" ++ InsertBreaks s)%string
      else String c (InsertBreaks s)
  end.

(** trcweb/assets/traces.html:431, {{ .What | HTMLEscape | InsertBreaks }} (render.go:218-219): what
    is written between <span class="searchable"> and </span>.  InsertBreaks gives a
    template.HTML, which the template writes as it is. *)
Definition event_html (what : string) : string := InsertBreaks (HTMLEscapeString what).

(** ** Highlighting, in the browser *)

(** strings.ToLower for one byte; the i flag of the regular expression *)
Definition lower (c : ascii) : ascii :=
  let n := N_of_ascii c in if ((65 <=? n) && (n <=? 90))%N then ascii_of_N (n + 32) else c.
Fixpoint prefix_fold (p s : string) : bool :=
  match p, s with
  | EmptyString, _ => true
  | String a p, String b s => Ascii.eqb a (lower b) && prefix_fold p s
  | String _ _, EmptyString => false
  end.
Definition quote : string := String "034" EmptyString.
Definition mark_open : string := ("<mark class=" ++ quote ++ "highlight" ++ quote ++ ">")%string.
Definition mark_close : string := "</mark>".

(** traces.html:83: .replace(/(<mark class="highlight">|<\/mark>)/gim, ' '); [skip] bytes
    belong to a match that has been replaced *)
Fixpoint unmark (skip : nat) (s : string) : string :=
  match s with
  | EmptyString => EmptyString
  | String c r =>
      match skip with
      | S k => unmark k r
      | O =>
          if prefix_fold mark_open s then String " " (unmark (String.length mark_open - 1) r)
          else if prefix_fold mark_close s then String " " (unmark (String.length mark_close - 1) r)
          else String c (unmark 0 r)
      end
  end.

(** traces.html:78-92, for one element whose innerHTML is [inner] and whose textContent is
    [text]; the result is the element's innerHTML afterwards.  [find] is the regular
    expression made from the query: the text before the first match, the match, and the
    text after it.  (Opening the enclosing details element is left out.) *)
Section Highlight.
Variable find : string -> option (string * string * string).
Definition highlight (inner text : string) : string :=
  match find inner with
  | None => inner
  | Some _ =>
      let oldText := unmark 0 text in
      match find oldText with
      | None => oldText
      | Some (before, m, after) => (before ++ mark_open ++ m ++ mark_close ++ after)%string
      end
  end.
End Highlight.

(** ** Links *)

(** html/template's processURLOnto; [norm] is true for a template.URL.  In lower case
    hexadecimal, as by fmt's %02x. *)
Definition is_hex (c : ascii) : bool := match unhex c with Some _ => true | None => false end.
Definition lowerhex (v : N) : ascii := if (v <? 10)%N then ascii_of_N (v + 48) else ascii_of_N (v + 87).
Definition url_reserved (c : ascii) : bool :=
  existsb (Ascii.eqb c) ["!"; "#"; "$"; "&"; "*"; "+"; ","; "/"; ":"; ";"; "="; "?"; "@"; "["; "]"]%char.
Definition percent (c : ascii) (rest : string) : string :=
  String "%" (String (lowerhex (N_of_ascii c / 16)) (String (lowerhex (N_of_ascii c mod 16)) rest)).
Definition two_hex (s : string) : bool :=
  match s with String a (String b _) => is_hex a && is_hex b | _ => false end.
Fixpoint process_url (norm : bool) (s : string) : string :=
  match s with
  | EmptyString => EmptyString
  | String c r =>
      let keep :=
        if url_reserved c then norm
        else if Ascii.eqb c "%" then norm && two_hex r
        else unreserved c in
      if keep then String c (process_url norm r) else percent c (process_url norm r)
  end.

Section Links.
Context {RE : Type}.
Notation SearchRequest := (@SearchRequest RE).

(** {{ printf "%s&k=%s" params v | SafeURL }} *)
Definition and_param (k : string) (params v : string) : string := (params ++ "&" ++ k ++ "=" ++ v)%string.
Definition durations_eqb (a b : list Z) : bool := if list_eq_dec Z.eq_dec a b then true else false.

(** traces.html:104-122: $query_params.  .Request is the request after Normalize. *)
Definition query_params (req : SearchRequest) : string :=
  let p := ("n=" ++ itoa (req_Limit req))%string in
  let p := if String.eqb (Query (req_Filter req)) "" then p else and_param "q" p (Query (req_Filter req)) in
  let p := fold_left (and_param "source") (Sources (req_Filter req)) p in
  if durations_eqb DefaultBucketing (req_Bucketing req) then p
  else fold_left (fun p d => and_param "b" p (DurationString d)) (req_Bucketing req) p.

(** traces.html:171-174: $category_query_params *)
Definition category_query_params (req : SearchRequest) (category : string) : string :=
  if String.eqb category "overall" then query_params req
  else and_param "category" (query_params req) category.

(** The links of the page, from the question mark on, as the browser sees them (the
    attribute's own escaping is undone by the browser).  A template.URL in a query is
    normalised; any other string is escaped. *)
(** traces.html:183 *)
Definition href_category (req : SearchRequest) (category : string) : string :=
  ("?" ++ process_url true (category_query_params req category))%string.
(** traces.html:132, 188 *)
Definition href_active (req : SearchRequest) (category : string) : string :=
  ("?" ++ process_url true (category_query_params req category) ++ "&active")%string.
(** traces.html:137, 196 *)
Definition href_min (req : SearchRequest) (category : string) (d : Z) : string :=
  ("?" ++ process_url true (category_query_params req category) ++ "&min=" ++ process_url false (DurationString d))%string.
(** traces.html:142, 202 *)
Definition href_errored (req : SearchRequest) (category : string) : string :=
  ("?" ++ process_url true (category_query_params req category) ++ "&errored")%string.
(** traces.html:389-391 *)
Definition href_trace (id : string) : string := ("?" ++ process_url true ("id=" ++ id))%string.
(** traces.html:397, 401: here the text is escaped, not normalised *)
Definition href_source (source : string) : string := ("?source=" ++ process_url false source)%string.
Definition href_trace_category (category : string) : string := ("?category=" ++ process_url false category)%string.

End Links.

(** The query string of the request a browser makes for a link: what follows the question
    mark, up to the fragment.  (URL standard; all bytes a browser would escape in a query
    have been escaped by process_url.) *)
Fixpoint before_fragment (s : string) : string :=
  match s with
  | EmptyString => EmptyString
  | String c s => if Ascii.eqb c "#" then EmptyString else String c (before_fragment s)
  end.
Definition follow (href : string) : string :=
  match href with String "?" s => before_fragment s | _ => "" end.

(** ** The search form *)

(** An input of the form: its name and its value. *)
Section Form.
Context {RE : Type}.
Notation SearchRequest := (@SearchRequest RE).
Notation Filter := (@Filter RE).

(** {{ if cond }} <input name="k" value="v" /> {{ end }} *)
Definition input_if (cond : bool) (k v : string) : list (string * string) := if cond then [(k, v)] else [].

(** traces.html:245-256.  A select element has the value of its selected option, and of its
    first option if none is selected (HTML standard). *)
Definition source_input (f : Filter) (response_sources : list string) : string * string :=
  if 1 <? zlen response_sources then
    let first_source := match Sources f with s :: _ => s | [] => "" end in
    ("source", if existsb (String.eqb first_source) response_sources then first_source else "")
  else ("source", "").

(** traces.html:242-289: the inputs of the form as the page has them when it is loaded *)
Definition form_inputs (req : SearchRequest) (response_sources : list string) : list (string * string) :=
  let f := req_Filter req in
  [("q", Query f); source_input f response_sources; ("n", itoa (req_Limit req))] ++
  input_if (negb (String.eqb (FCategory f) "") && negb (String.eqb (FCategory f) "overall")) "category" (FCategory f) ++
  input_if (IsActive f) "active" "true" ++
  input_if (IsFinished f) "finished" "true" ++
  match MinDuration f with Some d => [("min", DurationString d)] | None => [] end ++
  input_if (IsSuccess f) "success" "true" ++
  input_if (IsErrored f) "errored" "true".

(** traces.html:302-307: inputs with an empty value are disabled, and not sent *)
Definition enabled (inputs : list (string * string)) : list (string * string) :=
  filter (fun p => negb (String.eqb (snd p) "")) inputs.
(** The query string a browser makes: application/x-www-form-urlencoded, which QueryEscape
    stands for (browsers keep the asterisk and escape the tilde; both are read back the same). *)
Definition submit (inputs : list (string * string)) : string :=
  fold_left (fun buf p => write_pair (fst p) buf (snd p)) (enabled inputs) "".
End Form.

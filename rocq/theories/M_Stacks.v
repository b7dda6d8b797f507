(** Model of the part of trcweb/assets/traces.html that shows the stack of an event, with the
    functions of trcweb/render.go and of html/template it uses. *)
From Verif Require Import Go M_Strings M_Types M_Frame M_Page.
Open Scope string_scope.
Open Scope list_scope.
Open Scope Z_scope.

(** html/template: htmlReplacementTable, one byte; used for text and for attributes *)
Definition template_byte (c : ascii) : string :=
  if Ascii.eqb c "000" then replacement_char
  else if Ascii.eqb c "034" then "&#34;"
  else if Ascii.eqb c "&" then "&amp;"
  else if Ascii.eqb c "'" then "&#39;"
  else if Ascii.eqb c "+" then "&#43;"
  else if Ascii.eqb c "<" then "&lt;"
  else if Ascii.eqb c ">" then "&gt;"
  else String c EmptyString.
Fixpoint template_escape (s : string) : string :=
  match s with
  | EmptyString => EmptyString
  | String c s => (template_byte c ++ template_escape s)%string
  end.

(** trcweb/render.go:240-245 *)
Definition humanizeFunction (s : string) : res string :=
  let index := index_of (LastIndexByte s "/") in
  if (0 <? index) && (index <? Z.of_nat (String.length s)) then str_slice s (index + 1) (Z.of_nat (String.length s)) else Ok s.

(** trcweb/render.go:189: the source link function of a program that sets none; 196: SourceLinkVSCode *)
Definition default_link (fileline : string) : string := "".
Definition SourceLinkVSCode (fileline : string) : string := ("vscode://file/" ++ fileline)%string.

(** traces.html:440-450, one frame.  [link] is the source link function (render.go:189-196, 203): its result is a
    template.URL, which is normalised but not filtered.  White space between the elements is left out. *)
Definition frame_html (link : string -> string) (fr : Frame) : res string :=
  short <- humanizeFunction (Function fr) ;;
  place <- CompactFileLine fr ;;
  let href := link (FileLine fr) in
  Ok ("<span style=""color: #999;""><span class=""searchable"" title=""" ++ template_escape (Function fr) ++ """>" ++
      template_escape short ++ "</span>&middot;</span>" ++
      (if String.eqb href "" then "<span class=""searchable"">" ++ template_escape place ++ "</span>"
       else "<a class=""searchable"" href=""" ++ template_escape (process_url true href) ++ """>" ++ template_escape place ++ "</a>") ++
      "<br/>")%string.
Fixpoint frames_html (link : string -> string) (stack : list Frame) : res string :=
  match stack with
  | [] => Ok ""
  | fr :: stack => h <- frame_html link fr ;; t <- frames_html link stack ;; Ok (h ++ t)%string
  end.
(** traces.html:435-454: the stack of an event; the start and the end of a trace have none *)
Definition stack_html (link : string -> string) (is_start is_end : bool) (stack : list Frame) : res string :=
  if is_start || is_end then Ok ""
  else
    frames <- frames_html link stack ;;
    Ok ("<div class=""stack""><details class=""stack-details""><summary></summary>" ++ frames ++ "</details></div>")%string.

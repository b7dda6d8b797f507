(** Model of how a page is made and answered: renderHTML, renderJSON and renderTemplate
    (trcweb/render.go:45-81, 105-168), on top of the response and the handlers of M_Web.

    html/template and encoding/json are not modelled: parsing a file, executing a template and
    encoding data are arbitrary functions that succeed, fail or panic. *)
From Verif Require Import Go M_Strings M_Types M_Web S_Trace.
Open Scope string_scope.
Open Scope list_scope.
Open Scope Z_scope.

(** How a call of the standard library ends. *)
Inductive outcome (A : Type) := Done (a : A) | Fails (err : string) | Panics (x : string).
Arguments Done {A}. Arguments Fails {A}. Arguments Panics {A}.

Section Render.
Context {arg : Type}.
Variable str : string -> arg.
Variable strs : list string -> arg.
Variable HumanizeBytes : Z -> string.
(** filepath.Join of a directory and a name *)
Variable Join : string -> string -> string.
(** files (a directory is one that cannot be parsed), parsed templates, and the data of a page *)
Context {F T D : Type}.
(** Template.New(name).Parse of the contents of a file: the templates it defines *)
Variable parse : string -> F -> outcome (list (string * T)).
(** Template.Execute, with all templates at hand: what it has written in the end, and how it ended *)
Variable execute : list (string * T) -> T -> D -> string * outcome unit.
(** json.Encoder.Encode with SetIndent: the text, written only if all is well *)
Variable encode : D -> outcome string.
(** the order in which Templates returns the names, that of a map *)
Variable order : list string -> list string.
(** filepath.Clean of what is not empty; of the empty string it is "." *)
Variable Clean : string -> string.
(** The files of the machine: a directory and a name in it (os.Stat of their filepath.Join), for
    names without slashes.  The directory "." is the working directory. *)
Variable disk : string -> string -> option F.

(** Template.ParseFS and ParseFiles: the files are parsed one after another, under the last
    part of their paths, up to the first that fails; what is defined again is replaced *)
Definition define (defs set : list (string * T)) : list (string * T) := fold_left (fun set d => map_set (fst d) (snd d) set) defs set.
Fixpoint parse_files (files : list (string * F)) (set : list (string * T)) : outcome (list (string * T)) :=
  match files with
  | [] => Done set
  | (name, f) :: files =>
      match parse name f with
      | Done defs => parse_files files (define defs set)
      | Fails err => Fails err
      | Panics x => Panics x
      end
  end.
(** trcweb/render.go:128-141: the files of the names that are there.  The name of the root template
    is among them: it is associated with itself (html/template.New). *)
Fixpoint local_files (dir : string) (names : list string) : list (string * F) :=
  match names with
  | [] => []
  | name :: names =>
      if String.eqb name "" then local_files dir names
      else match disk dir name with
           | None => local_files dir names
           | Some f => (name, f) :: local_files dir names
           end
  end.
(** trcweb/render.go:127: filepath.Clean(os.Getenv(AssetsDirEnvKey)) *)
Definition localPath (env : string) : string := if String.eqb env "" then "." else Clean env.

(** The events of the region of trcweb/render.go:111-112 (helpers.go:74-88): [log] is a call on the
    trace of the region, which prefixes its events *)
Definition log (format : string) (args : list arg) : call arg := CallLog KLazyTracef ("· " ++ format)%string args.
(** trcweb/render.go:120-167: the calls on the trace, and how the body ends *)
Definition template_body (embedded : list (string * F)) (env templateName : string) (data : D) : list (call arg) * outcome string :=
  match parse_files embedded [] with
  | Fails err => ([], Fails ("parse assets: " ++ err)%string)
  | Panics x => ([], Panics x)
  | Done set =>
      let c1 := [log "template.ParseFS OK" []] in
      let localFiles := local_files (localPath env) (order ("root" :: map fst set)) in
      let parsed := match localFiles with [] => Done set | _ => parse_files localFiles set end in
      match parsed with
      | Fails err => (c1, Fails ("parse local files: " ++ err)%string)
      | Panics x => (c1, Panics x)
      | Done set =>
          let c2 := match localFiles with [] => c1 | _ => c1 ++ [log "local files %v" [strs (map (fun f => Join (localPath env) (fst f)) localFiles)]] end in
          match map_get templateName set with
          | None => (c2, Fails ("template (" ++ templateName ++ ") not found")%string)
          | Some t =>
              let c3 := c2 ++ [log "template.Lookup(%s) OK" [str templateName]] in
              match execute set t data with
              | (_, Fails err) => (c3, Fails ("execute template: " ++ err)%string)
              | (_, Panics x) => (c3, Panics x)
              | (out, Done _) => (c3 ++ [log "template.Execute OK, %s" [str (HumanizeBytes (Z.of_nat (String.length out)))]], Done out)
              end
          end
      end
  end.
(** trcweb/render.go:110-118: the deferred functions turn a panic into an error, then end the region *)
Definition renderTemplate (embedded : list (string * F)) (env templateName : string) (data : D) (took : string) : list (call arg) * (string + string) :=
  let '(calls, o) := template_body embedded env templateName data in
  (CallLog KLazyTracef "→ renderTemplate" [] :: calls ++ [CallLog KLazyTracef "← renderTemplate [%s]" [str took]],
   match o with Done out => inl out | Fails err => inr err | Panics x => inr ("PANIC: " ++ x)%string end).

Fixpoint HTraces (calls : list (call arg)) (k : handler arg) : handler arg :=
  match calls with [] => k | c :: calls => HTrace c (HTraces calls k) end.
(** trcweb/render.go:45-59; the second part is the content type *)
Definition renderHTML (embedded : list (string * F)) (env templateName : string) (data : D) (took : string) : handler arg * string :=
  let '(calls, r) := renderTemplate embedded env templateName data took in
  let '(calls, code, body) :=
    match r with
    | inl body => (calls, 200, body)
    | inr err => (calls ++ [CallLog KLazyErrorf "render template: %v" [str err]], 500, ("<html><body><h1>Error</h1><p>" ++ err ++ "</p>")%string)
    end in
  (HTraces calls (HWriteHeader code (HWrite body (fun _ => HReturn))), "text/html; charset=utf-8").
(** trcweb/render.go:61-81; a panic of the encoder is not recovered *)
Definition renderJSON (data : D) : handler arg * string :=
  (match encode data with
   | Done text => HTrace (CallLog KLazyTracef "marshaled JSON response (%s)" [str (HumanizeBytes (Z.of_nat (String.length text)))])
                    (HWriteHeader 200 (HWrite text (fun _ => HReturn)))
   | Fails err => HTrace (CallLog KLazyErrorf "marshal JSON: %v" [str err])
                    (HWriteHeader 500 (HWrite "{""error"":""failed to marshal response""}" (fun _ => HReturn)))
   | Panics _ => HPanic
   end, "application/json; charset=utf-8").
End Render.

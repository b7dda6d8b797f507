(** Model of trace.go:100-134. *)
From Verif Require Import Go M_Strings M_Types.
Open Scope string_scope.
Open Scope Z_scope.

(** trace.go:118-125 *)
Definition pkgPrefix (funcName : string) : res string :=
  let end_ := index_of (LastIndexByte funcName "/") in
  if end_ =? -1 then Ok "" else str_slice funcName 0 end_.

(** trace.go:127-134 *)
Definition pathSuffix (path : string) : res string :=
  let lastSep := index_of (LastIndexByte path "/") in
  if lastSep =? -1 then Ok path
  else
    head <- str_slice path 0 lastSep ;;
    str_slice path (index_of (LastIndexByte head "/") + 1) (Z.of_nat (String.length path)).

(** trace.go:107-116 *)
Definition CompactFileLine (fr : Frame) : res string :=
  let '(file, line, _) := CutByte (FileLine fr) ":" in
  prefix <- pkgPrefix (Function fr) ;;
  suffix <- pathSuffix file ;;
  let file := if String.eqb prefix "" then suffix else (prefix ++ "/" ++ suffix)%string in
  Ok (file ++ ":" ++ line)%string.

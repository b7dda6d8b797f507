(** C62: compact file:line. *)
From Verif Require Import Go M_Strings M_Types S_Path M_Frame L_Frame.
Open Scope string_scope.

Theorem C62_compact_file_line :
  forall function file line,
    has_byte colon file = false ->
    CompactFileLine (MkFrame function (file ++ ":" ++ line)) =
    Ok ((if String.eqb (parent function) "" then "" else parent function ++ "/") ++
        last_two file ++ ":" ++ line).
Proof. exact CompactFileLine_spec. Qed.
Print Assumptions C62_compact_file_line.

Theorem C62_never_panics : forall fr, exists s, CompactFileLine fr = Ok s.
Proof. exact CompactFileLine_total. Qed.
Print Assumptions C62_never_panics.

(** Finding: a file path that contains a colon is cut at that colon, so the file is
    not compacted. *)
Theorem C62_file_with_colon_refuted :
  exists function file line,
    last_two file = "x/main.go" /\
    CompactFileLine (MkFrame function (file ++ ":" ++ line)) = Ok "C:/long/path/x/main.go:12".
Proof. exists "main.f", "C:/long/path/x/main.go", "12". vm_compute. auto. Qed.
Print Assumptions C62_file_with_colon_refuted.

Example C62_instance :
  has_byte colon "/home/me/src/foo/bar/baz.go" = false /\
  CompactFileLine (MkFrame "github.com/foo/bar.(*T).Do" ("/home/me/src/foo/bar/baz.go" ++ ":" ++ "42")) =
    Ok "github.com/foo/bar/baz.go:42" /\
  CompactFileLine (MkFrame "main.main" "main.go:7") = Ok "main.go:7" /\
  CompactFileLine (MkFrame "" "") = Ok ":".
Proof. vm_compute. auto. Qed.

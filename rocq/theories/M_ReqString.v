(** Model of the two texts the user sees for a query: Filter.String (filter.go) and
    SearchRequest.String (search_types.go).  The page of the trace server and the log lines of
    the command line tool show these. *)
From Verif Require Import Go M_Strings M_Types M_Humanize M_Text M_Filter M_Search M_Fmt M_Page.
Open Scope string_scope.
Open Scope Z_scope.

Section ReqString.
Context {RE : Type}.

(** fmt's %v of a slice of strings: the elements, separated by one space, between brackets *)
Definition print_strings (l : list string) : string := "[" ++ join " " l ++ "]".

(** filter.go:38-75: the elements.  (Line 45 really prints the sources.) *)
Definition filter_elems (f : Filter RE) : list string :=
  (if 0 <? zlen (Sources f) then ["Sources=" ++ print_strings (Sources f)] else []) ++                      (* 40-42 *)
  (if 0 <? zlen (IDs f) then ["IDs=" ++ print_strings (Sources f)] else []) ++                              (* 44-46 *)
  (if negb (String.eqb (FCategory f) "") then ["Category='" ++ FCategory f ++ "'"] else []) ++              (* 48-50 *)
  (if IsActive f then ["IsActive"] else []) ++                                                              (* 52-54 *)
  (if IsFinished f then ["IsFinished"] else []) ++                                                          (* 56-58 *)
  (match MinDuration f with Some d => ["MinDuration=" ++ DurationString d] | None => [] end) ++             (* 60-62 *)
  (if IsSuccess f then ["IsSuccess"] else []) ++                                                            (* 64-66 *)
  (if IsErrored f then ["IsErrored"] else []) ++                                                            (* 68-70 *)
  (if negb (String.eqb (Query f) "") then ["Query='" ++ Query f ++ "'"] else []).                           (* 72-74 *)

(** filter.go:37-81 *)
Definition FilterString (f : Filter RE) : string :=
  let elems := filter_elems f in
  if zlen elems <=? 0 then "(allow all)" else join " " elems.                                               (* 76-80 *)

(** search_types.go:63-87.  (reflect.DeepEqual tells a nil slice from an empty one, but neither
    is equal to the default.) *)
Definition RequestString (req : SearchRequest RE) : string :=
  join " "
    ((if negb (durations_eqb (req_Bucketing req) DefaultBucketing)
      then ["Bucketing:[" ++ join " " (map DurationString (req_Bucketing req)) ++ "]"] else []) ++
     ["Filter:[" ++ FilterString (req_Filter req) ++ "]"] ++
     ["Limit:" ++ itoa (req_Limit req)] ++
     (if negb (req_StackDepth req =? 0) then ["StackDepth:" ++ itoa (req_StackDepth req)] else [])).
End ReqString.

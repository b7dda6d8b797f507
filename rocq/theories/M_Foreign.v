(** What a search makes of the answers of arbitrary servers: the client (trcweb/trace_server.go:179-222)
    and MultiSearcher (search_types.go:137-227) with responses as encoding/json can decode them, so
    with nil pointers for traces and for the statistics of categories.  M_Search and M_Json leave
    nil out, because trc servers do not send it. *)
From Verif Require Import Go M_Strings M_Types M_Filter M_Stats M_Search M_Json M_JsonText.
Open Scope string_scope.
Open Scope list_scope.
Open Scope Z_scope.

(** search_stats.go:11-14: map[string]*CategoryStats *)
Record FStats := MkFStats { f_Bucketing : list Z; f_Categories : list (string * option CategoryStats) }.
(** search_types.go:115-124: []*StaticTrace, *SearchStats; without Request and Duration *)
Record FResponse := MkFResp {
  fr_Sources : list string; fr_TotalCount : Z; fr_MatchCount : Z;
  fr_Traces : list (option StaticTrace); fr_Stats : option FStats; fr_Problems : list string
}.

(** *** Merging statistics *)
(** search_stats.go:160-180 *)
Definition f_cs_IsZero (cs : option CategoryStats) : bool := match cs with None => true | Some cs => cs_IsZero cs end.
(** search_stats.go:246-276, without the rates; [*cs = *other] for a nil cs panics *)
Definition f_cs_Merge (cs other : option CategoryStats) : res (option CategoryStats) :=
  if f_cs_IsZero other then Ok cs
  else match cs, other with
       | Some cs, Some other => cs <- cs_Merge cs other ;; Ok (Some cs)
       | _, _ => Panic
       end.
(** search_stats.go:93-101: range over other.Categories in the order [names]; [cp := *theirs] panics
    for a nil theirs *)
Fixpoint f_merge_categories (names : list string) (other ours : list (string * option CategoryStats))
  : res (list (string * option CategoryStats)) :=
  match names with
  | [] => Ok ours
  | category :: names =>
      match map_get category other with
      | None => Panic
      | Some theirs =>
          match map_get category ours with
          | None => match theirs with
                    | None => Panic
                    | Some cp => f_merge_categories names other (map_set category (Some cp) ours)
                    end
          | Some cs => cs <- f_cs_Merge cs theirs ;; f_merge_categories names other (map_set category cs ours)
          end
      end
  end.
(** search_stats.go:26-36, 79-102 *)
Definition f_ss_IsZero (ss : option FStats) : bool :=
  match ss with None => true | Some ss => if zlen (f_Bucketing ss) <=? 0 then true else false end.
Definition f_ss_Merge (order : list string -> list string) (ss : FStats) (other : option FStats) : res FStats :=
  match other with
  | None => Ok ss
  | Some o =>
      if f_ss_IsZero other then Ok ss
      else if f_ss_IsZero (Some ss) then Ok o
      else if negb (zlen (f_Bucketing ss) =? zlen (f_Bucketing o)) then Panic
      else
        cats <- f_merge_categories (order (map_keys (f_Categories o))) (f_Categories o) (f_Categories ss) ;;
        Ok (MkFStats (f_Bucketing ss) cats)
  end.

(** *** MultiSearcher *)
Record ftuple := MkFTuple { ft_id : string; ft_res : option FResponse; ft_err : option string }.
(** search_types.go:168-195; the statistics of the aggregate are never nil *)
Definition f_gather1 (order : list string -> list string) (agg : FResponse) (ss : FStats) (t : ftuple) : res (FResponse * FStats) :=
  match ft_res t, ft_err t with
  | None, None =>
      Ok (MkFResp (fr_Sources agg) (fr_TotalCount agg) (fr_MatchCount agg) (fr_Traces agg) None
                  (fr_Problems agg ++ [ft_id t ++ ": weird: empty response"]%string), ss)
  | None, Some err =>
      Ok (MkFResp (fr_Sources agg) (fr_TotalCount agg) (fr_MatchCount agg) (fr_Traces agg) None (fr_Problems agg ++ [err]), ss)
  | Some r, err =>
      ss <- f_ss_Merge order ss (fr_Stats r) ;;
      Ok (MkFResp (fr_Sources agg ++ fr_Sources r) (fr_TotalCount agg + fr_TotalCount r)
                  (fr_MatchCount agg + fr_MatchCount r) (fr_Traces agg ++ fr_Traces r) None
                  (fr_Problems agg ++ fr_Problems r ++
                   match err with
                   | None => []
                   | Some err => ["got valid search response with error (" ++ err ++ ") -- weird"]%string
                   end), ss)
  end.
Fixpoint f_gather (orders : nat -> list string -> list string) (n : nat) (agg : FResponse) (ss : FStats) (ts : list ftuple) : res (FResponse * FStats) :=
  match ts with
  | [] => Ok (agg, ss)
  | t :: ts => '(agg, ss) <- f_gather1 (orders n) agg ss t ;; f_gather orders (S n) agg ss ts
  end.
Definition somes {A} (l : list (option A)) : list A := flat_map (fun o => match o with Some x => [x] | None => [] end) l.
Definition has_nil {A} (l : list (option A)) : bool := existsb (fun o => match o with None => true | Some _ => false end) l.
(** search_types.go:203, trace_static.go:146-159: sort.Sort.  Less dereferences its two traces, and
    sorting two or more elements compares each of them with another. *)
Definition f_sort (sort : list StaticTrace -> list StaticTrace) (trs : list (option StaticTrace)) : res (list (option StaticTrace)) :=
  if has_nil trs then (if 2 <=? zlen trs then Panic else Ok trs) else Ok (map Some (sort (somes trs))).
Definition f_limit (limit : Z) (trs : list (option StaticTrace)) : list (option StaticTrace) :=
  if limit <? zlen trs then firstn (Z.to_nat limit) trs else trs.
(** search_types.go:137-227 *)
Definition f_MultiSearch {RE} (Compile : string -> RE + string) (sort : list StaticTrace -> list StaticTrace)
           (orders : nat -> list string -> list string) (arrivals : list ftuple) (req : SearchRequest RE) : res (SearchRequest RE * FResponse) :=
  '(req, errs) <- Normalize Compile req ;;
  '(agg, ss) <- f_gather orders 1 (MkFResp [] 0 0 [] None errs) (MkFStats (req_Bucketing req) []) arrivals ;;
  traces <- f_sort sort (fr_Traces agg) ;;
  Ok (req, MkFResp (fix_sources (orders O) (fr_Sources agg)) (fr_TotalCount agg) (fr_MatchCount agg)
                   (f_limit (req_Limit req) traces) (Some ss) (fr_Problems agg)).

(** *** The client *)
(** encoding/json: null makes a pointer nil *)
Notation "x <-- m ;; k" := (obind m (fun x => k)) (at level 100, m at next level, right associativity).
Section Client.
Context {RE : Type}.
Variable parse_time : string -> option Z.
Definition f_dec_stats (j : json) : option FStats :=
  o <-- dec_obj j ;; bucketing <-- dec_slice dec_num (field "bucketing" o) ;;
  categories <-- dec_map (dec_pointer (dec_category_stats parse_time)) (field "categories" o) ;; Some (MkFStats bucketing categories).
Definition f_dec_response (j : json) : option FResponse :=
  o <-- dec_obj j ;; _ <-- dec_pointer (@dec_request RE) (field "request" o) ;; sources <-- dec_slice dec_string (field "sources" o) ;;
  total <-- dec_num (field "total_count" o) ;; matched <-- dec_num (field "match_count" o) ;;
  traces <-- dec_slice (dec_pointer (dec_static parse_time)) (field "traces" o) ;;
  stats <-- dec_pointer f_dec_stats (field "stats" o) ;; problems <-- dec_slice dec_string (field "problems" o) ;;
  _ <-- dec_num (field "duration" o) ;; Some (MkFResp sources total matched traces stats problems).
Definition f_dec_data (j : json) : option FResponse :=
  o <-- dec_obj j ;; _ <-- @dec_request RE (field "request" o) ;; f_dec_response (field "response" o).

(** What HTTPClient.Do returns: an error, or a status and a body *)
Inductive http := HFailed (err : string) | HAnswer (status : Z) (body : string).
(** http.StatusText *)
Variable StatusText : Z -> string.
(** the text of json's error for a body *)
Variable json_error : string -> string.
(** trcweb/trace_server.go:179-222, after the request has been made; encoding a request does not fail
    (C56) and the URI was parsed before.  The lines in the trace of the caller are left out. *)
Definition client_search (answer : http) : option FResponse * option string :=
  match answer with
  | HFailed err => (None, Some ("execute HTTP request: " ++ err)%string)
  | HAnswer status body =>
      if negb (status =? 200) then (None, Some ("read HTTP response: server gave HTTP " ++ itoa status ++ " (" ++ StatusText status ++ ")")%string)
      else match decode body with
           | None => (None, Some ("decode search response: " ++ json_error body)%string)
           | Some (j, _) =>
               match f_dec_data j with
               | None => (None, Some ("decode search response: " ++ json_error body)%string)
               | Some r => (Some r, None)
               end
           end
  end.
End Client.

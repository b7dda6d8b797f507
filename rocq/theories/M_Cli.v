(** The command line tool: addresses and trc search. *)
From Verif Require Import Go M_Strings M_Types M_Frame M_Filter M_Stats M_Search M_Decor M_Web M_Json.
Open Scope string_scope.
Open Scope list_scope.
Open Scope Z_scope.

(** ** Addresses *)
Section Uris.
(** net/url: what ParseRequestURI returns (None is an error), the value with another Path,
    and its String *)
Context {URL : Type}.
Variable ParseRequestURI : string -> option URL.
Variable with_path : URL -> string -> URL.
Variable url_string : URL -> string.

(** cmd/trc/main.go:128-151: one turn of the loop.  None: the command ends with an error *)
Definition prepare_uri (uriPath uri0 : string) : option string :=
  let uri := TrimSpace uri0 in
  if String.eqb uri "" then Some uri0
  else
    let uri := if negb (HasPrefix uri "http") then ("http://" ++ uri)%string else uri in
    match ParseRequestURI uri with
    | None => None
    | Some u => Some (url_string (if negb (String.eqb uriPath "") then with_path u uriPath else u))
    end.
Fixpoint prepare_loop (uriPath : string) (uris : list string) : option (list string) :=
  match uris with
  | [] => Some []
  | uri :: uris =>
      match prepare_uri uriPath uri with
      | None => None
      | Some uri => option_map (cons uri) (prepare_loop uriPath uris)
      end
  end.
(** cmd/trc/main.go:124-151 *)
Definition prepare_uris (uriPath : string) (uris : list string) : option (list string) :=
  if zlen uris <=? 0 then None else prepare_loop uriPath uris.
(** trcweb/trace_server.go:168-176: the address a client asks *)
Definition client_uri (uri : string) : string :=
  if negb (HasPrefix uri "http") then ("http://" ++ uri)%string else uri.
End Uris.

(** ** trc search *)
Section CliSearch.
Context {RE : Type}.
Variable Compile : string -> RE + string.
(** cmd/trc/search.go:16-23, without the format of the output *)
Record search_config := MkSC {
  sc_flags : flags; sc_limit : Z; sc_depth : Z; sc_include_request : bool; sc_include_stats : bool
}.
(** cmd/trc/search.go:48-97.  [arrivals] is what the clients return, one tuple per address, in
    the order in which it arrives; the result is what is encoded on standard output.
    search_types.go:162-166, 223: Search sets Request and Duration of the response, which the
    model of MultiSearch leaves out. *)
Definition cli_search (sort : list StaticTrace -> list StaticTrace) (orders : nat -> list string -> list string)
           (arrivals : list tuple) (duration : Z) (cfg : search_config) : res (wire_response RE) :=
  '(req, r) <- MultiSearch Compile sort orders arrivals (cli_search_request (sc_flags cfg) (sc_limit cfg) (sc_depth cfg)) ;;
  Ok (MkWire (if negb (sc_include_request cfg) then None else Some req)
             (MkResp (resp_Sources r) (resp_TotalCount r) (resp_MatchCount r) (resp_Traces r)
                     (if negb (sc_include_stats cfg) then None else resp_Stats r) (resp_Problems r))
             duration).
End CliSearch.

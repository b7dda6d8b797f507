(** trcweb/middleware.go again, for handlers that look at what their http.ResponseWriter is: the optional interfaces
    of a writer (http.Flusher, http.Hijacker and so on), and what is left of them behind the middleware.

    Simplified: a call of a method of an optional interface has a text as its argument and a text as its result. *)
From Verif Require Import Go M_Strings M_Types M_Humanize M_Text S_Trace M_Web.
Open Scope string_scope.
Open Scope list_scope.
Open Scope Z_scope.

(** Interfaces that net/http's writers implement besides http.ResponseWriter; [Unwrapper] is what http.ResponseController
    looks for, and [FlushErrorer], [Deadlines] and [FullDuplex] what it needs *)
Inductive iface := Flusher | Hijacker | CloseNotifier | Pusher | ReaderFrom | StringWriter | FlushErrorer | Deadlines | FullDuplex | Unwrapper.
Definition iface_eq (a b : iface) : {a = b} + {a <> b}.
Proof. decide equality. Defined.

(** A writer: its state is [S]. WriteHeader says whether it returned or panicked. *)
Record writer (S : Type) := MkWriter {
  wr_SetHeader : S -> string -> string -> S;             (* Header().Set *)
  wr_WriteHeader : S -> Z -> S * bool;
  wr_Write : S -> string -> S * (Z * option string);
  wr_optional : iface -> option (S -> string -> S * string)
}.
Arguments MkWriter {S}. Arguments wr_SetHeader {S}. Arguments wr_WriteHeader {S}. Arguments wr_Write {S}. Arguments wr_optional {S}.
(** _, ok := w.(i) *)
Definition offers {S} (w : writer S) (i : iface) : bool := match wr_optional w i with Some _ => true | None => false end.

Section Handler.
Context {arg : Type}.
(** What a handler does; a type assertion tells it whether the writer offers an interface *)
Inductive whandler :=
| WReturn
| WPanic (v : string)
| WTrace (c : call arg) (k : whandler)
| WSetHeader (key val : string) (k : whandler)
| WWriteHeader (code : Z) (k : whandler)
| WWrite (p : string) (k : Z * option string -> whandler)
| WAsk (i : iface) (k : bool -> whandler)
| WCall (i : iface) (a : string) (k : string -> whandler).
Inductive outcome := Returned | Panicked (v : string).

(** h.ServeHTTP(w, r): the state of the writer, the calls on the trace in the context, and how it ends *)
Fixpoint wserve {S} (w : writer S) (h : whandler) (s : S) (calls : list (call arg)) : S * list (call arg) * outcome :=
  match h with
  | WReturn => (s, calls, Returned)
  | WPanic v => (s, calls, Panicked v)
  | WTrace c k => wserve w k s (calls ++ [c])
  | WSetHeader key val k => wserve w k (wr_SetHeader w s key val) calls
  | WWriteHeader code k => let '(s, ok) := wr_WriteHeader w s code in if ok then wserve w k s calls else (s, calls, Panicked "invalid WriteHeader code")
  | WWrite p k => let '(s, r) := wr_Write w s p in wserve w (k r) s calls
  | WAsk i k => wserve w (k (offers w i)) s calls
  | WCall i a k =>
      match wr_optional w i with
      | Some f => let '(s, r) := f s a in wserve w (k r) s calls
      | None => (s, calls, Panicked "interface conversion")
      end
  end.

(** trcweb/middleware.go:56-98: the interceptor as a writer. The embedded field is an http.ResponseWriter, so only Header,
    Write and WriteHeader are promoted, the last two are overridden, and Flush is added, whether or not the writer
    inside has it. *)
Definition wrap {S} (w : writer S) : writer (interceptor S) :=
  MkWriter
    (fun i key val => MkI (wr_SetHeader w (i_w i) key val) (i_code i) (i_n i))
    (fun i code =>
       let i := if i_code i =? 0 then MkI (i_w i) code (i_n i) else i in
       let '(s, ok) := wr_WriteHeader w (i_w i) code in (MkI s (i_code i) (i_n i), ok))
    (fun i p => let '(s, r) := wr_Write w (i_w i) p in (MkI s (i_code i) (i_n i + fst r), r))
    (fun x => match x with
              | Flusher =>
                  let flush := match wr_optional w Flusher with Some f => f | None => fun s _ => (s, "") end in  (* :64-70 *)
                  Some (fun i a => let '(s, r) := flush (i_w i) a in (MkI s (i_code i) (i_n i), r))
              | _ => None
              end).

(** trcweb/middleware.go:22-52 *)
Variable str : string -> arg.
Variable num : Z -> arg.
Variable HumanizeBytes : Z -> string.
Definition wMiddleware {S} (r : request) (w : writer S) (next : whandler) (took : string) (s : S) : S * list (call arg) * outcome :=
  let calls := [CallLog KLazyTracef "%s %s %s" [str (r_RemoteAddr r); str (r_Method r); str (r_URL r)]] in
  let calls := calls ++ header_calls str r ["User-Agent"; "Accept"; "Content-Type"] in
  let '(iw, calls, out) := wserve (wrap w) next (newInterceptor s) calls in
  let calls := calls ++ [CallLog KLazyTracef "HTTP %d, %s, %s" [num (i_Code iw); str (HumanizeBytes (i_n iw)); str took]] in
  (i_w iw, calls ++ [CallFinish], out).
End Handler.
Arguments whandler : clear implicits.

(** The handlers of M_Web.v, which do not look, are among these; Flush there is a call that the writer always has *)
Fixpoint plain {arg} (h : handler arg) : whandler arg :=
  match h with
  | HReturn => WReturn
  | HPanic => WPanic ""
  | HTrace c k => WTrace c (plain k)
  | HWriteHeader code k => WWriteHeader code (plain k)
  | HWrite p k => WWrite p (fun r => plain (k r))
  | HFlush k => WCall Flusher "" (fun _ => plain k)
  end.

(** Model of the broker with channels that somebody closes (M_Broker leaves closing out). *)
From Verif Require Import Go M_Strings M_Types M_Filter M_Broker.
Open Scope string_scope.
Open Scope list_scope.
Open Scope Z_scope.

Section Close.
Context {RE : Type}.
Variable Compile : string -> RE + string.
Variable MatchString : RE -> string -> bool.
Notation bop := (bop RE).
Notation bstate := (bstate RE).

(** The broker and its channels, and which channels are closed. *)
Record cstate := MkC { c_b : bstate; c_closed : list string }.
Inductive cop := COp (o : bop) | CClose (ch : string).
Definition closed_in (closed : list string) (ch : string) : bool := existsb (String.eqb ch) closed.

(** broker.go:36-48 as in M_Broker.publish_loop, but line 43 sends: that panics if the
    channel is closed, also in a select with a default.  The second result tells whether it
    did; what was done before stays (the deferred Unlock of line 26 runs). *)
Fixpoint cpublish_loop (names : list string) (str : StaticTrace) (closed : list string) (s : bstate) : bstate * bool :=
  match names with
  | [] => (s, false)
  | name :: names =>
      match map_get name (b_subs s) with
      | None => (s, true)
      | Some sub =>
          let '(f, allowed) := Allow Compile MatchString (sub_filter sub) str in
          let st := sub_stats sub in
          if negb allowed then
            cpublish_loop names str closed
              (MkB (map_set name (MkSub f (MkStreamStats (Skips st + 1) (Sends st) (Drops st))) (b_subs s)) (b_chans s) (b_blocked s))
          else if closed_in closed name then
            (MkB (map_set name (MkSub f st) (b_subs s)) (b_chans s) (b_blocked s), true)
          else
            match try_send (b_chans s name) str with
            | Some c =>
                cpublish_loop names str closed
                  (MkB (map_set name (MkSub f (MkStreamStats (Skips st) (Sends st + 1) (Drops st))) (b_subs s))
                       (set_chan (b_chans s) name c) (b_blocked s))
            | None =>
                cpublish_loop names str closed
                  (MkB (map_set name (MkSub f (MkStreamStats (Skips st) (Sends st) (Drops st + 1))) (b_subs s)) (b_chans s) (b_blocked s))
            end
      end
  end.

(** broker.go:24-49 *)
Definition cPublish (order : list string -> list string) (str : res StaticTrace) (s : cstate) : cstate * bresult :=
  if zlen (b_subs (c_b s)) <=? 0 then (s, RNone)
  else
    match str with
    | Panic => (s, RPanic)
    | Ok str =>
        let '(b, panicked) := cpublish_loop (order (map_keys (b_subs (c_b s)))) str (c_closed s) (c_b s) in
        (MkC b (c_closed s), if panicked then RPanic else RNone)
    end.

(** close(ch): goroutines that wait for a value get none; a second close panics.  Receiving
    from a closed channel takes what is in the buffer, then returns at once. *)
Definition c_step (s : cstate) (o : cop) : cstate * bresult :=
  match o with
  | CClose ch =>
      if closed_in (c_closed s) ch then (s, RPanic)
      else
        let c := b_chans (c_b s) ch in
        (MkC (MkB (b_subs (c_b s)) (set_chan (b_chans (c_b s)) ch (MkChan (ch_cap c) (ch_buffer c) 0 (ch_received c))) (b_blocked (c_b s)))
             (ch :: c_closed s), RNone)
  | COp (BPublish order str) => cPublish order str s
  | COp (BReceive ch) =>
      if closed_in (c_closed s) ch && (zlen (ch_buffer (b_chans (c_b s) ch)) =? 0) then (s, RNone)
      else let '(b, r) := b_step Compile MatchString (c_b s) (BReceive ch) in (MkC b (c_closed s), r)
  | COp o => let '(b, r) := b_step Compile MatchString (c_b s) o in (MkC b (c_closed s), r)
  end.
Definition c_init (caps : string -> Z) : cstate := MkC (b_init caps) [].
Definition c_run (caps : string -> Z) (h : list cop) : cstate := fold_left (fun s o => fst (c_step s o)) h (c_init caps).
End Close.
Arguments cop : clear implicits.
Arguments cstate : clear implicits.

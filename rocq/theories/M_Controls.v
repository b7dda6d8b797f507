(** Model of what keys, clicks and the pointer do on the search page: the scripts of
    trcweb/assets/traces.html:39-47, 362-370, 485-495, 500-568.

    Of the document are kept the traces shown, the rows of their events with their stacks, the
    timelines, the debug information, the element that has the focus, and what was typed into the
    search box.  Which element an event of the browser goes to is part of the action. *)
From Verif Require Import Go M_Types M_Web.
Open Scope string_scope.
Open Scope list_scope.
Open Scope Z_scope.

(** A row of traces.html:415-457: the index of its event, whether its stack is open (None: a row
    without a stack), whether it has the class hover, and whether its progress bar has it (None: a
    row without a bar). *)
Record row := MkRow { r_index : Z; r_stack : option bool; r_hover : bool; r_bar : option bool }.
(** A trace: its ID, its rows, whether its timeline (traces.html:460) has the class hover, and the
    elements in that, with their indexes. *)
Record item := MkItem { i_id : string; i_rows : list row; i_line : bool; i_elements : list (Z * bool) }.
(** traces.html:417-455 for one row; [opened] says that highlightQuery (traces.html:86-89) opened
    its stack *)
Definition row_of (opened : Z -> bool) (e : renderEvent) : row :=
  MkRow (re_Index e) (if re_IsStart e || re_IsEnd e then None else Some (opened (re_Index e))) false (if re_IsStart e then None else Some false).
(** traces.html:382-482; traces.html:462 leaves out negative indexes *)
Definition item_of (x : StaticTrace * (Z -> bool)) : item :=
  let '(st, opened) := x in
  MkItem (TraceID st) (map (row_of opened) (renderEvents st)) false
    (map (fun e => (re_Index e, false)) (filter (fun e => negb (re_Index e <? 0)) (renderEvents st))).

Inductive focus := Body | Box | Elsewhere.
(** A tab of the browser: sessionStorage has debug-info; the debug information is visible. *)
Record tab := MkTab { t_items : list item; t_stored : bool; t_visible : bool; t_focus : focus; t_typed : list Z }.

Section Controls.
(** document.querySelectorAll(`div#trace-${a} ...`) finds elements in the trace with the ID [b]. *)
Variable selects : string -> string -> bool.

Definition set_stack (b : bool) (r : row) : row := MkRow (r_index r) (option_map (fun _ => b) (r_stack r)) (r_hover r) (r_bar r).
Definition is_open (r : row) : bool := match r_stack r with Some b => b | None => false end.
Definition set_rows (f : row -> row) (x : item) : item := MkItem (i_id x) (map f (i_rows x)) (i_line x) (i_elements x).
(** traces.html:39-47 and 530-538: [which] are the traces that the selector finds *)
Definition toggleStacks (which : item -> bool) (l : list item) : list item :=
  let anyOpen := existsb (fun x => which x && existsb is_open (i_rows x)) l in
  map (fun x => if which x then set_rows (set_stack (negb anyOpen)) x else x) l.
Definition toggleStacksFor (id : string) : list item -> list item := toggleStacks (fun x => selects id (i_id x)).

(** traces.html:362-370: a row has the class event-i only for i >= 0 (traces.html:417) *)
Definition hover_row (index : Z) (r : row) : row :=
  if (0 <=? r_index r) && (r_index r =? index) then MkRow (r_index r) (r_stack r) (negb (r_hover r)) (option_map negb (r_bar r)) else r.
Definition hoverEvent (id : string) (index : Z) (l : list item) : list item :=
  map (fun x => if selects id (i_id x) then
                  MkItem (i_id x) (map (hover_row index) (i_rows x)) (negb (i_line x))
                    (map (fun e => if fst e =? index then (fst e, negb (snd e)) else e) (i_elements x))
                else x) l.

Fixpoint update {A} (n : nat) (f : A -> A) (l : list A) : list A :=
  match l, n with
  | [], _ => []
  | a :: l, O => f a :: l
  | a :: l, S n => a :: update n f l
  end.
(** traces.html:485-495, and what a browser does for a click on the summary of a details element *)
Definition toggle_row (r : row) : row := MkRow (r_index r) (option_map negb (r_stack r)) (r_hover r) (r_bar r).
Definition toggleRow (i j : nat) (l : list item) : list item :=
  update i (fun x => MkItem (i_id x) (update j toggle_row (i_rows x)) (i_line x) (i_elements x)) l.

(** traces.html:512-528 *)
Definition updateDebugInfo (t : tab) : tab := MkTab (t_items t) (t_stored t) (t_stored t) (t_focus t) (t_typed t).
Definition toggleDebug (t : tab) : tab := updateDebugInfo (MkTab (t_items t) (negb (t_stored t)) (t_visible t) (t_focus t) (t_typed t)).

Definition with_items (f : list item -> list item) (t : tab) : tab := MkTab (f (t_items t)) (t_stored t) (t_visible t) (t_focus t) (t_typed t).
Definition with_focus (f : focus) (t : tab) : tab := MkTab (t_items t) (t_stored t) (t_visible t) f (t_typed t).
Definition on_body (f : focus) : bool := match f with Body => true | _ => false end.
(** traces.html:540-554, 562-567: the two listeners, and then what the browser does with a key: it
    goes into the search box if that has the focus, unless preventDefault was called *)
Definition keydown (code : Z) (shift : bool) (t : tab) : tab :=
  let body := on_body (t_focus t) in
  let t := if body && (code =? 68) then toggleDebug t else t in
  let t := if body && (code =? 83) then with_items (toggleStacks (fun _ => true)) t else t in
  let slash := body && (code =? 191) && negb shift in
  let t := if slash then with_focus Box t else t in
  let t := if code =? 27 then match t_focus t with Box => with_focus Body t | _ => t end else t in
  match t_focus t with
  | Box => if slash then t else MkTab (t_items t) (t_stored t) (t_visible t) (t_focus t) (t_typed t ++ [code])
  | _ => t
  end.

Inductive action :=
| Key (code : Z) (ctrl shift : bool)
| FocusOn (f : focus)        (* the user clicks or tabs there *)
| ClickBars (i : nat)        (* the sign in the top line of a trace *)
| ClickRow (i j : nat)       (* the time, the delta or the text of a row, or the summary of its stack *)
| ClickDebug
| Over (i j : nat)           (* mouseover, on the row or something in it *)
| Out (i j : nat)
| Load (traces : list (StaticTrace * (Z -> bool))).  (* a search page in the same tab *)

Definition on_row (i j : nat) (f : string -> Z -> list item -> list item) (l : list item) : list item :=
  match nth_error l i with
  | None => l
  | Some x => match nth_error (i_rows x) j with None => l | Some r => f (i_id x) (r_index r) l end
  end.
(** Keys are handled whatever modifiers are down.  What is hidden cannot be clicked.  A page that is
    loaded runs updateDebugInfo and puts the focus on the search box (traces.html:500-502, 560). *)
Definition act (t : tab) (a : action) : tab :=
  match a with
  | Key code _ shift => keydown code shift t
  | FocusOn f => with_focus f t
  | ClickBars i => match nth_error (t_items t) i with None => t | Some x => with_items (toggleStacksFor (i_id x)) t end
  | ClickRow i j => with_items (toggleRow i j) t
  | ClickDebug => if t_visible t then toggleDebug t else t
  | Over i j | Out i j => with_items (on_row i j hoverEvent) t
  | Load traces => updateDebugInfo (MkTab (map item_of traces) (t_stored t) false Box [])
  end.
Definition run (t : tab) (h : list action) : tab := fold_left act h t.
(** A new tab. *)
Definition blank : tab := MkTab [] false false Body [].
End Controls.

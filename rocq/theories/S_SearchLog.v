(** What a user reads in the trace of a search: spec for C112. *)
From Verif Require Import Go M_Strings M_SearchLog.
Open Scope string_scope.
Open Scope list_scope.

(** A line of a trace: whether it is an error, and its text *)
Definition line : Type := bool * string.

Definition say_counts (c : counts) : string :=
  let '(total, matched, returned) := c in
  "total " ++ itoa total ++ ", matched " ++ itoa matched ++ ", returned " ++ itoa returned.

(** The sums over those that answered; at most [limit] traces are returned. *)
Definition answered (os : list outcome) : list counts := flat_map (fun o => match fst o with Some c => [c] | None => [] end) os.
Definition sum (l : list Z) : Z := fold_right Z.add 0%Z l.
Definition total_of (limit : Z) (os : list outcome) : counts :=
  (sum (map (fun c => fst (fst c)) (answered os)), sum (map (fun c => snd (fst c)) (answered os)),
   Z.min limit (sum (map snd (answered os)))).

(** What is returned by a search of [s] *)
Fixpoint result (limit : Z) (s : searcher) : outcome :=
  match s with
  | Coll _ c => (Some c, None)
  | Client _ (inl c) => (Some c, None)
  | Client _ (inr err) => (None, Some err)
  | Other _ o => o
  | Multi subs => (Some (total_of limit (map (result limit) subs)), None)
  end.

Section Lines.
Variable limit : Z.
Variable text : call -> string.  (* what the calls of foreign searchers say *)

(** What is said about the outcome of the i-th searcher, if it is not an answer *)
Definition remark (path : string) (i : nat) (o : outcome) : list line :=
  match o with
  | (Some _, None) => []
  | (None, Some err) => [(false, path ++ itoa (Z.of_nat i) ++ ": error: " ++ err)]
  | (None, None) => [(false, path ++ itoa (Z.of_nat i) ++ ": weird: no result, no error")]
  | (Some _, Some err) => [(false, path ++ itoa (Z.of_nat i) ++ ": weird: valid result (accepting it) with error: " ++ err)]
  end%string.

(** All lines of a search of [s], in some order; [path] says where [s] is: "<2> <1> " is the first
    searcher of the second searcher. *)
Fixpoint lines (path : string) (s : searcher) : list line :=
  match s with
  | Coll source c => [(false, (path ++ source ++ " -> " ++ say_counts c)%string)]
  | Client uri (inl c) => [(false, (path ++ uri ++ " -> " ++ say_counts c)%string)]
  | Client uri (inr err) => [(true, (path ++ "error: " ++ err)%string)]
  | Other calls _ => map (fun c => (c_err c, (path ++ text c)%string)) calls
  | Multi subs =>
      (false, (path ++ "scattered request count " ++ itoa (Z.of_nat (length subs)))%string) ::
      (fix each (i : nat) (subs : list searcher) : list line :=
         match subs with
         | [] => []
         | s :: subs => lines (path ++ "<" ++ itoa (Z.of_nat i) ++ "> ")%string s ++ remark path i (result limit s) ++ each (S i) subs
         end) 1%nat subs ++
      [(false, (path ++ "gathered responses")%string);
       (false, (path ++ say_counts (total_of limit (map (result limit) subs)))%string)]
  end.
End Lines.

(** Does [s] contain a search client that fails? (Foreign searchers may log errors themselves.) *)
Inductive failing_client : searcher -> Prop :=
| FClient uri err : failing_client (Client uri (inr err))
| FOther calls o : (exists c, In c calls /\ c_err c = true) -> failing_client (Other calls o)
| FMulti subs s : In s subs -> failing_client s -> failing_client (Multi subs).

(** The calls in a log that were made by one of: Search itself, Search on account of its i-th searcher, the
    i-th searcher *)
Definition who_eqb (a b : who) : bool :=
  match a, b with Own, Own => true | Remark i, Remark j => (i =? j)%nat | Sub i, Sub j => (i =? j)%nat | _, _ => false end.
Definition said_by (w : who) (log : list (who * call)) : list call := map snd (filter (fun e => who_eqb (fst e) w) log).

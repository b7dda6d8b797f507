(** Specification of searches over arbitrary servers: which answers make a search panic, and what the
    counts of the others add up to. *)
From Verif Require Import Go M_Strings M_Types M_Stats M_Search M_Foreign.
Open Scope string_scope.
Open Scope list_scope.
Open Scope Z_scope.

(** The answers, in the order in which they arrive. *)
Definition answered (arrivals : list ftuple) : list FResponse :=
  flat_map (fun t => match ft_res t with Some r => [r] | None => [] end) arrivals.
(** What goes wrong, in the same order. *)
Definition goes_wrong (t : ftuple) : list string :=
  match ft_res t, ft_err t with
  | Some r, None => fr_Problems r
  | Some r, Some err => fr_Problems r ++ ["got valid search response with error (" ++ err ++ ") -- weird"]%string
  | None, Some err => [err]
  | None, None => [ft_id t ++ ": weird: empty response"]%string
  end.

(** The statistics in the answers that have any: null and statistics without buckets are ignored. *)
Definition with_stats (rs : list FResponse) : list FStats :=
  flat_map (fun r => match fr_Stats r with
                     | Some ss => match f_Bucketing ss with [] => [] | _ :: _ => [ss] end
                     | None => []
                     end) rs.
(** What they say about a category, each of them at most once; None is null. *)
Definition entries (c : string) (rs : list FResponse) : list (option CategoryStats) :=
  flat_map (fun ss => match map_get c (f_Categories ss) with Some e => [e] | None => [] end) (with_stats rs).

(** Statistics with nothing in them. *)
Definition blank (e : CategoryStats) : Prop :=
  cs_Category e = "" /\ ActiveCount e = 0 /\ fold_right Z.add 0 (BucketCounts e) = 0 /\ ErroredCount e = 0 /\ Oldest e = 0 /\ Newest e = 0.
(** Every statistics are blank or name their category. *)
Definition tidy (rs : list FResponse) : Prop := forall c e, In (Some e) (entries c rs) -> blank e \/ cs_Category e <> "".
(** No map has a key twice. *)
Definition maps (rs : list FResponse) : Prop := forall ss, In ss (with_stats rs) -> NoDup (map fst (f_Categories ss)).

(** Answers that cannot be put together, for [n] buckets: *)
Definition bad_answers (n : nat) (rs : list FResponse) : Prop :=
  (* statistics with another number of buckets, *)
  (exists ss, In ss (with_stats rs) /\ length (f_Bucketing ss) <> n) \/
  (* a category of which the first that arrives is null, *)
  (exists c rest, entries c rs = None :: rest) \/
  (* a category with different numbers of counts, *)
  (exists c e e', In (Some e) (entries c rs) /\ In (Some e') (entries c rs) /\ ~ blank e /\ ~ blank e' /\
                  length (BucketCounts e) <> length (BucketCounts e')) \/
  (* null among several traces. *)
  (In None (flat_map fr_Traces rs) /\ (2 <= length (flat_map fr_Traces rs))%nat).

Definition total (l : list Z) : Z := fold_right Z.add 0 l.
(** [cs] are the sums of the entries [es] *)
Definition adds_up (cs : CategoryStats) (es : list CategoryStats) : Prop :=
  ActiveCount cs = total (map ActiveCount es) /\ ErroredCount cs = total (map ErroredCount es) /\
  (Forall (fun e => ~ blank e) es -> forall i, nth i (BucketCounts cs) 0 = total (map (fun e => nth i (BucketCounts e) 0) es)).

(** An answer without null traces and categories. *)
Definition lift_stats (ss : SearchStats) : FStats := MkFStats (Bucketing ss) (map (fun kc => (fst kc, Some (snd kc))) (Categories ss)).
Definition lift (r : SearchResponse) : FResponse :=
  MkFResp (resp_Sources r) (resp_TotalCount r) (resp_MatchCount r) (map Some (resp_Traces r)) (option_map lift_stats (resp_Stats r)) (resp_Problems r).

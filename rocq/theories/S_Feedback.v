(** Specification for C99: counting what was published. *)
From Verif Require Import Go M_Types M_Feedback.
Open Scope Z_scope.

Definition is_echo (p : cause * StaticTrace) : bool := match fst p with Echo _ => true | _ => false end.
Definition is_echo_of (c : string) (p : cause * StaticTrace) : bool := match fst p with Echo c' => String.eqb c' c | _ => false end.
Definition is_program (p : cause * StaticTrace) : bool := match fst p with Program => true | _ => false end.
(** about another trace than [id] *)
Definition about_others (id : string) (p : cause * StaticTrace) : bool := negb (String.eqb (TraceID (snd p)) id).
Definition about_finished (p : cause * StaticTrace) : bool := TraceFinished (snd p).
(** how many of the publishes *)
Definition count_of (P : cause * StaticTrace -> bool) (l : list (cause * StaticTrace)) : Z := zlen (filter P l).

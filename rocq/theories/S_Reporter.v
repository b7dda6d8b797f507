(** What trc stream is to say about the silence of a server. *)
From Verif Require Import Go M_Reporter.
Open Scope list_scope.
Open Scope Z_scope.

(** The last message before some moment was read at time t; there was none. *)
Definition is_read (x : happening) : Prop := exists t type, x = Read t type.
Definition last_read (h : list happening) (t : Z) : Prop :=
  exists h1 type h2, h = h1 ++ Read t type :: h2 /\ forall x, In x h2 -> ~ is_read x.
Definition never_read (h : list happening) : Prop := forall x, In x h -> ~ is_read x.

(** Whenever the reporter looks, the last message is at most [age] old. *)
Definition in_time (age : Z) (h : list happening) : Prop :=
  forall h1 ts h2, h = h1 ++ Tick ts :: h2 -> exists t, last_read h1 t /\ ts - t <= age.

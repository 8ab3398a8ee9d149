(** Lexicographic order of indices. *)
From Verif Require Import Base.
Open Scope Z_scope.

(** [a] comes before [b]: at the first axis where they differ it is smaller. *)
Definition comes_before (a b : idx) : Prop :=
  exists p x y s t, a = p ++ x :: s /\ b = p ++ y :: t /\ x < y.

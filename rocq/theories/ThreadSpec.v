(** Vocabulary of the properties about worker threads. *)
From Verif Require Import Base.

(** All [n] threads have been given enough steps to end: a read, the operation, a write
    (map.hpp:68-70 and 122-124 wait for them). *)
Definition complete (n : nat) (sched : list nat) : Prop :=
  forall i, (i < n)%nat -> (3 <= count_occ Nat.eq_dec sched i)%nat.

(** One thread after the other, in the given order. *)
Definition one_by_one (order : list nat) : list nat := flat_map (fun i => [i; i; i]) order.

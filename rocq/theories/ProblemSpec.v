(** What a matching problem should minimise; independent of the implementation. *)
From Coq Require Import Reals List.
From Verif Require Import MatchModel MatchSpec.
Import ListNotations.
Open Scope R_scope.

(** Mean of a list of numbers (0 for the empty list). *)
Definition average (l : list R) : R := fold_right Rplus 0 l / INR (length l).
(** [d] is the signed angle from [b] to [a] the short way round. *)
Definition short_way (d a b : R) : Prop := congruent d (a - b) /\ Rabs d <= PI.

(** What the objective function properties mean, independent of the implementation. *)
From Coq Require Import Reals List.
From Verif Require Import MatchModel MatchSpec ObjectiveModel.
Import ListNotations.
Open Scope R_scope.

(** Mean of the scores of a list of points, a missing score counted as 0. *)
Definition mean_score {pose point : Type} (score : pose -> point -> option R) (x : pose) (l : list point) : R :=
  fold_right Rplus 0 (map (fun p => match score x p with Some v => v | None => 0 end) l) / INR (length l).

(** An angle difference: 0 exactly for congruent angles. *)
Definition difference_ok (f : R -> R -> R) : Prop := forall a b, f a b = 0 <-> congruent a b.

(** The pose is the initial guess, angles up to whole turns. *)
Definition at_guess2 (x g : pose2) : Prop := px x = px g /\ py x = py g /\ congruent (pyaw x) (pyaw g).
Definition at_guess6 (x g : pose6) : Prop :=
  tx x = tx g /\ ty x = ty g /\ tz x = tz g /\
  congruent (r0 x) (r0 g) /\ congruent (r1 x) (r1 g) /\ congruent (r2 x) (r2 g).

(** Only the deviation from the guess counts. *)
Definition weights_ok {pose point : Type} (f : functor pose point) : Prop :=
  0 < translation_weight_ f /\ 0 < rotation_weight_ f /\ map_weight_ f = 0.

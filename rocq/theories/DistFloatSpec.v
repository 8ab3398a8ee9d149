(** Specification of distance maps from rounded scores. *)
From Coq Require Import QArith Qreals Reals Floats.SpecFloat.
From Verif Require Import Base RoundModel FloatModel FloatFacts GridModel GridFloatModel LikelihoodSpec.
Open Scope R_scope.

(** What a distance transform must compute on a grid of finite scores: the distance to the nearest pixel whose score reaches
    the threshold, up to [far]. *)
Definition float_transforms (prec emax : Z) (transform : spec_float -> spec_float -> spec_float -> float_grid -> Z -> Z -> R) : Prop :=
  forall sres far threshold g u v, (0 < float_value sres)%Q -> (0 < float_value far)%Q ->
    (forall a b, inside (fg_width g) (fg_height g) a b -> good_float prec emax (fg_at g a b)) ->
    inside (fg_width g) (fg_height g) u v ->
    nearest (float_value sres) (Q2R (float_value far))
      (fun a b => inside (fg_width g) (fg_height g) a b /\ (float_value threshold <= float_value (fg_at g a b))%Q) u v
      (transform sres far threshold g u v).
(** [d] is at most [far] and the distance to any of the pixels that satisfy [sure], and [far] or the distance to one that satisfies
    [possible]. *)
Definition nearest_between (sres : Q) (far : R) (sure possible : Z -> Z -> Prop) (u v : Z) (d : R) : Prop :=
  0 <= d <= far /\ (forall a b, sure a b -> d <= pixel_distance sres u v a b) /\
  (d = far \/ exists a b, possible a b /\ d = pixel_distance sres u v a b).

(** What the score of a scan against a map is, independent of the arithmetic of the machine. *)
From Coq Require Import QArith Reals Qreals Floats.SpecFloat.
From Verif Require Import Base IndexModel OctreeSpec MapModel BackendModel SysModel SysSpec ExtentModel SampleModel SampleSpec
  ResidualModel RoundModel FloatModel FloatFacts FloatScoreFacts.
Open Scope R_scope.

(** Mean of exact numbers. *)
Definition exact_mean (l : list Q) : R := fold_right (fun q a => Q2R q + a) 0 l / INR (length l).

Section Scan.
Variables prec emax : Z.
Context {P : Type}.
Variable c : config P.
Variable dsample : P -> list spec_float -> spec_float.
Variable inv : spec_float.
Variable m : cmap c.

(** The point has an index the map can address, and the stored distributions score numbers in [0,1] there. *)
Definition point_ok (p : list spec_float) : Prop :=
  (exists bi, float_bundle_index prec emax inv p = Ok bi /\ addressable c bi) /\
  (forall i j v, cstored c m i j = Ok (Some v) -> unit_float prec emax (dsample v p)).
(** The score of the point in exact arithmetic (C15), in the bundle of the machine's index. *)
Definition exact_score (p : list spec_float) (t : Q) : Prop :=
  exists bi, float_bundle_index prec emax inv p = Ok bi /\
             sample_at c (fun v _ => float_value (dsample v p)) m (map float_value p) bi = Ok t.
End Scan.

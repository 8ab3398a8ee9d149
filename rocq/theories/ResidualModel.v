(** The point residuals of the ceres matchers, in IEEE-754 double arithmetic (Coq's [spec_float]):
    operator() of matching/ceres/map/scan_match_cost_functor_2d.hpp, _3d_rpy.hpp and
    _3d_quaternion.hpp. Definitions only. *)
From Coq Require Import ZArith List Floats.SpecFloat.
Import ListNotations.
Open Scope Z_scope.

Definition double : Type := spec_float.
Definition double_mul : double -> double -> double := SFmul 53 1024.

(** scan_match_cost_functor_2d.hpp:35-36 (58-59 in _3d_rpy.hpp, 36-37 in _3d_quaternion.hpp) for
    [T = double]: [if (residual[i] == -residual[i]) residual[i] = T(0.)]. *)
Definition guard (r : double) : double := if SFeqb r (SFopp r) then S754_zero false else r.

(** [ceres::Jet]: a value and its derivatives; comparisons look at the value only, [T(0.)] has zero
    derivatives, minus and the product with a double work on both parts (ceres/jet.h, not part of
    /repo). *)
Record jet : Type := { ja : double; jv : list double }.
Definition jet_opp (f : jet) : jet := {| ja := SFopp (ja f); jv := map SFopp (jv f) |}.
Definition jet_eqb (f g : jet) : bool := SFeqb (ja f) (ja g).
Definition jet_zero (n : nat) : jet := {| ja := S754_zero false; jv := repeat (S754_zero false) n |}.
Definition jet_scale (w : double) (f : jet) : jet := {| ja := double_mul w (ja f); jv := map (double_mul w) (jv f) |}.
(** The same lines for [T = Jet]. *)
Definition jet_guard (r : jet) : jet := if jet_eqb r (jet_opp r) then jet_zero (length (jv r)) else r.

(** scan_match_cost_functor_2d.hpp:28-40 (51-63 in _3d_rpy.hpp, 29-41 in _3d_quaternion.hpp): [evaluate p] is what [Evaluate] writes for the
    transformed point (not modelled here). *)
Definition residuals {P : Type} (weight_ : double) (evaluate : P -> double) (points_ : list P) : list double :=
  map (fun p => double_mul weight_ (guard (evaluate p))) points_.
Definition jet_residuals {P : Type} (weight_ : double) (evaluate : P -> jet) (points_ : list P) : list jet :=
  map (fun p => jet_scale weight_ (jet_guard (evaluate p))) points_.

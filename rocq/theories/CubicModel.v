(** The INTERPOLATION functors: cslibs_ndt_2d/matching/ceres/map/gridmap_cost_functor.hpp:84-135 and
    occupancy_gridmap_cost_functor.hpp:84-140, with [ceres::BiCubicInterpolator] (not part of /repo) in
    exact real arithmetic. Definitions only. *)
From Coq Require Import Reals List ZArith.
From Verif Require Import JetModel.
Open Scope R_scope.

(** [ceres::CubicHermiteSpline] (ceres/cubic_interpolation.h, not part of /repo): value and derivative. *)
Definition hermite (p0 p1 p2 p3 x : R) : R :=
  let a := 1 / 2 * (- p0 + 3 * p1 - 3 * p2 + p3) in
  let b := 1 / 2 * (2 * p0 - 5 * p1 + 4 * p2 - p3) in
  let c := 1 / 2 * (- p0 + p2) in
  p1 + x * (c + x * (b + x * a)).
Definition hermite_dx (p0 p1 p2 p3 x : R) : R :=
  let a := 1 / 2 * (- p0 + 3 * p1 - 3 * p2 + p3) in
  let b := 1 / 2 * (2 * p0 - 5 * p1 + 4 * p2 - p3) in
  let c := 1 / 2 * (- p0 + p2) in
  c + x * (2 * b + 3 * a * x).

(** One row: the spline through the values [g] at integers (the inner calls of
    [BiCubicInterpolator::Evaluate]). *)
Definition spline (g : Z -> R) (c : R) : R :=
  let n := Int_part c in hermite (g (n - 1)%Z) (g n) (g (n + 1)%Z) (g (n + 2)%Z) (c - IZR n).
Definition spline_dx (g : Z -> R) (c : R) : R :=
  let n := Int_part c in hermite_dx (g (n - 1)%Z) (g n) (g (n + 1)%Z) (g (n + 2)%Z) (c - IZR n).

(** [BiCubicInterpolator::Evaluate(r, c, f, dfdr, dfdc)]. *)
Definition bicubic (g : Z -> Z -> R) (r c : R) : R := spline (fun k => spline (g k) c) r.
Definition bicubic_dr (g : Z -> Z -> R) (r c : R) : R := spline_dx (fun k => spline (g k) c) r.
Definition bicubic_dc (g : Z -> Z -> R) (r c : R) : R := spline (fun k => spline_dx (g k) c) r.

Section Functor.
(** [1.0 - map_.sampleNonNormalized(point_t(x, y))] in the world frame; no index overflows. *)
Variable value : R -> R -> R.
(** [sampling_resolution_]. *)
Variable res : R.

(** gridmap_cost_functor.hpp:108-112. *)
Definition interpolation_double (x y : R) : R := value x y.
(** gridmap_cost_functor.hpp:123-129 [GetValue]. *)
Definition get_value (row column : Z) : R := value (IZR row * res) (IZR column * res).
(** gridmap_cost_functor.hpp:114-121 [Evaluate] for Jets; [BiCubicInterpolator::Evaluate] for Jets applies
    the chain rule to the derivatives it computes. Division of a Jet by a double divides both parts. *)
Definition interpolation_rjet (x y : rjet) : rjet :=
  let r := scale jet_number (1 / res) x in
  let c := scale jet_number (1 / res) y in
  J (bicubic get_value (jre r) (jre c))
    (bicubic_dr get_value (jre r) (jre c) * jde r + bicubic_dc get_value (jre r) (jre c) * jde c).
End Functor.

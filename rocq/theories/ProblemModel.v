(** The optimisation problems of matching/ceres/problem.hpp: residual blocks, parameter blocks and the
    steps the solver may take. Numbers are exact reals. Definitions only. *)
From Coq Require Import Reals List.
From Verif Require Import MatchModel JetModel.
Import ListNotations.
Open Scope R_scope.

(** A residual block maps the parameters to residuals. *)
Definition block : Type := (nat -> R) -> list R.

(** The cost of a problem (ceres halves it). *)
Definition cost (problem : list block) (x : nat -> R) : R :=
  fold_right (fun b acc => fold_right (fun r s => r * r + s) 0 (b x) + acc) 0 problem.

(** [if (weight != 0.0) problem.AddResidualBlock(...)]. *)
Definition add_block (weight : R) (b : block) : list block := if Req_EM_T weight 0 then [] else [b].

(** Parameters [k] to [k + n - 1]. *)
Definition params (k n : nat) (x : nat -> R) : list R := map x (seq k n).

Section Problem.
(** [Evaluate] at a point in the world (JetModel.v; here without undefined behaviour). *)
Variable evaluate : (nat -> R) -> R.
Variable atan2 : R -> R -> R.
Variable points : list (nat -> R).

(** scan_match_cost_functor_creator.hpp:17-42 and scan_match_cost_functor_2d.hpp:28-40 (_3d_rpy.hpp:51-63,
    _3d_quaternion.hpp:29-41): the weight is divided by the root of the number of points. *)
Definition map_block (k : matcher) (weight : R) : block :=
  fun x => map (fun p => weighted_real (weight / sqrt (INR (length points))) (evaluate (pose_of k real_number x p))) points.

(** problem.hpp:26-61. *)
Definition problem_2d (translation_weight rotation_weight map_weight : R) (translation : list R) (rotation : R) : list block :=
  add_block map_weight (map_block Matcher2d map_weight) ++
  add_block translation_weight (fun x => translation_residual translation_weight translation (params 0 2 x)) ++
  add_block rotation_weight (fun x => [rotation_residual_2d atan2 rotation_weight rotation (x 2%nat)]).

(** problem.hpp:64-103. *)
Definition problem_quaternion (translation_weight rotation_weight map_weight : R) (translation : list R) (rotation : quat) :
  list block :=
  add_block map_weight (map_block Matcher3dQuaternion map_weight) ++
  add_block translation_weight (fun x => translation_residual translation_weight translation (params 0 3 x)) ++
  add_block rotation_weight (fun x => rotation_residual_quaternion rotation_weight rotation
                                        {| qw := x 3%nat; qx := x 4%nat; qy := x 5%nat; qz := x 6%nat |}).

(** problem.hpp:106-144. *)
Definition problem_rpy (translation_weight rotation_weight map_weight : R) (translation rotation : list R) : list block :=
  add_block map_weight (map_block Matcher3dRPY map_weight) ++
  add_block translation_weight (fun x => translation_residual translation_weight translation (params 0 3 x)) ++
  add_block rotation_weight (fun x => rotation_residual_rpy atan2 rotation_weight rotation (params 3 3 x)).
End Problem.

(** ** Steps of the solver *)

(** [ceres::SubsetParameterization(3, {2})] (not part of /repo): the increment of size two leaves the third
    parameter alone; without parameterization a step adds the increment. *)
Definition subset_plus (x : R * R * R) (d0 d1 : R) : R * R * R :=
  let '(x0, x1, x2) := x in (x0 + d0, x1 + d1, x2).
Definition plain_plus (x d : R * R * R) : R * R * R :=
  let '(x0, x1, x2) := x in let '(d0, d1, d2) := d in (x0 + d0, x1 + d1, x2 + d2).

(** [ceres::QuaternionParameterization] (not part of /repo). *)
Definition quaternion_plus (x : quat) (d : R * R * R) : quat :=
  let '(d0, d1, d2) := d in
  let n := sqrt (d0 * d0 + d1 * d1 + d2 * d2) in
  if Rlt_dec 0 n
  then quaternion_product {| qw := cos n; qx := sin n / n * d0; qy := sin n / n * d1; qz := sin n / n * d2 |} x
  else x.

(** One step of a three-dimensional problem: translation and rotation are moved by their
    parameterizations, chosen by [only_yaw] (problem.hpp:72-75 and 114-117). The increments have three
    components here, of which the yaw-only versions use two and one. *)
Definition step_quaternion (only_yaw : bool) (x : (R * R * R) * quat) (d : (R * R * R) * (R * R * R)) : (R * R * R) * quat :=
  let '(t, q) := x in
  let '(dt, dr) := d in
  let '(dt0, dt1, _) := dt in
  let '(dr0, _, _) := dr in
  (if only_yaw then subset_plus t dt0 dt1 else plain_plus t dt,
   if only_yaw then yaw_quaternion_plus q dr0 else quaternion_plus q dr).

Definition triple (l : list R) : R * R * R := (nth 0 l 0, nth 1 l 0, nth 2 l 0).
Definition step_rpy (only_yaw : bool) (x : (R * R * R) * (R * R * R)) (d : (R * R * R) * (R * R * R)) :
  (R * R * R) * (R * R * R) :=
  let '(t, r) := x in
  let '(dt, dr) := d in
  let '(dt0, dt1, _) := dt in
  let '(dr0, dr1, dr2) := dr in
  let '(r0, r1, r2) := r in
  (if only_yaw then subset_plus t dt0 dt1 else plain_plus t dt,
   if only_yaw then yaw_euler_plus r dr0 else triple (euler_plus [r0; r1; r2] [dr0; dr1; dr2])).

(** One step of [problem_2d] (problem.hpp:34-35). *)
Definition step_2d (x : (R * R) * R) (d : (R * R) * R) : (R * R) * R :=
  let '((t0, t1), r) := x in
  let '((d0, d1), dr) := d in
  ((t0 + d0, t1 + d1), nth 0 (euler_plus [r] [dr]) 0).

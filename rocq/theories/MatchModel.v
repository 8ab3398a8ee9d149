(** Rotation and translation parts of the matching code: matching/ceres/local_parameterization.hpp,
    matching/ceres/rotation/*.hpp, matching/ceres/translation/*.hpp and the angle conversion of
    matching/ceres/map/scan_match_cost_functor_3d_rpy.hpp. Only values are modelled, not derivatives,
    and numbers are exact reals ([M_PI] is pi). Definitions only. *)
From Coq Require Import Reals List.
Import ListNotations.
Open Scope R_scope.

(** local_parameterization.hpp:11-17 [clamp]. *)
Definition clamp (value min max : R) : R :=
  if Rlt_dec max value then max else if Rlt_dec value min then min else value.

(** local_parameterization.hpp:27-33 [EulerPlus<Num>]; [Num] is the length of both arrays. *)
Definition euler_plus (x delta : list R) : list R :=
  map (fun c => clamp (fst c + snd c) (- PI) PI) (combine x delta).

(** local_parameterization.hpp:43-50 [YawOnlyEulerPlus]. *)
Definition yaw_euler_plus (x : R * R * R) (delta : R) : R * R * R :=
  let '(roll, pitch, yaw) := x in (roll, pitch, clamp (yaw + delta) (- PI) PI).

(** Four doubles in the order w x y z. *)
Record quat : Type := { qw : R; qx : R; qy : R; qz : R }.

(** rotation_cost_functor_3d_quaternion.hpp:39-46 [QuaternionProduct]. [ceres::QuaternionProduct]
    (not part of /repo) and the product of [cslibs_math_3d::Quaternion] are the same formula. *)
Definition quaternion_product (z w : quat) : quat :=
  {| qw := qw z * qw w - qx z * qx w - qy z * qy w - qz z * qz w;
     qx := qw z * qx w + qx z * qw w + qy z * qz w - qz z * qy w;
     qy := qw z * qy w - qx z * qz w + qy z * qw w + qz z * qx w;
     qz := qw z * qz w + qx z * qy w - qy z * qx w + qz z * qw w |}.

(** local_parameterization.hpp:60-71 [YawOnlyQuaternionPlus]. *)
Definition yaw_quaternion_plus (x : quat) (delta : R) : quat :=
  let clamped := clamp delta (- (1 / 2)) (1 / 2) in
  quaternion_product {| qw := sqrt (1 - clamped * clamped); qx := 0; qy := 0; qz := clamped |} x.

Section Angle.
(** [ceres::atan2(y, x)]; what it must satisfy is [atan2_ok] in MatchSpec.v. *)
Variable atan2 : R -> R -> R.

(** rotation_cost_functor_2d.hpp:35-49, rotation_cost_functor_3d_rpy.hpp:39-53 [AngleDifference]. *)
Definition norm (r : R) : R := atan2 (sin r) (cos r).
Definition angle_difference (r0 r : R) : R :=
  let a := norm r0 in
  let b := norm r in
  let d1 := a - b in
  let d2 := (2 * PI - Rabs d1) * (if Rlt_dec 0 d1 then - 1 else 1) in
  if Rlt_dec (Rabs d1) (Rabs d2) then d1 else d2.

(** rotation_cost_functor_2d.hpp:23-32. *)
Definition rotation_residual_2d (weight rotation_ rotation : R) : R :=
  weight * angle_difference rotation_ rotation.
(** rotation_cost_functor_3d_rpy.hpp:25-36. *)
Definition rotation_residual_rpy (weight : R) (rpy_ rotation_rpy : list R) : list R :=
  map (fun c => weight * angle_difference (fst c) (snd c)) (combine rpy_ rotation_rpy).
End Angle.

(** rotation_cost_functor_3d_quaternion.hpp:48-57, the constructor's [rotation_inverse_wxyz_]. *)
Definition inverse_wxyz (r : quat) : quat := {| qw := qw r; qx := - qx r; qy := - qy r; qz := - qz r |}.
(** rotation_cost_functor_3d_quaternion.hpp:25-36. *)
Definition rotation_residual_quaternion (weight : R) (rotation rotation_wxyz : quat) : list R :=
  let delta := quaternion_product (inverse_wxyz rotation) rotation_wxyz in
  [weight * qw delta; weight * qx delta; weight * qy delta; weight * qz delta].
(** cslibs_ndt_3d matching/alglib/gridmap_function.hpp:135-142 and occupancy_gridmap_function.hpp
    (same lines of [applyQuaternion]): the rotational entries of the function vector. *)
Definition alglib_rotation_quaternion (weight : R) (initial_guess rot : quat) : list R :=
  let delta := quaternion_product (inverse_wxyz initial_guess) rot in
  [weight * Rabs (qw delta); weight * Rabs (qx delta); weight * Rabs (qy delta); weight * Rabs (qz delta)].

(** translation_cost_functor_2d.hpp:25-32, translation_cost_functor_3d.hpp:25-32. *)
Definition translation_residual (weight : R) (translation_ translation : list R) : list R :=
  map (fun c => weight * (snd c - fst c)) (combine translation_ translation).

(** scan_match_cost_functor_3d_rpy.hpp:25-43 [toEigen]. *)
Definition to_eigen (roll pitch yaw : R) : quat :=
  let cos_roll := cos (roll * (1 / 2)) in
  let sin_roll := sin (roll * (1 / 2)) in
  let cos_pitch := cos (pitch * (1 / 2)) in
  let sin_pitch := sin (pitch * (1 / 2)) in
  let cos_yaw := cos (yaw * (1 / 2)) in
  let sin_yaw := sin (yaw * (1 / 2)) in
  {| qw := cos_roll * cos_pitch * cos_yaw + sin_roll * sin_pitch * sin_yaw;
     qx := sin_roll * cos_pitch * cos_yaw - cos_roll * sin_pitch * sin_yaw;
     qy := cos_roll * sin_pitch * cos_yaw + sin_roll * cos_pitch * sin_yaw;
     qz := cos_roll * cos_pitch * sin_yaw - sin_roll * sin_pitch * cos_yaw |}.

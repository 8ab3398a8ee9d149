(** How the ceres functors move the points of a scan, in the arithmetic of [double]s (Coq's [spec_float], rounding to
    nearest even): matching/ceres/map/scan_match_cost_functor_{2d,3d_quaternion,3d_rpy}.hpp. Only values are modelled
    ([T = double]), not the derivatives ([T = Jet]). Eigen is modelled without fused, vectorised or wider arithmetic;
    the order of the operations is that of its generic code. Definitions only. *)
From Coq Require Import ZArith List Floats.SpecFloat.
From Verif Require Import ResidualModel RoundModel FloatModel ObjFloatModel StepFloatModel.
Import ListNotations.
Open Scope Z_scope.

(** [Eigen::Matrix<T,3,1>]. *)
Record dpoint : Type := { dp0 : double; dp1 : double; dp2 : double }.

(** One component of [Eigen::MatrixBase::cross] (not part of /repo): [a1 * b2 - a2 * b1]. *)
Definition double_cross1 (a1 a2 b1 b2 : double) : double := double_sub (double_mul a1 b2) (double_mul a2 b1).
Definition double_cross (a b : dpoint) : dpoint :=
  {| dp0 := double_cross1 (dp1 a) (dp2 a) (dp1 b) (dp2 b);
     dp1 := double_cross1 (dp2 a) (dp0 a) (dp2 b) (dp0 b);
     dp2 := double_cross1 (dp0 a) (dp1 a) (dp0 b) (dp1 b) |}.
(** [Eigen::Quaternion * vector] (not part of /repo): [uv = vec().cross(v); uv += uv; v + w() * uv + vec().cross(uv)]. *)
Definition double_rotate (q : dquat) (v : dpoint) : dpoint :=
  let vec := {| dp0 := dqx q; dp1 := dqy q; dp2 := dqz q |} in
  let uv := double_cross vec v in
  let uv := {| dp0 := double_add (dp0 uv) (dp0 uv); dp1 := double_add (dp1 uv) (dp1 uv); dp2 := double_add (dp2 uv) (dp2 uv) |} in
  let r := double_cross vec uv in
  {| dp0 := double_add (double_add (dp0 v) (double_mul (dqw q) (dp0 uv))) (dp0 r);
     dp1 := double_add (double_add (dp1 v) (double_mul (dqw q) (dp1 uv))) (dp1 r);
     dp2 := double_add (double_add (dp2 v) (double_mul (dqw q) (dp2 uv))) (dp2 r) |}.
(** scan_match_cost_functor_3d_quaternion.hpp:26-33, scan_match_cost_functor_3d_rpy.hpp:54-55: [in_world]. *)
Definition double_in_world (q : dquat) (translation local : dpoint) : dpoint :=
  let r := double_rotate q local in
  {| dp0 := double_add (dp0 r) (dp0 translation); dp1 := double_add (dp1 r) (dp1 translation); dp2 := double_add (dp2 r) (dp2 translation) |}.

Section Trigonometry.
(** [std::cos] and [std::sin]. *)
Variables dcos dsin : double -> double.
(** scan_match_cost_functor_3d_rpy.hpp:25-44 [toEigen]; products of three from left to right. *)
Definition double_to_eigen (roll pitch yaw : double) : dquat :=
  let roll_2 := double_mul roll double_half in
  let pitch_2 := double_mul pitch double_half in
  let yaw_2 := double_mul yaw double_half in
  let cos_roll := dcos roll_2 in let sin_roll := dsin roll_2 in
  let cos_pitch := dcos pitch_2 in let sin_pitch := dsin pitch_2 in
  let cos_yaw := dcos yaw_2 in let sin_yaw := dsin yaw_2 in
  let mul3 a b c := double_mul (double_mul a b) c in
  {| dqw := double_add (mul3 cos_roll cos_pitch cos_yaw) (mul3 sin_roll sin_pitch sin_yaw);
     dqx := double_sub (mul3 sin_roll cos_pitch cos_yaw) (mul3 cos_roll sin_pitch sin_yaw);
     dqy := double_add (mul3 cos_roll sin_pitch cos_yaw) (mul3 sin_roll cos_pitch sin_yaw);
     dqz := double_sub (mul3 cos_roll cos_pitch sin_yaw) (mul3 sin_roll sin_pitch cos_yaw) |}.
(** scan_match_cost_functor_3d_rpy.hpp:49-55: [in_world] with angles. *)
Definition double_in_world_rpy (roll pitch yaw : double) (translation local : dpoint) : dpoint :=
  double_in_world (double_to_eigen roll pitch yaw) translation local.

(** scan_match_cost_functor_2d.hpp:25-32: [in_world] in the plane. [Eigen::Rotation2D::toRotationMatrix] (not part of
    /repo) has the rows cos, -sin and sin, cos. *)
Definition double_in_world_2d (angle t0 t1 p0 p1 : double) : double * double :=
  let s := dsin angle in let c := dcos angle in
  (double_add (double_add (double_mul c p0) (double_mul (SFopp s) p1)) t0,
   double_add (double_add (double_mul s p0) (double_mul c p1)) t1).
End Trigonometry.

(** The pose updates of the ceres matchers in the arithmetic of [double]s (Coq's [spec_float], rounding to nearest
    even): matching/ceres/local_parameterization.hpp. Only values are modelled ([T = double]), not the derivatives
    ([T = Jet]). A compiler that keeps intermediate results in a wider format or fuses a multiplication with an
    addition is not covered. Definitions only. *)
From Coq Require Import ZArith List Floats.SpecFloat.
From Verif Require Import ResidualModel RoundModel FloatModel ObjFloatModel.
Import ListNotations.
Open Scope Z_scope.

(** [M_PI] as a [double]: 0x1.921fb54442d18p+1. *)
Definition double_pi : double := S754_finite false 7074237752028440 (-51).

(** local_parameterization.hpp:11-17 [clamp]; [a > b] is [b < a]. *)
Definition double_clamp (value min max : double) : double :=
  if SFltb max value then max else if SFltb value min then min else value.

(** local_parameterization.hpp:27-33 [EulerPlus<Num>]; [Num] is the length of both arrays. *)
Definition double_euler_plus (x delta : list double) : list double :=
  map (fun c => double_clamp (double_add (fst c) (snd c)) (SFopp double_pi) double_pi) (combine x delta).

(** local_parameterization.hpp:43-50 [YawOnlyEulerPlus]. *)
Definition double_yaw_euler_plus (x : double * double * double) (delta : double) : double * double * double :=
  let '(roll, pitch, yaw) := x in (roll, pitch, double_clamp (double_add yaw delta) (SFopp double_pi) double_pi).

(** Four [double]s in the order w x y z. *)
Record dquat : Type := { dqw : double; dqx : double; dqy : double; dqz : double }.

(** [ceres::QuaternionProduct] (not part of /repo): four sums of four products from left to right, the same text as in
    rotation_cost_functor_3d_quaternion.hpp:39-46. *)
Definition double_product (z w : dquat) : dquat :=
  {| dqw := double_sub (double_sub (double_sub (double_mul (dqw z) (dqw w)) (double_mul (dqx z) (dqx w))) (double_mul (dqy z) (dqy w)))
                       (double_mul (dqz z) (dqz w));
     dqx := double_sub (double_add (double_add (double_mul (dqw z) (dqx w)) (double_mul (dqx z) (dqw w))) (double_mul (dqy z) (dqz w)))
                       (double_mul (dqz z) (dqy w));
     dqy := double_add (double_add (double_sub (double_mul (dqw z) (dqy w)) (double_mul (dqx z) (dqz w))) (double_mul (dqy z) (dqw w)))
                       (double_mul (dqz z) (dqx w));
     dqz := double_add (double_sub (double_add (double_mul (dqw z) (dqz w)) (double_mul (dqx z) (dqy w))) (double_mul (dqy z) (dqx w)))
                       (double_mul (dqz z) (dqw w)) |}.

(** local_parameterization.hpp:60-71 [YawOnlyQuaternionPlus]. *)
Definition double_yaw_plus (x : dquat) (delta : double) : dquat :=
  let clamped := double_clamp delta (SFopp double_half) double_half in
  double_product {| dqw := SFsqrt 53 1024 (double_sub double_one (double_mul clamped clamped));
                    dqx := double_zero; dqy := double_zero; dqz := clamped |} x.

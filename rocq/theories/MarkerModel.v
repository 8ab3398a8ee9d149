(** Pose and size of the ellipsoids in the conversions of maps to markers:
    conversion/distributions.hpp (2D and 3D). Numbers are exact reals. Definitions only. *)
From Coq Require Import Reals List.
From Verif Require Import MatchModel.
Open Scope R_scope.

(** 3x3 matrix [Eigen::Matrix<T,3,3>], entry (row, column) with indices 0 to 2. *)
Definition mat : Type := nat -> nat -> R.
Definition trace (m : mat) : R := m 0%nat 0%nat + m 1%nat 1%nat + m 2%nat 2%nat.

(** [Eigen::Quaternion<T>(matrix)] as used in distributions.hpp (3D) 64-65, (2D) 65-66. The
    constructor belongs to Eigen (Geometry/Quaternion.h, [quaternionbase_assign_impl<Other,3,3>]). *)
Definition eigen_quaternion (m : mat) : quat :=
  if Rlt_dec 0 (trace m)
  then let t := sqrt (trace m + 1) in
       let t' := (1 / 2) / t in
       {| qw := (1 / 2) * t; qx := (m 2%nat 1%nat - m 1%nat 2%nat) * t';
          qy := (m 0%nat 2%nat - m 2%nat 0%nat) * t'; qz := (m 1%nat 0%nat - m 0%nat 1%nat) * t' |}
  else let i := if Rlt_dec (m 0%nat 0%nat) (m 1%nat 1%nat) then 1%nat else 0%nat in
       let i := if Rlt_dec (m i i) (m 2%nat 2%nat) then 2%nat else i in
       let j := Nat.modulo (i + 1) 3 in
       let k := Nat.modulo (j + 1) 3 in
       let t := sqrt (m i i - m j j - m k k + 1) in
       let t' := (1 / 2) / t in
       let w := (m k j - m j k) * t' in
       let qi := (1 / 2) * t in
       let qj := (m j i + m i j) * t' in
       let qk := (m k i + m i k) * t' in
       match i with
       | O => {| qw := w; qx := qi; qy := qj; qz := qk |}
       | S O => {| qw := w; qx := qk; qy := qi; qz := qj |}
       | _ => {| qw := w; qx := qj; qy := qk; qz := qi |}
       end.

(** The fields [pose] and [scale] of a marker; its type is SPHERE. *)
Record shape : Type := { position : R * R * R; orientation : quat; scale : R * R * R }.

(** distributions.hpp (3D) 73-75, (2D) 75-77. *)
Definition axis_scale (eval : R) : R := Rmax (1 / 10000) (2 * sqrt eval).

(** distributions.hpp (3D) 51-75 and 143-168: [p] is [origin * point_t(mean)], [rotation] is
    [origin.rotation()], [eval] and [evec] come from [getEigenValuesVectors]. *)
Definition shape_3d (rotation : quat) (p : R * R * R) (eval : nat -> R) (evec : mat) : shape :=
  {| position := p;
     orientation := quaternion_product rotation (eigen_quaternion evec);
     scale := (axis_scale (eval 0%nat), axis_scale (eval 1%nat), axis_scale (eval 2%nat)) |}.

(** distributions.hpp (2D) 62-64 and 155-157: the 2x2 matrix inside of the identity. *)
Definition embed (evec : mat) : mat :=
  fun r c => if (Nat.ltb r 2 && Nat.ltb c 2)%bool then evec r c else if Nat.eqb r c then 1 else 0.

(** distributions.hpp (2D) 51-77 and 144-170. [cslibs_math_3d::Quaternion<T>(yaw)] is the rotation
    about the vertical axis. *)
Definition shape_2d (yaw : R) (p : R * R) (eval : nat -> R) (evec : mat) : shape :=
  {| position := (fst p, snd p, 0);
     orientation := quaternion_product {| qw := cos (yaw / 2); qx := 0; qy := 0; qz := sin (yaw / 2) |}
                      (eigen_quaternion (embed evec));
     scale := (axis_scale (eval 0%nat), axis_scale (eval 1%nat), 1 / 10000) |}.

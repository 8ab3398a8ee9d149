(** What the matching properties mean, independent of the implementation. *)
From Coq Require Import Reals List.
From Verif Require Import MatchModel.
Import ListNotations.
Open Scope R_scope.

(** [atan2] on the unit circle: the angle of the point. Either sign is allowed at the end of the
    range, so that both results for a (signed) zero are covered. *)
Definition atan2_ok (f : R -> R -> R) : Prop :=
  forall s c, s * s + c * c = 1 -> - PI <= f s c <= PI /\ sin (f s c) = s /\ cos (f s c) = c.

(** Two angles that differ by whole turns. *)
Definition congruent (a b : R) : Prop := exists k : Z, a = b + IZR k * (2 * PI).

(** Value limited to an interval. *)
Definition limited (lo hi x : R) : R := Rmax lo (Rmin hi x).

Definition vec : Type := (R * R * R)%type.

Definition unit_quat (q : quat) : Prop := qw q * qw q + qx q * qx q + qy q * qy q + qz q * qz q = 1.

(** The rotation a unit quaternion stands for (the usual matrix). *)
Definition rotate (q : quat) (v : vec) : vec :=
  let '(x, y, z) := v in
  let '(w, a, b, c) := (qw q, qx q, qy q, qz q) in
  ((1 - 2 * (b * b + c * c)) * x + 2 * (a * b - w * c) * y + 2 * (a * c + w * b) * z,
   2 * (a * b + w * c) * x + (1 - 2 * (a * a + c * c)) * y + 2 * (b * c - w * a) * z,
   2 * (a * c - w * b) * x + 2 * (b * c + w * a) * y + (1 - 2 * (a * a + b * b)) * z).

(** Rotations about the coordinate axes. *)
Definition rot_x (t : R) (v : vec) : vec :=
  let '(x, y, z) := v in (x, cos t * y - sin t * z, sin t * y + cos t * z).
Definition rot_y (t : R) (v : vec) : vec :=
  let '(x, y, z) := v in (cos t * x + sin t * z, y, - sin t * x + cos t * z).
Definition rot_z (t : R) (v : vec) : vec :=
  let '(x, y, z) := v in (cos t * x - sin t * y, sin t * x + cos t * y, z).

(** Cost of a residual block: sum of squares (ceres halves it, alglib does not). *)
Definition sum_squares (l : list R) : R := fold_right (fun r acc => r * r + acc) 0 l.

(** What the pose updates should do, in real numbers. *)
From Coq Require Import Reals List Floats.SpecFloat.
From Flocq Require Import Core BinarySingleNaN.
From Verif Require Import ResidualModel MatchModel ObjFloatSpec StepFloatModel.
Import ListNotations.
Open Scope R_scope.

(** The quaternion that four finite [double]s stand for. *)
Definition value (q : dquat) : quat := {| qw := real (dqw q); qx := real (dqx q); qy := real (dqy q); qz := real (dqz q) |}.
Definition finite_quat (q : dquat) : Prop :=
  finite_double (dqw q) /\ finite_double (dqx q) /\ finite_double (dqy q) /\ finite_double (dqz q).

(** Length of a quaternion and distance of two. *)
Definition size (q : quat) : R := sqrt (qw q * qw q + qx q * qx q + qy q * qy q + qz q * qz q).
Definition apart (p q : quat) : R :=
  size {| qw := qw p - qw q; qx := qx p - qx q; qy := qy p - qy q; qz := qz p - qz q |}.

(** The pose [q] followed by a turn by [t] about the vertical axis. *)
Definition turned (t : R) (q : quat) : quat :=
  {| qw := cos (t / 2) * qw q - sin (t / 2) * qz q; qx := cos (t / 2) * qx q - sin (t / 2) * qy q;
     qy := cos (t / 2) * qy q + sin (t / 2) * qx q; qz := cos (t / 2) * qz q + sin (t / 2) * qw q |}.
(** A value cut off at both ends. *)
Definition cut (lo hi x : R) : R := Rmax lo (Rmin hi x).
(** The angle of one step (C37: the increment is the sine of half the angle) and of all. *)
Definition step_angle (delta : double) : R := 2 * asin (cut (- / 2) (/ 2) (real delta)).
Definition total_angle (deltas : list double) : R := fold_right (fun d a => step_angle d + a) 0 deltas.

(** Coordinates of the vertical axis of the world in the moving frame: they determine roll and pitch. *)
Definition vertical (q : quat) : list R :=
  [2 * (qx q * qz q - qw q * qy q); 2 * (qy q * qz q + qw q * qx q);
   qw q * qw q + qz q * qz q - qx q * qx q - qy q * qy q].

(** What it means to move points accurately and rigidly; independent of the implementation. *)
From Coq Require Import Reals List Floats.SpecFloat.
From Flocq Require Import Core BinarySingleNaN.
From Verif Require Import ResidualModel MatchModel MatchSpec RigidSpec ObjFloatSpec StepFloatModel StepFloatSpec MoveFloatModel.
Open Scope R_scope.

(** The point three finite [double]s stand for. *)
Definition place (p : dpoint) : vec := (real (dp0 p), real (dp1 p), real (dp2 p)).
Definition finite_point (p : dpoint) : Prop := finite_double (dp0 p) /\ finite_double (dp1 p) /\ finite_double (dp2 p).
(** Greatest coordinate. *)
Definition reach (p : dpoint) : R := Rmax (Rabs (real (dp0 p))) (Rmax (Rabs (real (dp1 p))) (Rabs (real (dp2 p)))).
Definition usable_point (p : dpoint) : Prop := finite_point p /\ reach p <= bpow radix2 100.
(** The size of the numbers in a motion of [p] by [t]; the last summand stands for underflow. *)
Definition extent (p t : dpoint) : R := reach p + reach t + bpow radix2 (-1000).

(** Euclidean distance of two points. *)
Definition distance (a b : vec) : R :=
  let '(a0, a1, a2) := a in let '(b0, b1, b2) := b in
  sqrt ((a0 - b0) * (a0 - b0) + (a1 - b1) * (a1 - b1) + (a2 - b2) * (a2 - b2)).
(** The motion of a pose: rotation, then translation. *)
Definition moved (q : quat) (t p : vec) : vec := plus3 (rotate q p) t.

(** The quaternion of length 1 in the direction of [q]. *)
Definition normalised (q : quat) : quat :=
  {| qw := qw q / size q; qx := qx q / size q; qy := qy q / size q; qz := qz q / size q |}.

(** A sine or cosine with an error of at most two units of roundoff, for angles up to 4. *)
Definition trig_ok (f : double -> double) (F : R -> R) : Prop :=
  forall x, finite_double x -> Rabs (real x) <= 4 ->
    finite_double (f x) /\ Rabs (real (f x)) <= 1 /\ Rabs (real (f x) - F (real x)) <= 2 * roundoff.

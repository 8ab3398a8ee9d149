(** What it means to move points rigidly; independent of the implementation. *)
From Coq Require Import Reals List.
From Verif Require Import MatchModel MatchSpec.
Open Scope R_scope.

Definition point3 (p : nat -> R) : vec := (p 0%nat, p 1%nat, p 2%nat).
Definition plus3 (a b : vec) : vec :=
  let '(a0, a1, a2) := a in let '(b0, b1, b2) := b in (a0 + b0, a1 + b1, a2 + b2).
(** Squared distance in the plane and in space. *)
Definition dist2 (p q : nat -> R) : R := (p 0%nat - q 0%nat)² + (p 1%nat - q 1%nat)².
Definition dist3 (p q : nat -> R) : R := (p 0%nat - q 0%nat)² + (p 1%nat - q 1%nat)² + (p 2%nat - q 2%nat)².
(** The quaternion in the four parameters from [k] on. *)
Definition quat_of (x : nat -> R) (k : nat) : quat :=
  {| qw := x k; qx := x (k + 1)%nat; qy := x (k + 2)%nat; qz := x (k + 3)%nat |}.

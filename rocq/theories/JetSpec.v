(** What it means for a residual to have a derivative; independent of the implementation. *)
From Coq Require Import Reals List.
From Verif Require Import Base.
Open Scope R_scope.

(** [F] yields a value around [t] and has derivative [d] there. *)
Definition has_derivative (F : R -> outcome R) (t d : R) : Prop :=
  exists (f : R -> R) (eps : R), 0 < eps /\ (forall s, Rabs (s - t) < eps -> F s = Ok (f s)) /\ derivable_pt_lim f t d.

(** The parameters [x] moved by [s] along [v]. *)
Definition moved (x v : nat -> R) (s : R) : nat -> R := fun i => x i + s * v i.

(** No coordinate of the point lies on a border between bundles ([inv] is one over the edge length). *)
Definition off_border (dim : nat) (inv : R) (p : nat -> R) : Prop :=
  forall i z, (i < dim)%nat -> p i * inv <> IZR z.

(** The matrix is positive semidefinite. *)
Fixpoint rsum (n : nat) (f : nat -> R) : R := match n with O => 0 | S n' => rsum n' f + f n' end.
Definition semidefinite (dim : nat) (a : nat -> nat -> R) : Prop :=
  forall x : nat -> R, 0 <= rsum dim (fun j => rsum dim (fun i => x i * a i j * x j)).

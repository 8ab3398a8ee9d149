(** What a marker shows and what it should show. *)
From Coq Require Import Reals List.
From Verif Require Import MatchModel MatchSpec MarkerModel.
Open Scope R_scope.

Definition dot (a b : vec) : R :=
  let '(a0, a1, a2) := a in let '(b0, b1, b2) := b in a0 * b0 + a1 * b1 + a2 * b2.
Definition vadd (a b : vec) : vec :=
  let '(a0, a1, a2) := a in let '(b0, b1, b2) := b in (a0 + b0, a1 + b1, a2 + b2).
Definition column (m : mat) (k : nat) : vec := (m 0%nat k, m 1%nat k, m 2%nat k).
Definition apply (m : mat) (v : vec) : vec :=
  let '(x, y, z) := v in
  (m 0%nat 0%nat * x + m 0%nat 1%nat * y + m 0%nat 2%nat * z,
   m 1%nat 0%nat * x + m 1%nat 1%nat * y + m 1%nat 2%nat * z,
   m 2%nat 0%nat * x + m 2%nat 1%nat * y + m 2%nat 2%nat * z).
Definition det (m : mat) : R :=
  m 0%nat 0%nat * (m 1%nat 1%nat * m 2%nat 2%nat - m 1%nat 2%nat * m 2%nat 1%nat)
  - m 0%nat 1%nat * (m 1%nat 0%nat * m 2%nat 2%nat - m 1%nat 2%nat * m 2%nat 0%nat)
  + m 0%nat 2%nat * (m 1%nat 0%nat * m 2%nat 1%nat - m 1%nat 1%nat * m 2%nat 0%nat).

(** Columns of length 1, at right angles to each other. *)
Definition orthonormal (m : mat) : Prop :=
  forall i j, (i < 3)%nat -> (j < 3)%nat -> dot (column m i) (column m j) = if Nat.eqb i j then 1 else 0.

(** Eigenvalues and eigenvectors of a covariance. *)
Definition eigenpairs (cov : mat) (eval : nat -> R) (evec : mat) : Prop :=
  orthonormal evec /\
  forall k, (k < 3)%nat -> apply cov (column evec k) =
    (eval k * evec 0%nat k, eval k * evec 1%nat k, eval k * evec 2%nat k).

(** The ellipsoid of one standard deviation: all [z] with [z . cov^-1 z <= 1]. *)
Definition ellipsoid (cov : mat) (z : vec) : Prop :=
  exists a, z = apply cov a /\ dot a (apply cov a) <= 1.

(** The points of a SPHERE marker: the unit ball, stretched to the diameters [scale], turned and
    moved. *)
Definition drawn (s : shape) (x : vec) : Prop :=
  exists u : vec, dot u u <= 1 /\
    let '(u0, u1, u2) := u in let '(s0, s1, s2) := scale s in
    x = vadd (position s) (rotate (orientation s) (s0 / 2 * u0, s1 / 2 * u1, s2 / 2 * u2)).

(** The same in the plane. *)
Definition orthonormal_2d (m : mat) : Prop :=
  m 0%nat 0%nat * m 0%nat 0%nat + m 1%nat 0%nat * m 1%nat 0%nat = 1 /\
  m 0%nat 1%nat * m 0%nat 1%nat + m 1%nat 1%nat * m 1%nat 1%nat = 1 /\
  m 0%nat 0%nat * m 0%nat 1%nat + m 1%nat 0%nat * m 1%nat 1%nat = 0.
Definition det_2d (m : mat) : R := m 0%nat 0%nat * m 1%nat 1%nat - m 0%nat 1%nat * m 1%nat 0%nat.
Definition eigenpairs_2d (cov : mat) (eval : nat -> R) (evec : mat) : Prop :=
  orthonormal_2d evec /\
  forall k, (k < 2)%nat ->
    cov 0%nat 0%nat * evec 0%nat k + cov 0%nat 1%nat * evec 1%nat k = eval k * evec 0%nat k /\
    cov 1%nat 0%nat * evec 0%nat k + cov 1%nat 1%nat * evec 1%nat k = eval k * evec 1%nat k.
Definition ellipse (cov : mat) (z : R * R) : Prop :=
  exists a b : R,
    z = (cov 0%nat 0%nat * a + cov 0%nat 1%nat * b, cov 1%nat 0%nat * a + cov 1%nat 1%nat * b) /\
    a * fst z + b * snd z <= 1.
(** Rotation of the plane. *)
Definition turn (t : R) (v : R * R) : R * R :=
  (cos t * fst v - sin t * snd v, sin t * fst v + cos t * snd v).

(** A quaternion scaled to length 1, as displays do with orientations that are not normalised. *)
Definition normalised (q q1 : quat) : Prop :=
  unit_quat q1 /\ exists r, 0 < r /\
    qw q = r * qw q1 /\ qx q = r * qx q1 /\ qy q = r * qy q1 /\ qz q = r * qz q1.

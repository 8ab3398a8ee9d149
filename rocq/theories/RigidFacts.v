(** The functors move scan points rigidly. *)
From Coq Require Import Reals Lra List Lia.
From Verif Require Import Base MatchModel MatchSpec MatchFacts JetModel RigidSpec.
Open Scope R_scope.

(** Eigen's product is the rotation by the matrix. *)
Lemma eigen_product (q : quat) (u v : nat -> R) :
  u 0%nat = qx q -> u 1%nat = qy q -> u 2%nat = qz q ->
  point3 (rotate_n real_number (qw q) u v) = rotate q (point3 v).
Proof.
  intros E0 E1 E2. unfold point3, rotate_n, cross_n, rotate. cbn [real_number nadd nsub nmul].
  rewrite E0, E1, E2.
  f_equal; [f_equal|]; ring.
Qed.

Lemma pose_2d_spec (x local : nat -> R) (z : R) :
  rot_z (x 2%nat) (local 0%nat, local 1%nat, z) =
  (pose_2d real_number x local 0%nat - x 0%nat, pose_2d real_number x local 1%nat - x 1%nat, z).
Proof. unfold rot_z, pose_2d. cbn [real_number nadd nsub nmul scale ncos nsin of_double]. f_equal; f_equal; ring. Qed.

Lemma pose_2d_rigid (x p q : nat -> R) :
  dist2 (pose_2d real_number x p) (pose_2d real_number x q) = dist2 p q.
Proof.
  unfold dist2, pose_2d. cbn [real_number nadd nsub nmul scale ncos nsin of_double].
  pose proof (sin2_cos2 (x 2%nat)) as H. unfold Rsqr in *. set (s := sin (x 2%nat)) in *. set (c := cos (x 2%nat)) in *.
  match goal with |- ?l = _ => replace l with ((s * s + c * c) *
    ((p 0%nat - q 0%nat) * (p 0%nat - q 0%nat) + (p 1%nat - q 1%nat) * (p 1%nat - q 1%nat))) by ring end.
  rewrite H. ring.
Qed.

Lemma pose_quaternion_spec (x local : nat -> R) :
  point3 (pose_quaternion real_number x local) = plus3 (rotate (quat_of x 3) (point3 local)) (point3 x).
Proof.
  pose proof (eigen_product (quat_of x 3) (fun i => x (4 + i)%nat) local eq_refl eq_refl eq_refl) as E.
  rewrite <- E. reflexivity.
Qed.

Lemma pose_rpy_spec (x local : nat -> R) :
  point3 (pose_rpy real_number x local) =
  plus3 (rot_z (x 5%nat) (rot_y (x 4%nat) (rot_x (x 3%nat) (point3 local)))) (point3 x).
Proof.
  rewrite <- (proj2 (to_eigen_spec (x 3%nat) (x 4%nat) (x 5%nat)) (point3 local)).
  set (u := fun i => match i with O => qx (to_eigen (x 3%nat) (x 4%nat) (x 5%nat))
                              | S O => qy (to_eigen (x 3%nat) (x 4%nat) (x 5%nat))
                              | _ => qz (to_eigen (x 3%nat) (x 4%nat) (x 5%nat)) end).
  rewrite <- (eigen_product (to_eigen (x 3%nat) (x 4%nat) (x 5%nat)) u local eq_refl eq_refl eq_refl).
  assert (A : forall a, (1 / 2 * a) = a * (1 / 2)) by (intros; ring).
  unfold pose_rpy, point3, plus3, u, rotate_n, cross_n, to_eigen.
  cbn [real_number nadd nsub nmul scale ncos nsin of_double qw qx qy qz]. rewrite !A. reflexivity.
Qed.

(** Squared length. *)
Definition len2 (v : vec) : R := let '(a, b, c) := v in a * a + b * b + c * c.
Definition minus3 (a b : vec) : vec :=
  let '(a0, a1, a2) := a in let '(b0, b1, b2) := b in (a0 - b0, a1 - b1, a2 - b2).
Lemma dist3_len (p q : nat -> R) : dist3 p q = len2 (minus3 (point3 p) (point3 q)).
Proof. reflexivity. Qed.

Lemma rotate_len (q : quat) (a b : vec) : unit_quat q -> len2 (minus3 (rotate q a) (rotate q b)) = len2 (minus3 a b).
Proof.
  intros U. destruct a as [[a0 a1] a2], b as [[b0 b1] b2]. unfold unit_quat in U. unfold rotate, minus3, len2.
  set (w := qw q) in *. set (i := qx q) in *. set (j := qy q) in *. set (k := qz q) in *.
  set (d0 := a0 - b0). set (d1 := a1 - b1). set (d2 := a2 - b2).
  assert (Hw : w * w = 1 - i * i - j * j - k * k) by lra.
  match goal with |- ?l = _ => replace l with
   (((1 - 2 * (j * j + k * k)) * d0 + 2 * (i * j - w * k) * d1 + 2 * (i * k + w * j) * d2) *
    ((1 - 2 * (j * j + k * k)) * d0 + 2 * (i * j - w * k) * d1 + 2 * (i * k + w * j) * d2) +
    (2 * (i * j + w * k) * d0 + (1 - 2 * (i * i + k * k)) * d1 + 2 * (j * k - w * i) * d2) *
    (2 * (i * j + w * k) * d0 + (1 - 2 * (i * i + k * k)) * d1 + 2 * (j * k - w * i) * d2) +
    (2 * (i * k - w * j) * d0 + 2 * (j * k + w * i) * d1 + (1 - 2 * (i * i + j * j)) * d2) *
    (2 * (i * k - w * j) * d0 + 2 * (j * k + w * i) * d1 + (1 - 2 * (i * i + j * j)) * d2)) by (unfold d0, d1, d2; ring) end.
  ring_simplify. replace (w ^ 2) with (1 - i * i - j * j - k * k) by (rewrite <- Hw; ring). ring.
Qed.

Lemma shift_len (a b t : vec) : len2 (minus3 (plus3 a t) (plus3 b t)) = len2 (minus3 a b).
Proof. destruct a as [[a0 a1] a2], b as [[b0 b1] b2], t as [[t0 t1] t2]. unfold plus3, minus3, len2. ring. Qed.

Lemma pose_quaternion_rigid (x p q : nat -> R) : unit_quat (quat_of x 3) ->
  dist3 (pose_quaternion real_number x p) (pose_quaternion real_number x q) = dist3 p q.
Proof.
  intros U. rewrite !dist3_len. etransitivity.
  - rewrite (pose_quaternion_spec x p), (pose_quaternion_spec x q). rewrite shift_len. apply rotate_len. exact U.
  - reflexivity.
Qed.

Lemma pose_rpy_rigid (x p q : nat -> R) :
  dist3 (pose_rpy real_number x p) (pose_rpy real_number x q) = dist3 p q.
Proof.
  rewrite !dist3_len. destruct (to_eigen_spec (x 3%nat) (x 4%nat) (x 5%nat)) as [U E].
  rewrite (pose_rpy_spec x p), (pose_rpy_spec x q). rewrite <- !E, shift_len. apply rotate_len. exact U.
Qed.

(** The map frame of the functors is that of the initial origin. *)
Lemma frame_2d (x p : nat -> R) (i : nat) : (i < 2)%nat ->
  @eq R (to_map_frame real_number 2 (frame_rot_2d (x 2%nat)) (frame_trans_2d (x 0%nat) (x 1%nat) (x 2%nat))
           (pose_2d real_number x p) i) (p i).
Proof.
  intros Hi. unfold to_map_frame, nsum, frame_rot_2d, frame_trans_2d, inverse_translation_2d, inverse_yaw, pose_2d.
  cbn [real_number nadd nsub nmul scale ncos nsin of_double fst snd]. rewrite cos_neg, sin_neg.
  pose proof (sin2_cos2 (x 2%nat)) as H. unfold Rsqr in H.
  set (s := sin (x 2%nat)) in *. set (c := cos (x 2%nat)) in *.
  destruct i as [|[|i]]; [| |lia].
  - match goal with |- @eq R ?l _ => replace l with ((s * s + c * c) * p 0%nat) by ring end. rewrite H. ring.
  - match goal with |- @eq R ?l _ => replace l with ((s * s + c * c) * p 1%nat) by ring end. rewrite H. ring.
Qed.

Lemma frame_3d (x p : nat -> R) (i : nat) : unit_quat (quat_of x 3) -> (i < 3)%nat ->
  @eq R (to_map_frame real_number 3 (frame_rot_3d (x 3%nat) (fun k => x (4 + k)%nat))
           (frame_trans_3d x (x 3%nat) (fun k => x (4 + k)%nat)) (pose_quaternion real_number x p) i) (p i).
Proof.
  unfold unit_quat, quat_of. cbn [qw qx qy qz Nat.add]. intros U Hi.
  unfold to_map_frame, nsum, frame_rot_3d, quaternion_matrix, frame_trans_3d, pose_quaternion, rotate_n, cross_n.
  cbn [real_number nadd nsub nmul scale of_double Nat.add].
  destruct i as [|[|[|i]]]; [| | |lia];
  set (w := x 3%nat) in *; set (a := x 4%nat) in *; set (b := x 5%nat) in *; set (d := x 6%nat) in *;
  set (t0 := x 0%nat); set (t1 := x 1%nat); set (t2 := x 2%nat); set (p0 := p 0%nat); set (p1 := p 1%nat); set (p2 := p 2%nat);
  clearbody w a b d t0 t1 t2 p0 p1 p2.
  - match goal with |- @eq R ?l _ => replace l with (p0 + 4 * (1 - (w * w + a * a + b * b + d * d)) *
      (a * (a * p0 + b * p1 + d * p2) - (a * a + b * b + d * d) * p0)) by ring end. rewrite U. ring.
  - match goal with |- @eq R ?l _ => replace l with (p1 + 4 * (1 - (w * w + a * a + b * b + d * d)) *
      (b * (a * p0 + b * p1 + d * p2) - (a * a + b * b + d * d) * p1)) by ring end. rewrite U. ring.
  - match goal with |- @eq R ?l _ => replace l with (p2 + 4 * (1 - (w * w + a * a + b * b + d * d)) *
      (d * (a * p0 + b * p1 + d * p2) - (a * a + b * b + d * d) * p2)) by ring end. rewrite U. ring.
Qed.

(** C59: the functors move the scan rigidly, by the motion their parameters describe. *)
From Coq Require Import Reals Lra List Lia.
From Verif Require Import Base MatchModel MatchSpec JetModel RigidSpec RigidFacts.
Open Scope R_scope.

(** C59 in the plane: rotation by the third parameter, then translation by the first two; distances
    between scan points are kept. *)
Theorem C59_planar (x p q : nat -> R) :
  (forall z, rot_z (x 2%nat) (p 0%nat, p 1%nat, z) =
             (pose_2d real_number x p 0%nat - x 0%nat, pose_2d real_number x p 1%nat - x 1%nat, z)) /\
  dist2 (pose_2d real_number x p) (pose_2d real_number x q) = dist2 p q.
Proof. exact (conj (pose_2d_spec x p) (pose_2d_rigid x p q)). Qed.
Print Assumptions C59_planar.

(** C59 with angles: roll, then pitch, then yaw, then translation. *)
Theorem C59_angles (x p q : nat -> R) :
  point3 (pose_rpy real_number x p) =
    plus3 (rot_z (x 5%nat) (rot_y (x 4%nat) (rot_x (x 3%nat) (point3 p)))) (point3 x) /\
  dist3 (pose_rpy real_number x p) (pose_rpy real_number x q) = dist3 p q.
Proof. exact (conj (pose_rpy_spec x p) (pose_rpy_rigid x p q)). Qed.
Print Assumptions C59_angles.

(** C59 with quaternions: rigid for unit quaternions ... *)
Theorem C59_quaternion_partial (x p q : nat -> R) :
  unit_quat (quat_of x 3) ->
  point3 (pose_quaternion real_number x p) = plus3 (rotate (quat_of x 3) (point3 p)) (point3 x) /\
  dist3 (pose_quaternion real_number x p) (pose_quaternion real_number x q) = dist3 p q.
Proof. exact (fun U => conj (pose_quaternion_spec x p) (pose_quaternion_rigid x p q U)). Qed.
Print Assumptions C59_quaternion_partial.

(** ... but the functor does not normalise the four parameters: others distort the scan. *)
Theorem C59_quaternion_refuted :
  exists x p q : nat -> R,
    dist3 (pose_quaternion real_number x p) (pose_quaternion real_number x q) <> dist3 p q.
Proof.
  exists (fun i => if Nat.eqb i 6 then 2 else 0), (fun i => if Nat.eqb i 0 then 1 else 0), (fun _ => 0).
  unfold dist3, pose_quaternion, rotate_n, cross_n, Rsqr. cbn [real_number nadd nsub nmul of_double Nat.eqb Nat.add]. lra.
Qed.
Print Assumptions C59_quaternion_refuted.

Example C59_example :
  unit_quat (quat_of (fun i => if Nat.eqb i 3 then 3 / 5 else if Nat.eqb i 6 then 4 / 5 else 1 - 1) 3).
Proof. unfold unit_quat, quat_of. cbn. lra. Qed.

(** C59: the frame in which the functors look up the map is that of the initial origin: what the origin moves
    into the world is moved back. In the plane the origin is [(x 0, x 1)] with angle [x 2] ... *)
Theorem C59_frame_planar (x p : nat -> R) (i : nat) : (i < 2)%nat ->
  to_map_frame real_number 2 (frame_rot_2d (x 2%nat)) (frame_trans_2d (x 0%nat) (x 1%nat) (x 2%nat))
    (pose_2d real_number x p) i = p i.
Proof. exact (frame_2d x p i). Qed.
Print Assumptions C59_frame_planar.

(** ... in space it is [(x 0, x 1, x 2)] with the unit quaternion [(x 3, x 4, x 5, x 6)]. *)
Theorem C59_frame_spatial (x p : nat -> R) (i : nat) : unit_quat (quat_of x 3) -> (i < 3)%nat ->
  to_map_frame real_number 3 (frame_rot_3d (x 3%nat) (fun k => x (4 + k)%nat))
    (frame_trans_3d x (x 3%nat) (fun k => x (4 + k)%nat)) (pose_quaternion real_number x p) i = p i.
Proof. exact (frame_3d x p i). Qed.
Print Assumptions C59_frame_spatial.

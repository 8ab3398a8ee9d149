(** C36 - C39, C51, C52: rotations and translations in the ceres matchers. *)
From Coq Require Import Reals Lra List.
From Verif Require Import MatchModel MatchSpec MatchFacts.
Import ListNotations.
Open Scope R_scope.

(** C36: whatever [atan2] returns at its end points, the residual is the weight times an angle
    congruent to reference - estimate of absolute value at most pi; it is 0 exactly for congruent
    angles. *)
Theorem C36_angle_difference (atan2 : R -> R -> R) (w r0 r : R) :
  atan2_ok atan2 ->
  exists d, rotation_residual_2d atan2 w r0 r = w * d /\ congruent d (r0 - r) /\ Rabs d <= PI /\
            (d = 0 <-> congruent r0 r).
Proof.
  exact (fun H => ex_intro _ (angle_difference atan2 r0 r)
    (conj eq_refl (conj (proj1 (angle_difference_spec atan2 r0 r H))
       (conj (proj2 (angle_difference_spec atan2 r0 r H)) (angle_difference_zero atan2 r0 r H))))).
Qed.
Print Assumptions C36_angle_difference.

(** C36: the roll-pitch-yaw residual is the same for every component. *)
Theorem C36_rpy (atan2 : R -> R -> R) (w : R) (a b : R * R * R) :
  atan2_ok atan2 ->
  let '(a0, a1, a2) := a in let '(b0, b1, b2) := b in
  exists d0 d1 d2, rotation_residual_rpy atan2 w [a0; a1; a2] [b0; b1; b2] = [w * d0; w * d1; w * d2] /\
    (congruent d0 (a0 - b0) /\ Rabs d0 <= PI /\ (d0 = 0 <-> congruent a0 b0)) /\
    (congruent d1 (a1 - b1) /\ Rabs d1 <= PI /\ (d1 = 0 <-> congruent a1 b1)) /\
    (congruent d2 (a2 - b2) /\ Rabs d2 <= PI /\ (d2 = 0 <-> congruent a2 b2)).
Proof. exact (rpy_residual atan2 w a b). Qed.
Print Assumptions C36_rpy.

(** There is such an [atan2]; across the wrap-around the residual is the short way round: from
    reference 3 to estimate -3 it is 6 - 2 pi, not 6. *)
Example C36_example :
  atan2_ok acos_atan2 /\ rotation_residual_2d acos_atan2 1 3 (-3) = 6 - 2 * PI.
Proof. exact (conj acos_atan2_ok wrap_around). Qed.

(** C37, full statement: the step turns by twice the clamped increment. False: the increment is
    the sine of the half angle; a step of 1/2 turns by pi/3, not by 1. *)
Theorem C37_angle_refuted :
  exists (q : quat) (delta : R) (v : vec),
    unit_quat q /\
    rotate (yaw_quaternion_plus q delta) v <> rot_z (2 * limited (- (1 / 2)) (1 / 2) delta) (rotate q v).
Proof. exact yaw_angle_differs. Qed.
Print Assumptions C37_angle_refuted.

(** C37, what holds: the result is a unit quaternion and the rotation is followed by one about the z
    axis, by twice the arc sine of the clamped increment; never more than pi/3. *)
Theorem C37_yaw_step_partial (q : quat) (delta : R) :
  unit_quat q ->
  unit_quat (yaw_quaternion_plus q delta) /\
  exists t, t = 2 * asin (limited (- (1 / 2)) (1 / 2) delta) /\ Rabs t <= PI / 3 /\
    forall v, rotate (yaw_quaternion_plus q delta) v = rot_z t (rotate q v).
Proof. exact (yaw_plus_bounded delta q). Qed.
Print Assumptions C37_yaw_step_partial.

(** ... and after any sequence of steps the quaternion is still a unit quaternion and the rotation has
    only been followed by one about z. *)
Theorem C37_many_steps_partial (q : quat) (deltas : list R) :
  unit_quat q ->
  unit_quat (fold_left yaw_quaternion_plus deltas q) /\
  exists t, forall v, rotate (fold_left yaw_quaternion_plus deltas q) v = rot_z t (rotate q v).
Proof. exact (yaw_steps deltas q). Qed.
Print Assumptions C37_many_steps_partial.

Example C37_example :
  unit_quat {| qw := 3 / 5; qx := 4 / 5; qy := 0; qz := 0 |} /\
  yaw_quaternion_plus {| qw := 0; qx := 1; qy := 0; qz := 0 |} 0 = {| qw := 0; qx := 1; qy := 0; qz := 0 |}.
Proof.
  split; [unfold unit_quat; cbn; lra|]. unfold yaw_quaternion_plus. rewrite clamp_limited, limited_id by lra.
  replace (1 - 0 * 0) with 1 by ring. rewrite sqrt_1. unfold quaternion_product; cbn. f_equal; ring.
Qed.

(** C38, full statement: the result represents the same rotation as the sum. False: a sum beyond pi
    is cut off, not wrapped. *)
Theorem C38_same_rotation_refuted :
  exists x delta r : R, - PI <= x <= PI /\ euler_plus [x] [delta] = [r] /\ ~ congruent r (x + delta).
Proof. exact euler_cut_off. Qed.
Print Assumptions C38_same_rotation_refuted.

(** C38, what holds: every component is in [-pi, pi]; it represents the sum exactly when the sum was
    in this interval (then it is the sum) or is a straight angle. *)
Theorem C38_in_range_partial (x delta : list R) (i : nat) (a d : R) :
  nth_error x i = Some a -> nth_error delta i = Some d ->
  exists r, nth_error (euler_plus x delta) i = Some r /\ - PI <= r <= PI /\
    (- PI <= a + d <= PI -> r = a + d) /\
    (congruent r (a + d) <-> (- PI <= a + d <= PI) \/ congruent (a + d) PI).
Proof. exact (euler_component x delta i a d). Qed.
Print Assumptions C38_in_range_partial.

(** C38: the yaw-only version keeps roll and pitch and treats yaw the same way. *)
Theorem C38_yaw_only_partial (roll pitch yaw delta : R) :
  exists r, yaw_euler_plus (roll, pitch, yaw) delta = (roll, pitch, r) /\ euler_plus [yaw] [delta] = [r].
Proof. exact (ex_intro _ _ (conj eq_refl eq_refl)). Qed.
Print Assumptions C38_yaw_only_partial.

(** C38: a yaw at the end of the range cannot be moved across it by any step, however small. *)
Theorem C38_stuck_at_pi (delta : R) : 0 <= delta -> euler_plus [PI] [delta] = [PI].
Proof. exact (stuck_at_pi delta). Qed.
Print Assumptions C38_stuck_at_pi.

Example C38_example : nth_error (euler_plus [1; 2] [1; 1 / 2]) 1 = Some (2 + 1 / 2).
Proof.
  destruct (euler_component [1; 2] [1; 1 / 2] 1 2 (1 / 2) eq_refl eq_refl) as [r [E [_ [H _]]]].
  rewrite E, H; [reflexivity|]. generalize pi_gt_3; lra.
Qed.

(** C39, full statement: the residual is zero at the reference and the cost grows with the distance.
    False: the cost is the squared weight for every rotation, the reference included. *)
Theorem C39_zero_at_reference_refuted :
  exists (w : R) (r : quat), 0 < w /\ unit_quat r /\
    ~ Forall (fun x => x = 0) (rotation_residual_quaternion w r r) /\
    ~ Forall (fun x => x = 0) (alglib_rotation_quaternion w r r).
Proof. exact quaternion_not_zero. Qed.
Print Assumptions C39_zero_at_reference_refuted.

Theorem C39_cost_constant (w : R) (r q : quat) :
  unit_quat r -> unit_quat q ->
  sum_squares (rotation_residual_quaternion w r q) = w * w /\
  sum_squares (alglib_rotation_quaternion w r q) = w * w.
Proof. exact (fun Hr Hq => conj (quaternion_cost w r q Hr Hq) (alglib_cost w r q Hr Hq)). Qed.
Print Assumptions C39_cost_constant.

(** C39, what holds: the last three components vanish exactly when the rotations agree. *)
Theorem C39_vector_part_partial (w : R) (r q : quat) :
  unit_quat r -> unit_quat q -> w <> 0 ->
  (Forall (fun x => x = 0) (tl (rotation_residual_quaternion w r q)) <-> forall v, rotate q v = rotate r v).
Proof. exact (vector_residual w r q). Qed.
Print Assumptions C39_vector_part_partial.

Example C39_example :
  let r := {| qw := 1; qx := 0; qy := 0; qz := 0 |} in
  let q := {| qw := 3 / 5; qx := 0; qy := 0; qz := 4 / 5 |} in
  unit_quat r /\ unit_quat q /\
  sum_squares (rotation_residual_quaternion 2 r q) = 4 /\ rotate q (1, 0, 0) <> rotate r (1, 0, 0).
Proof.
  cbn. unfold unit_quat, sum_squares; cbn. repeat split; try lra. intros E. injection E. lra.
Qed.

(** C51: the quaternion the RPY matcher builds from its angles is a unit quaternion and rotates by
    roll about x, then pitch about y, then yaw about z. *)
Theorem C51_rpy_quaternion (roll pitch yaw : R) :
  unit_quat (to_eigen roll pitch yaw) /\
  forall v, rotate (to_eigen roll pitch yaw) v = rot_z yaw (rot_y pitch (rot_x roll v)).
Proof. exact (to_eigen_spec roll pitch yaw). Qed.
Print Assumptions C51_rpy_quaternion.

(** C51: hence changing an angle by whole turns changes no rotated point. *)
Theorem C51_whole_turns (roll pitch yaw roll' pitch' yaw' : R) (v : vec) :
  congruent roll roll' -> congruent pitch pitch' -> congruent yaw yaw' ->
  rotate (to_eigen roll pitch yaw) v = rotate (to_eigen roll' pitch' yaw') v.
Proof. exact (to_eigen_turns roll pitch yaw roll' pitch' yaw' v). Qed.
Print Assumptions C51_whole_turns.

Example C51_example : rotate (to_eigen 0 0 (PI / 2)) (1, 0, 0) = (0, 1, 0).
Proof.
  rewrite (proj2 (to_eigen_spec 0 0 (PI / 2))). cbn. rewrite sin_0, cos_0, sin_PI2, cos_PI2.
  f_equal; [f_equal|]; ring.
Qed.

(** C52: the translation residual vanishes exactly at the reference; its cost is the squared weight
    times the squared distance. *)
Theorem C52_translation (w : R) (t0 t : list R) :
  w <> 0 -> length t0 = length t ->
  (Forall (fun r => r = 0) (translation_residual w t0 t) <-> t = t0) /\
  sum_squares (translation_residual w t0 t) =
    w * w * fold_right Rplus 0 (map (fun i => (nth i t 0 - nth i t0 0) ^ 2) (seq 0 (length t))).
Proof. exact (fun Hw HL => conj (translation_zero w t0 t Hw HL) (translation_distance w t0 t HL)). Qed.
Print Assumptions C52_translation.

Example C52_example : translation_residual 2 [1; 2] [4; 2] = [2 * (4 - 1); 2 * (2 - 2)] /\ length [1; 2] = length [4; 2].
Proof. split; reflexivity. Qed.

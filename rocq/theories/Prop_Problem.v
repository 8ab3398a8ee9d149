(** C60, C61, C62: the matching problems handed to ceres. *)
From Coq Require Import Reals Lra List Lia.
From Verif Require Import Base MatchModel MatchSpec MatchFacts JetModel RigidSpec ProblemModel ProblemSpec ProblemFacts.
Import ListNotations.
Open Scope R_scope.

(** C60: the cost of a pose is the weighted sum of the mean squared map residual, the squared distance
    from the reference position and the squared angles to the reference rotation, each with the square of
    its weight, whatever the number of scan points and also if a weight is zero and its block left out;
    in the plane ... *)
Theorem C60_cost_2d (evaluate : (nat -> R) -> R) (atan2 : R -> R -> R) (points : list (nat -> R))
  (wt wr wm t0 t1 r0 : R) (x : nat -> R) :
  atan2_ok atan2 ->
  exists d, short_way d r0 (x 2%nat) /\
  cost (problem_2d evaluate atan2 points wt wr wm [t0; t1] r0) x =
    wm * wm * average (map (fun p => (evaluate (pose_2d real_number x p))²) points) +
    wt * wt * ((x 0%nat - t0)² + (x 1%nat - t1)²) + wr * wr * d².
Proof. exact (fun H => problem_2d_cost evaluate atan2 points H wt wr wm t0 t1 r0 x). Qed.
Print Assumptions C60_cost_2d.

(** ... and with angles in space. *)
Theorem C60_cost_rpy (evaluate : (nat -> R) -> R) (atan2 : R -> R -> R) (points : list (nat -> R))
  (wt wr wm t0 t1 t2 a0 a1 a2 : R) (x : nat -> R) :
  atan2_ok atan2 ->
  exists d0 d1 d2, short_way d0 a0 (x 3%nat) /\ short_way d1 a1 (x 4%nat) /\ short_way d2 a2 (x 5%nat) /\
  cost (problem_rpy evaluate atan2 points wt wr wm [t0; t1; t2] [a0; a1; a2]) x =
    wm * wm * average (map (fun p => (evaluate (pose_rpy real_number x p))²) points) +
    wt * wt * ((x 0%nat - t0)² + (x 1%nat - t1)² + (x 2%nat - t2)²) + wr * wr * (d0² + d1² + d2²).
Proof. exact (fun H => problem_rpy_cost evaluate atan2 points H wt wr wm t0 t1 t2 a0 a1 a2 x). Qed.
Print Assumptions C60_cost_rpy.

(** C60 with quaternions: the reference rotation does not appear in the cost at all (see C39), only map and
    translation do. *)
Theorem C60_cost_quaternion_partial (evaluate : (nat -> R) -> R) (points : list (nat -> R))
  (wt wr wm t0 t1 t2 : R) (q : quat) (x : nat -> R) :
  unit_quat q -> unit_quat (quat_of x 3) ->
  cost (problem_quaternion evaluate points wt wr wm [t0; t1; t2] q) x =
    wm * wm * average (map (fun p => (evaluate (pose_quaternion real_number x p))²) points) +
    wt * wt * ((x 0%nat - t0)² + (x 1%nat - t1)² + (x 2%nat - t2)²) + wr * wr.
Proof. exact (problem_quaternion_cost evaluate points wt wr wm t0 t1 t2 q x). Qed.
Print Assumptions C60_cost_quaternion_partial.

(** C60, full statement for quaternions: false. With the rotation prior alone, turning away from the
    reference by half a turn does not change the cost. *)
Theorem C60_rotation_ignored_refuted :
  exists (q : quat) (x y : nat -> R),
    unit_quat q /\ quat_of x 3 = q /\ unit_quat (quat_of y 3) /\
    (forall v, rotate (quat_of y 3) v = rot_z PI (rotate q v)) /\
    forall wr, cost (problem_quaternion (fun _ => 0) [] 0 wr 0 [0; 0; 0] q) x =
               cost (problem_quaternion (fun _ => 0) [] 0 wr 0 [0; 0; 0] q) y.
Proof.
  exists {| qw := 1; qx := 0; qy := 0; qz := 0 |}, (fun i => if Nat.eqb i 3 then 1 else 0), (fun i => if Nat.eqb i 6 then 1 else 0).
  assert (U1 : unit_quat {| qw := 1; qx := 0; qy := 0; qz := 0 |}) by (unfold unit_quat; cbn; ring).
  assert (U2 : unit_quat (quat_of (fun i => if Nat.eqb i 6 then 1 else 0) 3)) by (unfold unit_quat; cbn; ring).
  split; [exact U1|]. split; [reflexivity|]. split; [exact U2|]. split.
  - intros [[a b] c]. unfold rotate, rot_z, quat_of. cbn [qw qx qy qz Nat.eqb Nat.add]. rewrite sin_PI, cos_PI.
    f_equal; [f_equal|]; ring.
  - intros wr. rewrite !problem_quaternion_cost; try assumption. unfold Rsqr. cbn. ring.
Qed.
Print Assumptions C60_rotation_ignored_refuted.

Example C60_example : atan2_ok acos_atan2 /\ short_way (3 - 2) 3 2.
Proof.
  split; [exact acos_atan2_ok|]. split; [exists 0%Z; ring|]. replace (3 - 2) with 1 by ring. rewrite Rabs_R1.
  generalize pi_gt_3; lra.
Qed.

(** C61: with [only_yaw], whatever increments the solver takes, height, roll and pitch stay as they were. *)
Theorem C61_only_yaw_rpy (t r : R * R * R) (steps : list ((R * R * R) * (R * R * R))) :
  let '(t', r') := fold_left (step_rpy true) steps (t, r) in
  snd t' = snd t /\ fst r' = fst r.
Proof. exact (yaw_steps_rpy steps t r). Qed.
Print Assumptions C61_only_yaw_rpy.

(** C61 with quaternions: the height stays, the rotation is the first one followed by a rotation about the
    vertical axis. *)
Theorem C61_only_yaw_quaternion (t : R * R * R) (q : quat) (steps : list ((R * R * R) * (R * R * R))) :
  unit_quat q ->
  let '(t', q') := fold_left (step_quaternion true) steps (t, q) in
  snd t' = snd t /\ unit_quat q' /\ exists a, forall v, rotate q' v = rot_z a (rotate q v).
Proof. exact (yaw_steps_quaternion steps t q). Qed.
Print Assumptions C61_only_yaw_quaternion.

(** C61: in either mode the quaternion keeps its length, so the scan is moved rigidly (C59) at every pose the
    solver visits. *)
Theorem C61_unit_quaternion (only_yaw : bool) (t : R * R * R) (q : quat) (steps : list ((R * R * R) * (R * R * R))) :
  unit_quat q -> unit_quat (snd (fold_left (step_quaternion only_yaw) steps (t, q))).
Proof. exact (steps_unit only_yaw steps t q). Qed.
Print Assumptions C61_unit_quaternion.

Example C61_example :
  unit_quat {| qw := 3 / 5; qx := 4 / 5; qy := 0; qz := 0 |} /\
  step_rpy true ((1, 2, 3), (1, 1, 1)) ((1, 1, 1), (1, 1, 1)) = ((1 + 1, 2 + 1, 3), (1, 1, 1 + 1)).
Proof.
  split; [unfold unit_quat; cbn; lra|]. cbn [step_rpy subset_plus yaw_euler_plus]. unfold clamp.
  destruct (Rlt_dec PI (1 + 1)) as [H|H]; [generalize pi_gt_3; lra|].
  destruct (Rlt_dec (1 + 1) (- PI)) as [K|K]; [generalize pi_gt_3; lra|reflexivity].
Qed.

(** C62: a step of length zero changes nothing, for quaternions in either mode ... *)
Theorem C62_zero_step_quaternion (only_yaw : bool) (t : R * R * R) (q : quat) :
  step_quaternion only_yaw (t, q) ((0, 0, 0), (0, 0, 0)) = (t, q).
Proof. exact (zero_quaternion only_yaw t q). Qed.
Print Assumptions C62_zero_step_quaternion.

(** ... and for angles between -pi and pi. *)
Theorem C62_zero_step_partial :
  (forall t0 t1 r, - PI <= r <= PI -> step_2d ((t0, t1), r) ((0, 0), 0) = ((t0, t1), r)) /\
  (forall only_yaw t r0 r1 r2, (only_yaw = false -> - PI <= r0 <= PI /\ - PI <= r1 <= PI) -> - PI <= r2 <= PI ->
     step_rpy only_yaw (t, (r0, r1, r2)) ((0, 0, 0), (0, 0, 0)) = (t, (r0, r1, r2))).
Proof. exact (conj zero_2d zero_rpy). Qed.
Print Assumptions C62_zero_step_partial.

(** C62, full statement: false for other angles, which jump to the end of the range. *)
Theorem C62_zero_step_refuted :
  exists t r r' : R, step_2d ((t, t), r) ((0, 0), 0) = ((t, t), r') /\ r' <> r /\ ~ congruent r' r.
Proof.
  exists 0, 5, PI. destruct moved_by_nothing as [E N]. split; [exact E|]. split; [congruence|].
  intros C. apply congruent_sin_cos in C as [C _]. rewrite sin_PI in C.
  assert (S : sin 5 < 0).
  { apply sin_lt_0; generalize PI_4, pi_gt_3; lra. } lra.
Qed.
Print Assumptions C62_zero_step_refuted.

Example C62_example : - PI <= 3 <= PI.
Proof. generalize pi_gt_3; lra. Qed.

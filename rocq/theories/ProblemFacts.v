(** Facts about the matching problems. *)
From Coq Require Import Reals Lra List Lia.
From Verif Require Import Base MatchModel MatchSpec MatchFacts JetModel JetFacts RigidSpec ProblemModel ProblemSpec.
Import ListNotations.
Open Scope R_scope.

Lemma cost_app (a b : list block) (x : nat -> R) : cost (a ++ b) x = cost a x + cost b x.
Proof. unfold cost. induction a as [|h a IH]; cbn [app fold_right]; [ring|]. rewrite IH. ring. Qed.

(** A block with factor [w] costs [w * w] times something, also if it is left out. *)
Lemma cost_add (w c : R) (b : block) (x : nat -> R) : sum_squares (b x) = w * w * c -> cost (add_block w b) x = w * w * c.
Proof.
  intros H. unfold add_block. destruct (Req_EM_T w 0) as [E|E]; cbn [cost fold_right].
  - rewrite E. ring.
  - change (sum_squares (b x) + 0 = w * w * c). rewrite H. ring.
Qed.

Section Cost.
Variable evaluate : (nat -> R) -> R.
Variable atan2 : R -> R -> R.
Variable points : list (nat -> R).
Hypothesis Hf : atan2_ok atan2.

Lemma map_block_cost (k : matcher) (w : R) (x : nat -> R) :
  sum_squares (map_block evaluate points k w x) =
  w * w * average (map (fun p => (evaluate (pose_of k real_number x p))²) points).
Proof.
  unfold map_block, average. rewrite map_length. set (n := INR (length points)).
  assert (G : forall l s, sum_squares (map (fun p => weighted_real s (evaluate (pose_of k real_number x p))) l) =
              s * s * fold_right Rplus 0 (map (fun p => (evaluate (pose_of k real_number x p))²) l)).
  { intros l s. unfold sum_squares. induction l as [|p l IH]; cbn [map fold_right]; [ring|].
    rewrite IH, weighted_value. unfold Rsqr. ring. }
  rewrite G. destruct (Req_dec n 0) as [E|E].
  - destruct points as [|p l]; [cbn; unfold Rdiv; ring|]. exfalso. unfold n in E. cbn [length] in E. rewrite S_INR in E.
    pose proof (pos_INR (length l)). lra.
  - assert (Hn : 0 <= n) by apply pos_INR. pose proof (sqrt_sqrt n Hn) as Q.
    assert (Hs : sqrt n <> 0) by (intros C; rewrite C in Q; lra).
    replace (w / sqrt n * (w / sqrt n)) with (w * w / (sqrt n * sqrt n)) by (field; exact Hs). rewrite Q. field. exact E.
Qed.

Lemma problem_2d_cost (wt wr wm t0 t1 r0 : R) (x : nat -> R) :
  exists d, short_way d r0 (x 2%nat) /\
  cost (problem_2d evaluate atan2 points wt wr wm [t0; t1] r0) x =
    wm * wm * average (map (fun p => (evaluate (pose_2d real_number x p))²) points) +
    wt * wt * ((x 0%nat - t0)² + (x 1%nat - t1)²) + wr * wr * d².
Proof.
  exists (angle_difference atan2 r0 (x 2%nat)). split; [exact (angle_difference_spec atan2 r0 (x 2%nat) Hf)|].
  unfold problem_2d. rewrite !cost_app, (cost_add wm _ _ x (map_block_cost Matcher2d wm x)).
  rewrite (cost_add wt ((x 0%nat - t0)² + (x 1%nat - t1)²)); [rewrite (cost_add wr (angle_difference atan2 r0 (x 2%nat))²)|].
  - cbn [pose_of]. ring.
  - unfold sum_squares, rotation_residual_2d, Rsqr. cbn [fold_right]. ring.
  - unfold sum_squares, translation_residual, params, Rsqr. cbn [seq map combine fst snd fold_right]. ring.
Qed.

Lemma problem_rpy_cost (wt wr wm t0 t1 t2 a0 a1 a2 : R) (x : nat -> R) :
  exists d0 d1 d2, short_way d0 a0 (x 3%nat) /\ short_way d1 a1 (x 4%nat) /\ short_way d2 a2 (x 5%nat) /\
  cost (problem_rpy evaluate atan2 points wt wr wm [t0; t1; t2] [a0; a1; a2]) x =
    wm * wm * average (map (fun p => (evaluate (pose_rpy real_number x p))²) points) +
    wt * wt * ((x 0%nat - t0)² + (x 1%nat - t1)² + (x 2%nat - t2)²) + wr * wr * (d0² + d1² + d2²).
Proof.
  exists (angle_difference atan2 a0 (x 3%nat)), (angle_difference atan2 a1 (x 4%nat)), (angle_difference atan2 a2 (x 5%nat)).
  do 3 (split; [apply angle_difference_spec; exact Hf|]).
  unfold problem_rpy. rewrite !cost_app, (cost_add wm _ _ x (map_block_cost Matcher3dRPY wm x)).
  rewrite (cost_add wt ((x 0%nat - t0)² + (x 1%nat - t1)² + (x 2%nat - t2)²));
    [rewrite (cost_add wr ((angle_difference atan2 a0 (x 3%nat))² + (angle_difference atan2 a1 (x 4%nat))² + (angle_difference atan2 a2 (x 5%nat))²))|].
  - cbn [pose_of]. ring.
  - unfold sum_squares, rotation_residual_rpy, params, Rsqr. cbn [seq map combine fst snd fold_right]. ring.
  - unfold sum_squares, translation_residual, params, Rsqr. cbn [seq map combine fst snd fold_right]. ring.
Qed.

Lemma problem_quaternion_cost (wt wr wm t0 t1 t2 : R) (q : quat) (x : nat -> R) :
  unit_quat q -> unit_quat (quat_of x 3) ->
  cost (problem_quaternion evaluate points wt wr wm [t0; t1; t2] q) x =
    wm * wm * average (map (fun p => (evaluate (pose_quaternion real_number x p))²) points) +
    wt * wt * ((x 0%nat - t0)² + (x 1%nat - t1)² + (x 2%nat - t2)²) + wr * wr.
Proof.
  intros Hq Hx.
  unfold problem_quaternion. rewrite !cost_app, (cost_add wm _ _ x (map_block_cost Matcher3dQuaternion wm x)).
  rewrite (cost_add wt ((x 0%nat - t0)² + (x 1%nat - t1)² + (x 2%nat - t2)²)); [rewrite (cost_add wr 1)|].
  - cbn [pose_of]. ring.
  - pose proof (quaternion_cost wr q (quat_of x 3) Hq Hx) as H. rewrite Rmult_1_r. exact H.
  - unfold sum_squares, translation_residual, params, Rsqr. cbn [seq map combine fst snd fold_right]. ring.
Qed.
End Cost.

(** ** Steps *)

Lemma yaw_steps_quaternion (l : list ((R * R * R) * (R * R * R))) : forall (t : R * R * R) (q : quat), unit_quat q ->
  let '(t', q') := fold_left (step_quaternion true) l (t, q) in
  snd t' = snd t /\ unit_quat q' /\ exists a, forall v, rotate q' v = rot_z a (rotate q v).
Proof.
  induction l as [|[[[d0 d1] d2] [[e0 e1] e2]] l IH]; intros [[t0 t1] t2] q U; cbn [fold_left].
  - split; [reflexivity|]. split; [exact U|]. exists 0. intros v. destruct (rotate q v) as [[a b] c].
    unfold rot_z. rewrite sin_0, cos_0. f_equal; f_equal; ring.
  - cbn [step_quaternion subset_plus].
    destruct (yaw_plus_bounded e0 q U) as [U' [a [_ [_ E]]]].
    specialize (IH (t0 + d0, t1 + d1, t2) (yaw_quaternion_plus q e0) U').
    destruct (fold_left (step_quaternion true) l (t0 + d0, t1 + d1, t2, yaw_quaternion_plus q e0)) as [t' q'].
    destruct IH as [H1 [H2 [b H3]]]. split; [exact H1|]. split; [exact H2|]. exists (b + a). intros v.
    rewrite H3, E. destruct (rotate q v) as [[x y] z]. unfold rot_z. rewrite sin_plus, cos_plus.
    f_equal; f_equal; ring.
Qed.

Lemma yaw_steps_rpy (l : list ((R * R * R) * (R * R * R))) : forall (t r : R * R * R),
  let '(t', r') := fold_left (step_rpy true) l (t, r) in
  snd t' = snd t /\ fst r' = fst r.
Proof.
  induction l as [|[[[d0 d1] d2] [[e0 e1] e2]] l IH]; intros [[t0 t1] t2] [[r0 r1] r2]; cbn [fold_left].
  - split; reflexivity.
  - cbn [step_rpy subset_plus yaw_euler_plus].
    specialize (IH (t0 + d0, t1 + d1, t2) (r0, r1, clamp (r2 + e0) (- PI) PI)).
    destruct (fold_left (step_rpy true) l _) as [t' r']. exact IH.
Qed.

Lemma product_unit (a b : quat) : unit_quat a -> unit_quat b -> unit_quat (quaternion_product a b).
Proof.
  unfold unit_quat, quaternion_product. cbn [qw qx qy qz]. intros A B.
  match goal with |- ?l = 1 => replace l with
    ((qw a * qw a + qx a * qx a + qy a * qy a + qz a * qz a) * (qw b * qw b + qx b * qx b + qy b * qy b + qz b * qz b)) by ring end.
  rewrite A, B. ring.
Qed.

Lemma quaternion_plus_unit (q : quat) (d : R * R * R) : unit_quat q -> unit_quat (quaternion_plus q d).
Proof.
  intros U. destruct d as [[d0 d1] d2]. unfold quaternion_plus.
  set (s := d0 * d0 + d1 * d1 + d2 * d2). assert (Hs : 0 <= s) by (unfold s; nra).
  destruct (Rlt_dec 0 (sqrt s)) as [H|H]; [|exact U].
  apply product_unit; [|exact U]. unfold unit_quat. cbn [qw qx qy qz]. pose proof (sqrt_sqrt s Hs) as Q.
  pose proof (sin2_cos2 (sqrt s)) as SC. unfold Rsqr in SC. set (n := sqrt s) in *.
  match goal with |- ?l = 1 => replace l with (cos n * cos n + sin n * sin n * (s / (n * n))) by (unfold s; field; lra) end.
  rewrite Q. replace (s / s) with 1 by (field; nra). lra.
Qed.

Lemma steps_unit (only_yaw : bool) (l : list ((R * R * R) * (R * R * R))) : forall (t : R * R * R) (q : quat), unit_quat q ->
  unit_quat (snd (fold_left (step_quaternion only_yaw) l (t, q))).
Proof.
  induction l as [|[[[d0 d1] d2] [[e0 e1] e2]] l IH]; intros t q U; cbn [fold_left]; [exact U|].
  cbn [step_quaternion]. apply IH. destruct only_yaw.
  - exact (proj1 (yaw_plus_bounded e0 q U)).
  - apply quaternion_plus_unit. exact U.
Qed.

(** ** Zero steps *)
Lemma product_one (q : quat) : quaternion_product {| qw := 1; qx := 0; qy := 0; qz := 0 |} q = q.
Proof. destruct q as [w a b c]. unfold quaternion_product. cbn [qw qx qy qz]. f_equal; ring. Qed.

Lemma zero_quaternion (only_yaw : bool) (t : R * R * R) (q : quat) :
  step_quaternion only_yaw (t, q) ((0, 0, 0), (0, 0, 0)) = (t, q).
Proof.
  destruct t as [[t0 t1] t2]. cbn [step_quaternion]. destruct only_yaw.
  - cbn [subset_plus]. rewrite !Rplus_0_r. f_equal.
    unfold yaw_quaternion_plus. rewrite clamp_limited, limited_id by lra.
    replace (1 - 0 * 0) with 1 by ring. rewrite sqrt_1. apply product_one.
  - cbn [plain_plus]. rewrite !Rplus_0_r. f_equal.
    unfold quaternion_plus. replace (0 * 0 + 0 * 0 + 0 * 0) with 0 by ring. rewrite sqrt_0.
    destruct (Rlt_dec 0 0); [lra|reflexivity].
Qed.

Lemma clamp_id (a : R) : - PI <= a <= PI -> clamp (a + 0) (- PI) PI = a.
Proof. intros H. rewrite Rplus_0_r. unfold clamp. destruct (Rlt_dec PI a); [lra|]. destruct (Rlt_dec a (- PI)); lra. Qed.

Lemma zero_rpy (only_yaw : bool) (t : R * R * R) (r0 r1 r2 : R) :
  (only_yaw = false -> - PI <= r0 <= PI /\ - PI <= r1 <= PI) -> - PI <= r2 <= PI ->
  step_rpy only_yaw (t, (r0, r1, r2)) ((0, 0, 0), (0, 0, 0)) = (t, (r0, r1, r2)).
Proof.
  intros H H2. destruct t as [[t0 t1] t2]. cbn [step_rpy]. destruct only_yaw.
  - cbn [subset_plus yaw_euler_plus]. rewrite clamp_id by exact H2. rewrite !Rplus_0_r. reflexivity.
  - destruct (H eq_refl) as [H0 H1]. cbn [plain_plus euler_plus combine map fst snd triple nth].
    rewrite !clamp_id by assumption. rewrite !Rplus_0_r. reflexivity.
Qed.

Lemma zero_2d (t0 t1 r : R) : - PI <= r <= PI -> step_2d ((t0, t1), r) ((0, 0), 0) = ((t0, t1), r).
Proof.
  intros H. cbn [step_2d euler_plus combine map fst snd nth]. rewrite clamp_id by exact H. rewrite !Rplus_0_r. reflexivity.
Qed.

Lemma moved_by_nothing : step_2d ((0, 0), 5) ((0, 0), 0) = ((0, 0), PI) /\ 5 <> PI.
Proof.
  cbn [step_2d euler_plus combine map fst snd nth]. rewrite !Rplus_0_r. unfold clamp. pose proof PI_4 as P.
  destruct (Rlt_dec PI 5); [|lra]. split; [reflexivity|lra].
Qed.

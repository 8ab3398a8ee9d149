(** C92: the pose updates of the ceres matchers in double precision. *)
From Coq Require Import Reals Lra Lia List Floats.SpecFloat.
From Flocq Require Import Core BinarySingleNaN.
From Verif Require Import ResidualModel MatchModel RoundModel FloatModel FloatFacts ObjFloatModel ObjFloatSpec ObjFloatFacts HypotFloatFacts StepFloatModel StepFloatSpec StepFloatFacts.
Import ListNotations.
Open Scope R_scope.

(** C92: any number of updates up to 2^45 with finite increments, starting from a finite quaternion of length at
    most 17/16, ends in a finite quaternion whose distance from the exact result, a turn about the vertical axis by
    the sum of all angles, is at most 16 roundoffs per update. *)
Theorem C92_turns (q : dquat) (deltas : list double) :
  finite_quat q -> size (value q) <= 17 / 16 -> Forall finite_double deltas -> (Z.of_nat (length deltas) <= 2 ^ 45)%Z ->
  let r := fold_left double_yaw_plus deltas q in
  finite_quat r /\ apart (value r) (turned (total_angle deltas) (value q)) <= 16 * INR (length deltas) * roundoff.
Proof. intros F S A N. destruct (steps_near q deltas F S A N) as [H [K _]]. split; assumption. Qed.
Print Assumptions C92_turns.

(** The length drifts by at most 16 roundoffs per update, although nothing normalizes the quaternion ... *)
Theorem C92_length (q : dquat) (deltas : list double) :
  finite_quat q -> size (value q) <= 17 / 16 -> Forall finite_double deltas -> (Z.of_nat (length deltas) <= 2 ^ 45)%Z ->
  Rabs (size (value (fold_left double_yaw_plus deltas q)) - size (value q)) <= 16 * INR (length deltas) * roundoff.
Proof. exact (steps_size q deltas). Qed.
Print Assumptions C92_length.

(** ... and roll and pitch, the direction of the vertical axis seen from the moving frame, by at most 36. *)
Theorem C92_roll_pitch (q : dquat) (deltas : list double) (i : nat) :
  finite_quat q -> size (value q) <= 17 / 16 -> Forall finite_double deltas -> (Z.of_nat (length deltas) <= 2 ^ 45)%Z ->
  Rabs (nth i (vertical (value (fold_left double_yaw_plus deltas q))) 0 - nth i (vertical (value q)) 0) <= 36 * INR (length deltas) * roundoff.
Proof. exact (steps_vertical q deltas i). Qed.
Print Assumptions C92_roll_pitch.

(** A pose that is upright stays upright exactly. *)
Theorem C92_upright (q : dquat) (deltas : list double) :
  finite_quat q -> size (value q) <= 17 / 16 -> Forall finite_double deltas -> (Z.of_nat (length deltas) <= 2 ^ 45)%Z ->
  qx (value q) = 0 -> qy (value q) = 0 ->
  let r := value (fold_left double_yaw_plus deltas q) in qx r = 0 /\ qy r = 0.
Proof.
  intros F S A N X Y. pose proof F as [_ [Gx [Gy _]]]. apply finite_good in Gx, Gy.
  destruct (steps_upright q deltas F S A N (zero_of _ Gx X) (zero_of _ Gy Y)) as [HX HY].
  split; [exact (proj2 (zero_good _ HX))|exact (proj2 (zero_good _ HY))].
Qed.
Print Assumptions C92_upright.

(** Euler angles: every updated angle is finite, strictly between -pi and pi and the sum cut off at the ends up to
    7 roundoffs, for all finite angles and increments; the sum may overflow. *)
Theorem C92_euler (x deltas : list double) (i : nat) (a d : double) :
  nth_error x i = Some a -> nth_error deltas i = Some d -> finite_double a -> finite_double d ->
  exists r, nth_error (double_euler_plus x deltas) i = Some r /\ finite_double r /\ - PI < real r < PI /\
    Rabs (real r - cut (- PI) PI (real a + real d)) <= 7 * roundoff.
Proof.
  intros A D Fa Fd. apply finite_good in Fa, Fd. destruct (angle_near a d Fa Fd) as [G [R E]].
  exists (double_clamp (double_add a d) (SFopp double_pi) double_pi). split; [|split; [apply finite_good; exact G|split; assumption]].
  unfold double_euler_plus. rewrite nth_error_map.
  replace (nth_error (combine x deltas) i) with (Some (a, d)); [reflexivity|]. symmetry. clear Fa Fd G R E.
  revert deltas i A D. induction x as [|x0 x IH]; intros [|d0 l] [|i] A D; try discriminate; cbn [nth_error combine] in *.
  - injection A as ->. injection D as ->. reflexivity.
  - apply IH; assumption.
Qed.
Print Assumptions C92_euler.

(** Only the yaw changes, and like that. *)
Theorem C92_yaw_euler (roll pitch yaw d : double) : finite_double yaw -> finite_double d ->
  exists r, double_yaw_euler_plus (roll, pitch, yaw) d = (roll, pitch, r) /\ double_euler_plus [yaw] [d] = [r] /\ finite_double r.
Proof.
  intros Fy Fd. apply finite_good in Fy, Fd. eexists. split; [reflexivity|]. split; [reflexivity|]. apply finite_good. apply (angle_near yaw d Fy Fd).
Qed.
Print Assumptions C92_yaw_euler.

(** Increments that are not finite: an infinite one is the greatest step ... *)
Theorem C92_infinite_increment (q : dquat) (s : bool) :
  exists d, double_yaw_plus q (S754_infinity s) = double_yaw_plus q d /\ finite_double d /\ real d = (if s then - / 2 else / 2).
Proof.
  destruct (opp_real _ good_half) as [E O]. pose proof half_real as H. exists (if s then SFopp double_half else double_half).
  split; [apply infinite_step|]. destruct s; (split; [apply finite_good; try exact O; exact good_half|lra]).
Qed.
Print Assumptions C92_infinite_increment.
(** ... but NaN passes the clamp, and a single one among the increments leaves nothing of the pose. *)
Theorem C92_nan_increment (q : dquat) (deltas : list double) : In S754_nan deltas ->
  fold_left double_yaw_plus deltas q = {| dqw := S754_nan; dqx := S754_nan; dqy := S754_nan; dqz := S754_nan |}.
Proof. exact (nan_steps q deltas). Qed.
Print Assumptions C92_nan_increment.

(** The length is not kept exactly: one update of the identity. *)
Definition identity : dquat := {| dqw := double_one; dqx := double_zero; dqy := double_zero; dqz := double_zero |}.
Definition quarter : double := S754_finite false 4503599627370496 (-54).
Theorem C92_unit_refuted : exists q d, finite_quat q /\ finite_double d /\ size (value q) = 1 /\ size (value (double_yaw_plus q d)) <> 1.
Proof.
  exists identity, quarter. split; [repeat split; reflexivity|]. split; [split; reflexivity|].
  split.
  - unfold size, value, identity. cbn [qw qx qy qz dqw dqx dqy dqz]. rewrite one_real. cbn [double_zero SF2R].
    replace (1 * 1 + 0 * 0 + 0 * 0 + 0 * 0) with 1 by ring. apply sqrt_1.
  - replace (double_yaw_plus identity quarter) with
      {| dqw := S754_finite false 8721183177395930 (-53); dqx := double_zero; dqy := double_zero; dqz := quarter |} by (vm_compute; reflexivity).
    unfold size, value. cbn [qw qx qy qz dqw dqx dqy dqz]. intros H.
    assert (P : 0 <= 1) by lra. rewrite <- sqrt_1 in H.
    apply sqrt_inj in H; [|apply Rplus_le_le_0_compat; [|apply Rle_0_sqr]; repeat apply Rplus_le_le_0_compat; apply Rle_0_sqr|exact P].
    revert H. unfold quarter. cbn [double_zero SF2R cond_Zopp]. unfold F2R. cbn [Fnum Fexp].
    change (bpow radix2 (-53)) with (/ 9007199254740992). change (bpow radix2 (-54)) with (/ 18014398509481984). lra.
Qed.
Print Assumptions C92_unit_refuted.

(** A tilted pose, three updates, the last with an increment beyond the limit. *)
Definition tilted : dquat := {| dqw := double_half; dqx := double_half; dqy := double_half; dqz := double_half |}.
Example C92_example :
  finite_quat tilted /\ size (value tilted) = 1 /\ Forall finite_double [quarter; SFopp quarter; double_one] /\
  total_angle [quarter; SFopp quarter; double_one] = PI / 3 /\
  apart (value (fold_left double_yaw_plus [quarter; SFopp quarter; double_one] tilted)) (turned (PI / 3) (value tilted)) <= 48 * roundoff.
Proof.
  assert (F : finite_quat tilted) by (repeat split; reflexivity).
  assert (S : size (value tilted) = 1).
  { unfold size, value, tilted. cbn [qw qx qy qz dqw dqx dqy dqz]. rewrite half_real. rewrite <- sqrt_1 at 1. f_equal. lra. }
  assert (A : Forall finite_double [quarter; SFopp quarter; double_one]) by (repeat constructor).
  assert (Q : real quarter = / 4) by (unfold quarter; cbn [SF2R cond_Zopp]; unfold F2R; cbn [Fnum Fexp]; change (bpow radix2 (-54)) with (/ 18014398509481984); lra).
  assert (G : good quarter) by (split; reflexivity).
  assert (T : total_angle [quarter; SFopp quarter; double_one] = PI / 3).
  { cbn [total_angle fold_right]. unfold step_angle, cut. rewrite (proj1 (opp_real _ G)), Q, one_real.
    rewrite (Rmin_right (/ 2) (/ 4)), (Rmax_right (- / 2) (/ 4)), (Rmin_right (/ 2) (- / 4)), (Rmax_right (- / 2) (- / 4)), Rmin_left, Rmax_right by lra.
    rewrite asin_opp. replace (asin (/ 2)) with (PI / 6); [lra|].
    rewrite <- (asin_sin (PI / 6)) by (pose proof PI_RGT_0; lra). rewrite sin_PI6. f_equal. lra. }
  split; [exact F|]. split; [exact S|]. split; [exact A|]. split; [exact T|]. rewrite <- T.
  eapply Rle_trans; [apply (C92_turns tilted [quarter; SFopp quarter; double_one] F ltac:(lra) A); cbn; lia|]. cbn [length INR]. lra.
Qed.
(** Two angles, one sum beyond pi. *)
Example C92_euler_example : double_euler_plus [double_one; double_pi] [double_half; quarter] = [double_add double_one double_half; double_pi].
Proof. vm_compute. reflexivity. Qed.

(** C93: the motion of the scan in double precision. *)
From Coq Require Import Reals Lra Lia List Floats.SpecFloat.
From Flocq Require Import Core BinarySingleNaN.
From Verif Require Import ResidualModel MatchModel MatchSpec RigidSpec RoundModel FloatModel FloatFacts ObjFloatModel ObjFloatSpec ObjFloatFacts HypotFloatFacts
  StepFloatModel StepFloatSpec StepFloatFacts MoveFloatModel MoveFloatSpec MoveFloatFacts Prop_StepFloat.
Import ListNotations.
Open Scope R_scope.

(** C93: after any number of updates up to 2^45 with finite increments, starting from a quaternion whose length is 1 up
    to 1/16, every moved point is where the exact rigid motion, the initial rotation turned by the sum of all angles,
    takes it, up to 768 roundoffs per update and the initial error of the length. *)
Theorem C93_scan (q : dquat) (deltas : list double) (t p : dpoint) :
  finite_quat q -> Rabs (size (value q) - 1) <= / 16 -> Forall finite_double deltas -> (Z.of_nat (length deltas) <= 2 ^ 45)%Z ->
  usable_point p -> usable_point t ->
  let r := double_in_world (fold_left double_yaw_plus deltas q) t p in
  finite_point r /\
  distance (place r) (moved (turned (total_angle deltas) (normalised (value q))) (place t) (place p)) <=
    ((768 * INR (length deltas) + 280) * roundoff + 48 * Rabs (size (value q) - 1)) * extent p t.
Proof. exact (scan_after_steps q deltas t p). Qed.
Print Assumptions C93_scan.

(** So the scan keeps its shape: the distance of any two of its points. *)
Theorem C93_rigid (q : dquat) (deltas : list double) (t p p' : dpoint) :
  finite_quat q -> Rabs (size (value q) - 1) <= / 16 -> Forall finite_double deltas -> (Z.of_nat (length deltas) <= 2 ^ 45)%Z ->
  usable_point p -> usable_point p' -> usable_point t ->
  let q' := fold_left double_yaw_plus deltas q in
  Rabs (distance (place (double_in_world q' t p)) (place (double_in_world q' t p')) - distance (place p) (place p')) <=
    ((768 * INR (length deltas) + 280) * roundoff + 48 * Rabs (size (value q) - 1)) * (extent p t + extent p' t).
Proof. exact (scan_rigid q deltas t p p'). Qed.
Print Assumptions C93_rigid.

(** The motion of a single pose is accurate for every quaternion of length at most 9/8. *)
Theorem C93_quaternion (q : dquat) (t p : dpoint) :
  finite_quat q -> size (value q) <= 9 / 8 -> usable_point p -> usable_point t ->
  finite_point (double_in_world q t p) /\
  distance (place (double_in_world q t p)) (moved (value q) (place t) (place p)) <= 280 * (roundoff * extent p t).
Proof.
  intros F S. apply finite_quat_good in F. destruct F as [Gw [Gx [Gy Gz]]].
  destruct (part_size (value q)) as [Pw [Px [Py Pz]]]. cbn [value qw qx qy qz] in Pw, Px, Py, Pz. apply moved_near; try assumption; lra.
Qed.
Print Assumptions C93_quaternion.

(** With angles between -4 and 4 and any accurate sine and cosine: roll, pitch, yaw, then the translation. *)
Theorem C93_angles (dcos dsin : double -> double) (roll pitch yaw : double) (t p : dpoint) :
  trig_ok dcos cos -> trig_ok dsin sin -> finite_double roll -> finite_double pitch -> finite_double yaw ->
  Rabs (real roll) <= 4 -> Rabs (real pitch) <= 4 -> Rabs (real yaw) <= 4 -> usable_point p -> usable_point t ->
  let r := double_in_world_rpy dcos dsin roll pitch yaw t p in
  finite_point r /\
  distance (place r) (plus3 (rot_z (real yaw) (rot_y (real pitch) (rot_x (real roll) (place p)))) (place t)) <= 2400 * (roundoff * extent p t).
Proof. intros Hc Hs. exact (rpy_near dcos dsin Hc Hs roll pitch yaw t p). Qed.
Print Assumptions C93_angles.

(** In the plane. *)
Theorem C93_planar (dcos dsin : double -> double) (angle t0 t1 p0 p1 : double) (S : R) :
  trig_ok dcos cos -> trig_ok dsin sin -> finite_double angle -> Rabs (real angle) <= 4 ->
  finite_double t0 -> finite_double t1 -> finite_double p0 -> finite_double p1 ->
  Rabs (real t0) <= S -> Rabs (real t1) <= S -> Rabs (real p0) <= S -> Rabs (real p1) <= S -> bpow radix2 (-1000) <= S <= bpow radix2 100 ->
  let r := double_in_world_2d dcos dsin angle t0 t1 p0 p1 in
  finite_double (fst r) /\ finite_double (snd r) /\
  Rabs (real (fst r) - (cos (real angle) * real p0 - sin (real angle) * real p1 + real t0)) <= 18 * (roundoff * S) /\
  Rabs (real (snd r) - (sin (real angle) * real p0 + cos (real angle) * real p1 + real t1)) <= 18 * (roundoff * S).
Proof. intros Hc Hs. exact (plane_near dcos dsin Hc Hs angle t0 t1 p0 p1 S). Qed.
Print Assumptions C93_planar.

(** There are such functions: the correctly rounded ones. *)
Theorem C93_rounded_functions : trig_ok (rounded cos) cos /\ trig_ok (rounded sin) sin.
Proof. split; apply rounded_ok; intros x; apply Rabs_le; [apply COS_bound|apply SIN_bound]. Qed.
Print Assumptions C93_rounded_functions.

(** Exactly rigid the motion is not: two points at distance 1 after one update of the identity. *)
Definition origin : dpoint := {| dp0 := double_zero; dp1 := double_zero; dp2 := double_zero |}.
Definition ahead : dpoint := {| dp0 := double_one; dp1 := double_zero; dp2 := double_zero |}.
Theorem C93_exact_refuted : exists q d t p p',
  finite_quat q /\ size (value q) = 1 /\ finite_double d /\ usable_point p /\ usable_point p' /\ usable_point t /\
  distance (place (double_in_world (double_yaw_plus q d) t p)) (place (double_in_world (double_yaw_plus q d) t p')) <> distance (place p) (place p').
Proof.
  exists identity, quarter, origin, ahead, origin. split; [repeat split; reflexivity|].
  assert (O : usable_point origin).
  { split; [repeat split; reflexivity|]. unfold reach, origin. cbn [dp0 dp1 dp2 double_zero SF2R]. rewrite Rabs_R0, !(Rmax_left 0 0) by lra. apply bpow_ge_0. }
  split; [|split; [split; reflexivity|split; [|split; [exact O|split; [exact O|]]]]].
  - unfold size, value, identity. cbn [qw qx qy qz dqw dqx dqy dqz]. rewrite one_real. cbn [double_zero SF2R].
    replace (1 * 1 + 0 * 0 + 0 * 0 + 0 * 0) with 1 by ring. apply sqrt_1.
  - split; [repeat split; reflexivity|]. unfold reach, ahead. cbn [dp0 dp1 dp2]. rewrite one_real. cbn [double_zero SF2R].
    rewrite Rabs_R0, (Rmax_left 0 0), Rabs_pos_eq, Rmax_left by lra. change 1 with (bpow radix2 0). apply bpow_le. lia.
  - replace (double_in_world (double_yaw_plus identity quarter) origin ahead) with
      {| dp0 := S754_finite false 7881299347898368 (-53); dp1 := S754_finite false 8721183177395930 (-54); dp2 := double_zero |} by (vm_compute; reflexivity).
    replace (double_in_world (double_yaw_plus identity quarter) origin origin) with origin by (vm_compute; reflexivity).
    unfold distance, place, origin, ahead. cbn [dp0 dp1 dp2]. rewrite one_real. cbn [double_zero SF2R cond_Zopp]. unfold F2R. cbn [Fnum Fexp].
    change (bpow radix2 (-53)) with (/ 9007199254740992). change (bpow radix2 (-54)) with (/ 18014398509481984). intros H.
    apply sqrt_inj in H; [lra| |]; repeat apply Rplus_le_le_0_compat; apply Rle_0_sqr.
Qed.
Print Assumptions C93_exact_refuted.

(** The tilted pose and the updates of C92, a scan of two points. *)
Example C93_example :
  finite_quat tilted /\ Rabs (size (value tilted) - 1) <= / 16 /\ Forall finite_double [quarter; SFopp quarter; double_one] /\
  usable_point ahead /\ usable_point origin /\
  Rabs (distance (place (double_in_world (fold_left double_yaw_plus [quarter; SFopp quarter; double_one] tilted) origin ahead))
                 (place (double_in_world (fold_left double_yaw_plus [quarter; SFopp quarter; double_one] tilted) origin origin)) - 1) <= 2600 * roundoff.
Proof.
  destruct C92_example as [F [S [A _]]].
  assert (D : Rabs (size (value tilted) - 1) = 0) by (rewrite S; replace (1 - 1) with 0 by ring; apply Rabs_R0).
  assert (RO : reach origin = 0) by (unfold reach, origin; cbn [dp0 dp1 dp2 double_zero SF2R]; rewrite Rabs_R0, !(Rmax_left 0 0) by lra; reflexivity).
  assert (RA : reach ahead = 1).
  { unfold reach, ahead. cbn [dp0 dp1 dp2]. rewrite one_real. cbn [double_zero SF2R]. rewrite Rabs_R0, (Rmax_left 0 0), Rabs_pos_eq, Rmax_left by lra. reflexivity. }
  assert (P : 1 <= bpow radix2 100) by (change 1 with (bpow radix2 0); apply bpow_le; lia).
  assert (UA : usable_point ahead) by (split; [repeat split; reflexivity|lra]). assert (UO : usable_point origin) by (split; [repeat split; reflexivity|lra]).
  split; [exact F|]. split; [lra|]. split; [exact A|]. split; [exact UA|]. split; [exact UO|].
  pose proof (C93_rigid tilted [quarter; SFopp quarter; double_one] origin ahead origin F ltac:(lra) A ltac:(cbn; lia) UA UO UO) as K. cbv zeta in K.
  assert (E : distance (place ahead) (place origin) = 1).
  { unfold distance, place, ahead, origin. cbn [dp0 dp1 dp2]. rewrite one_real. cbn [double_zero SF2R].
    replace ((1 - 0) * (1 - 0) + (0 - 0) * (0 - 0) + (0 - 0) * (0 - 0)) with 1 by ring. apply sqrt_1. }
  rewrite E, D in K. eapply Rle_trans; [exact K|]. unfold extent. rewrite RA, RO. cbn [length INR].
  assert (T : bpow radix2 (-1000) <= / 1024) by (change (/ 1024) with (bpow radix2 (-10)); apply bpow_le; lia).
  assert (U : 0 < roundoff) by (apply bpow_gt_0).
  replace (((768 * (1 + 1 + 1) + 280) * roundoff + 48 * 0) * (1 + 0 + bpow radix2 (-1000) + (0 + 0 + bpow radix2 (-1000)))) with (2584 * (1 + 2 * bpow radix2 (-1000)) * roundoff) by ring.
  apply Rmult_le_compat_r; lra.
Qed.

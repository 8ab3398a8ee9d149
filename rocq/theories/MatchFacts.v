(** Facts about the rotation and translation parts of the matching code. *)
From Coq Require Import Reals Lra Lia List ZArith.
From Verif Require Import MatchModel MatchSpec.
Import ListNotations.
Open Scope R_scope.

Lemma pi_gt_3 : 3 < PI.
Proof. generalize PI2_3_2; lra. Qed.

(** ** Angles *)
Lemma cos_one (x : R) : cos x = 1 -> exists k : Z, x = IZR k * (2 * PI).
Proof.
  intros H.
  assert (E : sin (x / 2) = 0).
  { replace x with (2 * (x / 2)) in H by lra. rewrite cos_2a_sin in H. nra. }
  destruct (sin_eq_0_0 _ E) as [k Hk]. exists k. lra.
Qed.

Lemma congruent_sin_cos (a b : R) : congruent a b <-> sin a = sin b /\ cos a = cos b.
Proof.
  split.
  - intros [k ->]. assert (G : forall n, sin (b + INR n * (2 * PI)) = sin b /\ cos (b + INR n * (2 * PI)) = cos b).
    { intros n. replace (b + INR n * (2 * PI)) with (b + 2 * INR n * PI) by lra.
      split; [apply sin_period|apply cos_period]. }
    assert (G' : forall n, sin (b - INR n * (2 * PI)) = sin b /\ cos (b - INR n * (2 * PI)) = cos b).
    { intros n. split.
      - rewrite <- (sin_period (b - INR n * (2 * PI)) n). f_equal. lra.
      - rewrite <- (cos_period (b - INR n * (2 * PI)) n). f_equal. lra. }
    destruct (Z_le_dec 0 k) as [Hk|Hk].
    + rewrite <- (Z2Nat.id k) by exact Hk. rewrite <- INR_IZR_INZ. apply G.
    + replace k with (- (- k))%Z by lia. rewrite opp_IZR, <- (Z2Nat.id (- k)) by lia. rewrite <- INR_IZR_INZ.
      replace (b + - INR (Z.to_nat (- k)) * (2 * PI)) with (b - INR (Z.to_nat (- k)) * (2 * PI)) by lra. apply G'.
  - intros [Hs Hc].
    assert (E : cos (a - b) = 1).
    { rewrite cos_minus, Hs, Hc. generalize (sin2_cos2 b). unfold Rsqr. lra. }
    destruct (cos_one _ E) as [k Hk]. exists k. lra.
Qed.

Lemma congruent_small (a : R) : congruent a 0 -> Rabs a <= PI -> a = 0.
Proof.
  intros [k E] H. generalize PI_RGT_0; intros Hp.
  assert (K : k = 0%Z).
  { destruct (Z_lt_le_dec 0 k) as [Hk|Hk].
    - exfalso. assert (1 <= IZR k) by (apply IZR_le; lia). revert H. unfold Rabs. destruct (Rcase_abs a); nra.
    - destruct (Z_lt_le_dec k 0) as [Hk'|Hk'].
      + exfalso. assert (IZR k <= -1) by (apply IZR_le; lia). revert H. unfold Rabs. destruct (Rcase_abs a); nra.
      + lia. }
  rewrite E, K. lra.
Qed.

Lemma congruent_trans a b c : congruent a b -> congruent b c -> congruent a c.
Proof. intros [k ->] [l ->]. exists (k + l)%Z. rewrite plus_IZR. lra. Qed.
Lemma congruent_sym a b : congruent a b -> congruent b a.
Proof. intros [k ->]. exists (- k)%Z. rewrite opp_IZR. lra. Qed.

Lemma angle_difference_spec (f : R -> R -> R) (r0 r : R) :
  atan2_ok f ->
  congruent (angle_difference f r0 r) (r0 - r) /\ Rabs (angle_difference f r0 r) <= PI.
Proof.
  intros Hf.
  assert (N : forall x, - PI <= norm f x <= PI /\ congruent (norm f x) x).
  { intros x. unfold norm. destruct (Hf (sin x) (cos x)) as [H1 [H2 H3]].
    { generalize (sin2_cos2 x). unfold Rsqr. lra. }
    split; [exact H1|]. apply congruent_sin_cos. auto. }
  destruct (N r0) as [A [ka Ea]], (N r) as [B [kb Eb]].
  unfold angle_difference. generalize PI_RGT_0; intros Hp.
  remember (norm f r0) as a. remember (norm f r) as b. clear Heqa Heqb N.
  destruct (Rlt_dec 0 (a - b)) as [D|D];
    destruct (Rlt_dec (Rabs (a - b)) _) as [L|L]; revert L; unfold Rabs;
    repeat destruct (Rcase_abs _); intros L; split; try lra.
  all: first [ exists (ka - kb)%Z; rewrite minus_IZR; lra
             | exists (ka - kb - 1)%Z; rewrite !minus_IZR; lra
             | exists (ka - kb + 1)%Z; rewrite plus_IZR, minus_IZR; lra ].
Qed.

Lemma angle_difference_zero (f : R -> R -> R) (r0 r : R) :
  atan2_ok f -> (angle_difference f r0 r = 0 <-> congruent r0 r).
Proof.
  intros Hf. destruct (angle_difference_spec f r0 r Hf) as [C B]. split.
  - intros E. rewrite E in C. destruct C as [k Hk]. exists (- k)%Z. rewrite opp_IZR. lra.
  - intros [k Hk]. apply congruent_small; [|exact B].
    eapply congruent_trans; [exact C|]. exists k. lra.
Qed.

(** An [atan2] exists. *)
Definition acos_atan2 (s c : R) : R := if Rle_dec 0 s then acos c else - acos c.
Lemma acos_atan2_ok : atan2_ok acos_atan2.
Proof.
  intros s c H. assert (Hc : -1 <= c <= 1) by nra.
  generalize (acos_bound c); intros [B1 B2].
  unfold acos_atan2. destruct (Rle_dec 0 s) as [Hs|Hs].
  - split; [lra|]. rewrite sin_acos, cos_acos by exact Hc. split; [|reflexivity].
    apply Rsqr_inj; [apply sqrt_pos|exact Hs|]. rewrite Rsqr_sqrt; unfold Rsqr; nra.
  - split; [lra|]. rewrite sin_neg, cos_neg, sin_acos, cos_acos by exact Hc. split; [|reflexivity].
    assert (E : sqrt (1 - c²) = - s); [|lra].
    apply Rsqr_inj; [apply sqrt_pos|lra|]. rewrite Rsqr_sqrt; unfold Rsqr; nra.
Qed.

(** ** Clamping *)
Lemma clamp_limited (v lo hi : R) : lo <= hi -> clamp v lo hi = limited lo hi v.
Proof.
  intros H. unfold clamp, limited, Rmax, Rmin.
  repeat (destruct (Rle_dec _ _) || destruct (Rlt_dec _ _)); lra.
Qed.
Lemma limited_range (lo hi v : R) : lo <= hi -> lo <= limited lo hi v <= hi.
Proof. intros H. unfold limited, Rmax, Rmin. repeat destruct (Rle_dec _ _); lra. Qed.
Lemma limited_id (lo hi v : R) : lo <= v <= hi -> limited lo hi v = v.
Proof. intros H. unfold limited, Rmax, Rmin. repeat destruct (Rle_dec _ _); lra. Qed.

Lemma limited_same_rotation (v : R) :
  congruent (limited (- PI) PI v) v <-> (- PI <= v <= PI) \/ congruent v PI.
Proof.
  generalize PI_RGT_0; intros Hp.
  assert (Hm : congruent (- PI) PI) by (exists (-1)%Z; lra).
  split.
  - intros C. destruct (Rlt_dec PI v) as [H|H].
    + right. replace (limited (- PI) PI v) with PI in C; [apply congruent_sym, C|].
      unfold limited, Rmax, Rmin. repeat destruct (Rle_dec _ _); lra.
    + destruct (Rlt_dec v (- PI)) as [H'|H']; [|left; lra].
      right. replace (limited (- PI) PI v) with (- PI) in C.
      * eapply congruent_trans; [apply congruent_sym, C|exact Hm].
      * unfold limited, Rmax, Rmin. repeat destruct (Rle_dec _ _); lra.
  - intros [H|H].
    + rewrite limited_id by exact H. exists 0%Z. lra.
    + unfold limited, Rmax, Rmin. repeat destruct (Rle_dec _ _);
        first [exfalso; lra | exists 0%Z; lra | apply congruent_sym, H
              | eapply congruent_trans; [exact Hm|apply congruent_sym, H]].
Qed.

Lemma euler_plus_spec (x delta : list R) (i : nat) (a d : R) :
  nth_error x i = Some a -> nth_error delta i = Some d ->
  nth_error (euler_plus x delta) i = Some (limited (- PI) PI (a + d)).
Proof.
  unfold euler_plus. revert delta i. induction x as [|y x IH]; intros delta i Hx Hd; destruct i; try discriminate;
    destruct delta as [|e delta]; try discriminate; cbn in *.
  - injection Hx as ->. injection Hd as ->. rewrite clamp_limited; [reflexivity|]. generalize PI_RGT_0; lra.
  - apply IH; assumption.
Qed.
Lemma euler_plus_length (x delta : list R) :
  length x = length delta -> length (euler_plus x delta) = length x.
Proof. intros H. unfold euler_plus. rewrite map_length, combine_length, H. apply Nat.min_id. Qed.

(** ** Quaternions *)
Definition norm2 (q : quat) : R := qw q * qw q + qx q * qx q + qy q * qy q + qz q * qz q.
Lemma product_norm (p q : quat) : norm2 (quaternion_product p q) = norm2 p * norm2 q.
Proof. unfold norm2, quaternion_product; cbn. ring. Qed.

Lemma unit_norm2 (q : quat) : unit_quat q <-> norm2 q = 1.
Proof. reflexivity. Qed.

(** The same matrix without using that the quaternion is normalised. *)
Definition sandwich (q : quat) (v : vec) : vec :=
  let '(x, y, z) := v in
  let '(w, a, b, c) := (qw q, qx q, qy q, qz q) in
  ((w * w + a * a - b * b - c * c) * x + 2 * (a * b - w * c) * y + 2 * (a * c + w * b) * z,
   2 * (a * b + w * c) * x + (w * w - a * a + b * b - c * c) * y + 2 * (b * c - w * a) * z,
   2 * (a * c - w * b) * x + 2 * (b * c + w * a) * y + (w * w - a * a - b * b + c * c) * z).
Lemma rotate_sandwich (q : quat) (v : vec) : unit_quat q -> rotate q v = sandwich q v.
Proof.
  unfold unit_quat. destruct v as [[x y] z], q as [w a b c]; cbn. intros H.
  f_equal; [f_equal|]; rewrite <- H; ring.
Qed.
Lemma sandwich_product (p q : quat) (v : vec) :
  sandwich (quaternion_product p q) v = sandwich p (sandwich q v).
Proof.
  destruct v as [[x y] z], p as [w a b c], q as [w' a' b' c']; cbn.
  f_equal; [f_equal|]; ring.
Qed.
Lemma product_unit (p q : quat) : unit_quat p -> unit_quat q -> unit_quat (quaternion_product p q).
Proof. rewrite !unit_norm2, product_norm. intros -> ->. ring. Qed.
Lemma rotate_product (p q : quat) (v : vec) :
  unit_quat p -> unit_quat q -> rotate (quaternion_product p q) v = rotate p (rotate q v).
Proof.
  intros Hp Hq. rewrite (rotate_sandwich (quaternion_product p q)) by (apply product_unit; assumption).
  rewrite (rotate_sandwich p), (rotate_sandwich q) by assumption. apply sandwich_product.
Qed.

Lemma axis_z (t : R) (v : vec) :
  rotate {| qw := cos t; qx := 0; qy := 0; qz := sin t |} v = rot_z (2 * t) v.
Proof.
  destruct v as [[x y] z]. unfold rotate, rot_z; cbn [qw qx qy qz]. rewrite sin_2a, cos_2a_sin.
  f_equal; [f_equal|]; ring.
Qed.
Lemma axis_y (t : R) (v : vec) :
  rotate {| qw := cos t; qx := 0; qy := sin t; qz := 0 |} v = rot_y (2 * t) v.
Proof.
  destruct v as [[x y] z]. unfold rotate, rot_y; cbn [qw qx qy qz]. rewrite sin_2a, cos_2a_sin.
  f_equal; [f_equal|]; ring.
Qed.
Lemma axis_x (t : R) (v : vec) :
  rotate {| qw := cos t; qx := sin t; qy := 0; qz := 0 |} v = rot_x (2 * t) v.
Proof.
  destruct v as [[x y] z]. unfold rotate, rot_x; cbn [qw qx qy qz]. rewrite sin_2a, cos_2a_sin.
  f_equal; [f_equal|]; ring.
Qed.
Lemma axis_unit (t : R) :
  unit_quat {| qw := cos t; qx := sin t; qy := 0; qz := 0 |} /\
  unit_quat {| qw := cos t; qx := 0; qy := sin t; qz := 0 |} /\
  unit_quat {| qw := cos t; qx := 0; qy := 0; qz := sin t |}.
Proof. unfold unit_quat; cbn. generalize (sin2_cos2 t); unfold Rsqr. intros H. repeat split; lra. Qed.

(** ** Yaw-only step *)
Lemma yaw_step (delta : R) (q : quat) :
  let t := asin (limited (- (1 / 2)) (1 / 2) delta) in
  yaw_quaternion_plus q delta = quaternion_product {| qw := cos t; qx := 0; qy := 0; qz := sin t |} q.
Proof.
  cbn. unfold yaw_quaternion_plus. rewrite clamp_limited by lra.
  destruct (limited_range (- (1 / 2)) (1 / 2) delta ltac:(lra)) as [H1 H2].
  rewrite sin_asin, cos_asin by lra. reflexivity.
Qed.
Lemma yaw_plus_spec (delta : R) (q : quat) :
  unit_quat q ->
  unit_quat (yaw_quaternion_plus q delta) /\
  forall v, rotate (yaw_quaternion_plus q delta) v =
            rot_z (2 * asin (limited (- (1 / 2)) (1 / 2) delta)) (rotate q v).
Proof.
  intros Hq. rewrite yaw_step.
  destruct (axis_unit (asin (limited (- (1 / 2)) (1 / 2) delta))) as [_ [_ U]].
  split; [apply product_unit; assumption|].
  intros v. rewrite rotate_product by assumption. apply axis_z.
Qed.

Lemma asin_half : asin (1 / 2) = PI / 6.
Proof. rewrite <- sin_PI6. apply asin_sin. generalize PI_RGT_0; lra. Qed.

(** ** The angles of scan_match_cost_functor_3d_rpy.hpp *)
Lemma to_eigen_product (roll pitch yaw : R) :
  to_eigen roll pitch yaw =
  quaternion_product {| qw := cos (yaw / 2); qx := 0; qy := 0; qz := sin (yaw / 2) |}
    (quaternion_product {| qw := cos (pitch / 2); qx := 0; qy := sin (pitch / 2); qz := 0 |}
                        {| qw := cos (roll / 2); qx := sin (roll / 2); qy := 0; qz := 0 |}).
Proof.
  unfold to_eigen, quaternion_product; cbn [qw qx qy qz].
  replace (roll * (1 / 2)) with (roll / 2) by lra.
  replace (pitch * (1 / 2)) with (pitch / 2) by lra.
  replace (yaw * (1 / 2)) with (yaw / 2) by lra.
  f_equal; ring.
Qed.
Lemma to_eigen_spec (roll pitch yaw : R) :
  unit_quat (to_eigen roll pitch yaw) /\
  forall v, rotate (to_eigen roll pitch yaw) v = rot_z yaw (rot_y pitch (rot_x roll v)).
Proof.
  rewrite to_eigen_product.
  destruct (axis_unit (yaw / 2)) as [_ [_ Uz]], (axis_unit (pitch / 2)) as [_ [Uy _]], (axis_unit (roll / 2)) as [Ux _].
  assert (U : unit_quat (quaternion_product {| qw := cos (pitch / 2); qx := 0; qy := sin (pitch / 2); qz := 0 |}
                        {| qw := cos (roll / 2); qx := sin (roll / 2); qy := 0; qz := 0 |})) by (apply product_unit; assumption).
  split; [apply product_unit; assumption|].
  intros v. rewrite !rotate_product by assumption. rewrite axis_x, axis_y, axis_z.
  repeat (f_equal; try lra).
Qed.

(** ** Quaternion residual *)
Lemma inverse_unit (q : quat) : unit_quat q -> unit_quat (inverse_wxyz q).
Proof. unfold unit_quat, inverse_wxyz; cbn. intros H. rewrite <- H. ring. Qed.

Lemma quaternion_cost (w : R) (r q : quat) :
  unit_quat r -> unit_quat q -> sum_squares (rotation_residual_quaternion w r q) = w * w.
Proof.
  intros Hr Hq. generalize (product_unit _ _ (inverse_unit r Hr) Hq).
  unfold rotation_residual_quaternion. remember (quaternion_product (inverse_wxyz r) q) as d. clear Heqd.
  unfold unit_quat, sum_squares; cbn. intros H.
  transitivity (w * w * (qw d * qw d + qx d * qx d + qy d * qy d + qz d * qz d)); [ring|]. rewrite H. ring.
Qed.
Lemma alglib_cost (w : R) (r q : quat) :
  unit_quat r -> unit_quat q -> sum_squares (alglib_rotation_quaternion w r q) = w * w.
Proof.
  intros Hr Hq. rewrite <- (quaternion_cost w r q Hr Hq).
  unfold alglib_rotation_quaternion, rotation_residual_quaternion, sum_squares; cbn.
  assert (A : forall x, w * Rabs x * (w * Rabs x) = w * x * (w * x)).
  { intros x. unfold Rabs. destruct (Rcase_abs x); ring. }
  rewrite !A. reflexivity.
Qed.

Lemma product_left_inverse (r q : quat) : unit_quat r ->
  quaternion_product r (quaternion_product (inverse_wxyz r) q) = q.
Proof.
  unfold unit_quat. destruct r as [w a b c], q as [w' a' b' c']; unfold quaternion_product, inverse_wxyz; cbn.
  intros H. f_equal.
  - transitivity ((w*w+a*a+b*b+c*c) * w'); [ring|rewrite H; ring].
  - transitivity ((w*w+a*a+b*b+c*c) * a'); [ring|rewrite H; ring].
  - transitivity ((w*w+a*a+b*b+c*c) * b'); [ring|rewrite H; ring].
  - transitivity ((w*w+a*a+b*b+c*c) * c'); [ring|rewrite H; ring].
Qed.

Definition qneg (q : quat) : quat := {| qw := - qw q; qx := - qx q; qy := - qy q; qz := - qz q |}.

(** A rotation matrix that is the identity comes from 1 or -1. *)
Lemma rotate_identity (d : quat) : unit_quat d ->
  ((forall v, rotate d v = v) <-> qx d = 0 /\ qy d = 0 /\ qz d = 0).
Proof.
  unfold unit_quat. intros H. split.
  - intros I. generalize (I (1, 0, 0)) (I (0, 1, 0)) (I (0, 0, 1)). destruct d as [w a b c]; cbn in *.
    intros E1 E2 E3. injection E1 as A1 A2 A3. injection E2 as B1 B2 B3. injection E3 as C1 C2 C3. nra.
  - intros [A [B C]] [[x y] z]. unfold rotate. rewrite A, B, C. f_equal; [f_equal|]; ring.
Qed.

Lemma vector_part_zero (r q : quat) : unit_quat r -> unit_quat q ->
  let d := quaternion_product (inverse_wxyz r) q in
  (qx d = 0 /\ qy d = 0 /\ qz d = 0) <-> (forall v, rotate q v = rotate r v).
Proof.
  intros Hr Hq d. assert (Hd : unit_quat d) by (apply product_unit; [apply inverse_unit|]; assumption).
  rewrite <- (rotate_identity d Hd).
  assert (Hi : unit_quat (inverse_wxyz r)) by (apply inverse_unit; assumption).
  assert (Inv : forall v, rotate (inverse_wxyz r) (rotate r v) = v).
  { intros v. rewrite <- rotate_product by assumption.
    assert (U1 : unit_quat (quaternion_product (inverse_wxyz r) r)) by (apply product_unit; assumption).
    revert v. apply rotate_identity; [exact U1|]. unfold quaternion_product, inverse_wxyz; cbn. repeat split; ring. }
  split; intros E v.
  - rewrite <- (product_left_inverse r q Hr). fold d. rewrite rotate_product by assumption. rewrite E. reflexivity.
  - unfold d. rewrite rotate_product by assumption. rewrite E. apply Inv.
Qed.

(** ** Translation *)
Lemma translation_zero (w : R) (t0 t : list R) :
  w <> 0 -> length t0 = length t ->
  (Forall (fun r => r = 0) (translation_residual w t0 t) <-> t = t0).
Proof.
  intros Hw. unfold translation_residual. revert t. induction t0 as [|a t0 IH]; intros [|b t] HL; try discriminate; cbn.
  - split; [reflexivity|constructor].
  - injection HL as HL. specialize (IH t HL). split.
    + intros F. inversion F as [|x l H1 H2]; subst. cbn in H1. f_equal; [|apply IH; exact H2].
      destruct (Rmult_integral _ _ H1); lra.
    + intros E. injection E as -> ->. constructor; [cbn; lra|]. apply IH. reflexivity.
Qed.
Lemma translation_cost (w : R) (t0 t : list R) :
  length t0 = length t ->
  sum_squares (translation_residual w t0 t) = w * w * sum_squares (map (fun c => snd c - fst c) (combine t0 t)).
Proof.
  unfold translation_residual, sum_squares. revert t. induction t0 as [|a t0 IH]; intros [|b t] HL; try discriminate.
  - cbn. ring.
  - injection HL as HL. cbn [combine map fold_right fst snd]. rewrite (IH t HL). ring.
Qed.

(** ** Statements of Prop_Match.v *)
Lemma rpy_residual (atan2 : R -> R -> R) (w : R) (a b : R * R * R) :
  atan2_ok atan2 ->
  let '(a0, a1, a2) := a in let '(b0, b1, b2) := b in
  exists d0 d1 d2, rotation_residual_rpy atan2 w [a0; a1; a2] [b0; b1; b2] = [w * d0; w * d1; w * d2] /\
    (congruent d0 (a0 - b0) /\ Rabs d0 <= PI /\ (d0 = 0 <-> congruent a0 b0)) /\
    (congruent d1 (a1 - b1) /\ Rabs d1 <= PI /\ (d1 = 0 <-> congruent a1 b1)) /\
    (congruent d2 (a2 - b2) /\ Rabs d2 <= PI /\ (d2 = 0 <-> congruent a2 b2)).
Proof.
  intros H. destruct a as [[a0 a1] a2], b as [[b0 b1] b2].
  assert (G : forall x y, congruent (angle_difference atan2 x y) (x - y) /\ Rabs (angle_difference atan2 x y) <= PI /\
                          (angle_difference atan2 x y = 0 <-> congruent x y)).
  { intros x y. destruct (angle_difference_spec atan2 x y H). auto using angle_difference_zero. }
  exists (angle_difference atan2 a0 b0), (angle_difference atan2 a1 b1), (angle_difference atan2 a2 b2).
  split; [reflexivity|]. split; [apply G|]. split; apply G.
Qed.

Lemma acos_range_id (x : R) : 0 <= x <= PI -> acos (cos x) = x.
Proof. apply acos_cos. Qed.
Lemma wrap_around : rotation_residual_2d acos_atan2 1 3 (-3) = 6 - 2 * PI.
Proof.
  generalize pi_gt_3 PI_4; intros H3 H4.
  unfold rotation_residual_2d, angle_difference, norm, acos_atan2.
  assert (S3 : 0 < sin 3) by (apply sin_gt_0; lra).
  replace (-3) with (- (3)) by lra. rewrite sin_neg, cos_neg.
  destruct (Rle_dec 0 (sin 3)) as [_|]; [|lra]. destruct (Rle_dec 0 (- sin 3)) as [|_]; [lra|].
  rewrite acos_cos by lra.
  destruct (Rlt_dec 0 (3 - - (3))) as [_|]; [|lra].
  replace (3 - - (3)) with 6 by ring.
  rewrite (Rabs_right 6) by lra.
  destruct (Rlt_dec 6 _) as [L|L].
  - exfalso. revert L. unfold Rabs. destruct (Rcase_abs _); lra.
  - ring.
Qed.

Lemma yaw_angle_differs :
  exists (q : quat) (delta : R) (v : vec),
    unit_quat q /\
    rotate (yaw_quaternion_plus q delta) v <> rot_z (2 * limited (- (1 / 2)) (1 / 2) delta) (rotate q v).
Proof.
  exists {| qw := 1; qx := 0; qy := 0; qz := 0 |}, (1 / 2), (1, 0, 0).
  assert (U : unit_quat {| qw := 1; qx := 0; qy := 0; qz := 0 |}) by (unfold unit_quat; cbn; lra).
  split; [exact U|]. rewrite (proj2 (yaw_plus_spec (1 / 2) _ U)). rewrite limited_id by lra. rewrite asin_half.
  replace (2 * (PI / 6)) with (PI / 3) by lra. replace (2 * (1 / 2)) with 1 by lra.
  unfold rot_z, rotate; cbn. intros E. injection E as E1 _. rewrite cos_PI3 in E1.
  assert (L : cos (PI / 3) < cos 1) by (apply cos_decreasing_1; generalize pi_gt_3; lra).
  rewrite cos_PI3 in L. lra.
Qed.

Lemma asin_bound_half (x : R) : - (1 / 2) <= x <= 1 / 2 -> Rabs (asin x) <= PI / 6.
Proof.
  generalize PI_RGT_0; intros Hp H.
  assert (M : forall y, - (1 / 2) <= y <= 1 / 2 -> asin y <= PI / 6).
  { intros y Hy. destruct (Rle_dec (asin y) (PI / 6)) as [|N]; [assumption|]. exfalso.
    generalize (asin_bound y); intros [B1 B2].
    assert (L : sin (PI / 6) < sin (asin y)) by (apply sin_increasing_1; lra).
    rewrite sin_PI6, sin_asin in L by lra. lra. }
  generalize (M x H) (M (- x) ltac:(lra)). rewrite asin_opp. intros M1 M2.
  unfold Rabs. destruct (Rcase_abs _); lra.
Qed.

Lemma yaw_plus_bounded (delta : R) (q : quat) :
  unit_quat q ->
  unit_quat (yaw_quaternion_plus q delta) /\
  exists t, t = 2 * asin (limited (- (1 / 2)) (1 / 2) delta) /\ Rabs t <= PI / 3 /\
    forall v, rotate (yaw_quaternion_plus q delta) v = rot_z t (rotate q v).
Proof.
  intros Hq. destruct (yaw_plus_spec delta q Hq) as [U E]. split; [exact U|].
  eexists; split; [reflexivity|]. split; [|exact E].
  generalize (asin_bound_half _ (limited_range (- (1 / 2)) (1 / 2) delta ltac:(lra))).
  rewrite Rabs_mult. rewrite (Rabs_right 2) by lra. lra.
Qed.

Lemma rot_z_add (s t : R) (v : vec) : rot_z s (rot_z t v) = rot_z (t + s) v.
Proof.
  destruct v as [[x y] z]. unfold rot_z. rewrite sin_plus, cos_plus. apply f_equal2; [apply f_equal2; ring|reflexivity].
Qed.
Lemma yaw_steps (deltas : list R) (q : quat) :
  unit_quat q ->
  unit_quat (fold_left yaw_quaternion_plus deltas q) /\
  exists t, forall v, rotate (fold_left yaw_quaternion_plus deltas q) v = rot_z t (rotate q v).
Proof.
  revert q. induction deltas as [|d deltas IH]; intros q Hq; cbn [fold_left].
  - split; [exact Hq|]. exists 0. intros v. destruct (rotate q v) as [[x y] z]. unfold rot_z.
    rewrite sin_0, cos_0. apply f_equal2; [apply f_equal2; ring|reflexivity].
  - destruct (yaw_plus_spec d q Hq) as [U E]. destruct (IH _ U) as [U' [t T]]. split; [exact U'|].
    exists (2 * asin (limited (- (1 / 2)) (1 / 2) d) + t). intros v. rewrite T, E, rot_z_add. reflexivity.
Qed.

Lemma euler_component (x delta : list R) (i : nat) (a d : R) :
  nth_error x i = Some a -> nth_error delta i = Some d ->
  exists r, nth_error (euler_plus x delta) i = Some r /\ - PI <= r <= PI /\
    (- PI <= a + d <= PI -> r = a + d) /\
    (congruent r (a + d) <-> (- PI <= a + d <= PI) \/ congruent (a + d) PI).
Proof.
  intros Hx Hd. exists (limited (- PI) PI (a + d)). split; [apply euler_plus_spec; assumption|].
  split; [apply limited_range; generalize PI_RGT_0; lra|].
  split; [apply limited_id|apply limited_same_rotation].
Qed.
Lemma stuck_at_pi (delta : R) : 0 <= delta -> euler_plus [PI] [delta] = [PI].
Proof.
  intros H. generalize PI_RGT_0; intros Hp. unfold euler_plus; cbn. rewrite clamp_limited by lra. f_equal.
  unfold limited, Rmax, Rmin. repeat destruct (Rle_dec _ _); lra.
Qed.
Lemma euler_cut_off :
  exists x delta r : R, - PI <= x <= PI /\ euler_plus [x] [delta] = [r] /\ ~ congruent r (x + delta).
Proof.
  exists PI, 1, PI. generalize pi_gt_3; intros H. split; [lra|]. split; [apply stuck_at_pi; lra|].
  intros C. apply congruent_sin_cos in C as [_ C]. rewrite cos_plus, cos_PI, sin_PI in C.
  assert (L : cos 1 < cos 0) by (apply cos_decreasing_1; lra). rewrite cos_0 in L. lra.
Qed.

Lemma quaternion_not_zero :
  exists (w : R) (r : quat), 0 < w /\ unit_quat r /\
    ~ Forall (fun x => x = 0) (rotation_residual_quaternion w r r) /\
    ~ Forall (fun x => x = 0) (alglib_rotation_quaternion w r r).
Proof.
  exists 1, {| qw := 1; qx := 0; qy := 0; qz := 0 |}. split; [lra|]. split; [unfold unit_quat; cbn; lra|].
  split; intros F; inversion F as [|x l H _]; subst; cbn in H.
  - lra.
  - replace (1 * 1 - - 0 * 0 - - 0 * 0 - - 0 * 0) with 1 in H by ring. rewrite Rabs_R1 in H. lra.
Qed.

Lemma vector_residual (w : R) (r q : quat) :
  unit_quat r -> unit_quat q -> w <> 0 ->
  (Forall (fun x => x = 0) (tl (rotation_residual_quaternion w r q)) <-> forall v, rotate q v = rotate r v).
Proof.
  intros Hr Hq Hw. rewrite <- (vector_part_zero r q Hr Hq). unfold rotation_residual_quaternion; cbn [tl].
  set (d := quaternion_product (inverse_wxyz r) q).
  assert (Z : forall x, w * x = 0 -> x = 0) by (intros x E; destruct (Rmult_integral _ _ E); [contradiction|assumption]).
  split.
  - intros F. inversion F as [|? ? H1 F1]; subst. inversion F1 as [|? ? H2 F2]; subst. inversion F2 as [|? ? H3 F3]; subst.
    auto.
  - intros [A [B C]]. rewrite A, B, C. repeat constructor; ring.
Qed.

Lemma rot_turns (a b : R) (v : vec) : congruent a b ->
  rot_x a v = rot_x b v /\ rot_y a v = rot_y b v /\ rot_z a v = rot_z b v.
Proof.
  intros C. apply congruent_sin_cos in C as [S C]. destruct v as [[x y] z]. unfold rot_x, rot_y, rot_z.
  rewrite S, C. auto.
Qed.
Lemma to_eigen_turns (roll pitch yaw roll' pitch' yaw' : R) (v : vec) :
  congruent roll roll' -> congruent pitch pitch' -> congruent yaw yaw' ->
  rotate (to_eigen roll pitch yaw) v = rotate (to_eigen roll' pitch' yaw') v.
Proof.
  intros Hr Hp Hy. rewrite (proj2 (to_eigen_spec roll pitch yaw)), (proj2 (to_eigen_spec roll' pitch' yaw')).
  rewrite (proj1 (rot_turns _ _ v Hr)).
  rewrite (proj1 (proj2 (rot_turns _ _ (rot_x roll' v) Hp))).
  apply (proj2 (proj2 (rot_turns _ _ _ Hy))).
Qed.

Lemma translation_distance (w : R) (t0 t : list R) :
  length t0 = length t ->
  sum_squares (translation_residual w t0 t) =
    w * w * fold_right Rplus 0 (map (fun i => (nth i t 0 - nth i t0 0) ^ 2) (seq 0 (length t))).
Proof.
  intros HL. rewrite translation_cost by exact HL. f_equal. unfold sum_squares.
  revert t HL. induction t0 as [|a t0 IH]; intros [|b t] HL; try discriminate; [reflexivity|].
  injection HL as HL. cbn [combine map fold_right fst snd length seq nth]. rewrite (IH t HL).
  rewrite <- seq_shift, map_map. cbn [nth]. ring.
Qed.

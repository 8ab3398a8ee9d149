(** The map of JetSamples.v, sampled for the interpolation. *)
From Coq Require Import Reals Lra List Lia ZArith.
From Verif Require Import Base SeqModel IndexModel MapModel SysModel ExtentModel Samples JetModel JetSpec JetFacts
  JetSamples CubicModel CubicFacts.
Open Scope R_scope.

(** The residual of a point of the world; every index involved below is small. *)
Definition one_value (x y : R) : R := match one_residual (one_x x y 0) with Ok r => r | _ => 0 end.

Lemma one_empty (a b : Z) (x y : R) :
  (-1000 <= a <= 1000)%Z -> (-1000 <= b <= 1000)%Z -> cbundle one_grid one_map [a; b] = Ok None ->
  IZR a <= x < IZR a + 1 -> IZR b <= y < IZR b + 1 -> one_value x y = 1.
Proof.
  intros Ha Hb En Hx Hy. unfold one_value, one_residual, residual_real.
  set (p := to_map_frame real_number 2 one_rot one_trans (pose_2d real_number (one_x x y 0) one_local)).
  assert (P0 : @eq R (p 0%nat) x) by (apply (one_frame x y 0 0); lia).
  assert (P1 : @eq R (p 1%nat) y) by (apply (one_frame x y 0 1); lia).
  assert (E : evaluate_real one_grid 1 one_valid one_mean one_inf one_map p = Ok (1 - 0)).
  { unfold evaluate_real. change (dimc one_grid) with 2%nat at 1.
    rewrite (one_index p a b) by (try assumption; rewrite ?P0, ?P1; assumption). cbn [obind].
    rewrite En. reflexivity. }
  rewrite E. cbn [obind]. rewrite weighted_value. ring.
Qed.

(** The values at the sampling points with resolution 1: 1 everywhere but at (1, 0). *)
Lemma one_nodes (i k : Z) : (-1 <= i <= 4)%Z -> (-1 <= k <= 2)%Z ->
  get_value one_value 1 i k = if andb (Z.eqb i 1) (Z.eqb k 0) then 1 - one_score 1 0 else 1.
Proof.
  intros Hi Hk. unfold get_value. rewrite !Rmult_1_r.
  destruct (andb (Z.eqb i 1) (Z.eqb k 0)) eqn:E.
  - apply andb_prop in E as [E1 E2]. apply Z.eqb_eq in E1. apply Z.eqb_eq in E2. subst i k.
    unfold one_value. rewrite one_right by lra. reflexivity.
  - apply (one_empty i k); try lia; try lra.
    assert (Ci : (i = -1 \/ i = 0 \/ i = 1 \/ i = 2 \/ i = 3 \/ i = 4)%Z) by lia.
    assert (Ck : (k = -1 \/ k = 0 \/ k = 1 \/ k = 2)%Z) by lia.
    destruct Ci as [->|[ ->|[ ->|[ ->|[ ->| ->]]]]]; destruct Ck as [->|[ ->|[ ->| ->]]]; try discriminate E; vm_compute; reflexivity.
Qed.

(** Half a cell before the only stored bundle the interpolation already sees it. *)
Lemma one_between : jre (interpolation_rjet one_value 1 (J (1 / 2) 1) (J (1 / 2) 0)) = 1 - 81 / 256 * one_score 1 0.
Proof.
  unfold interpolation_rjet, bicubic, spline. cbn [jre scale jet_number].
  replace (1 / 1 * (1 / 2)) with (1 / 2) by field.
  rewrite (part_unique (1 / 2) 0) by lra. cbn [Z.sub Z.add Z.opp Pos.add Z.pos_sub].
  rewrite !one_nodes by lia. cbn [andb Z.eqb Pos.eqb]. unfold hermite. field.
Qed.
Lemma one_double : interpolation_double one_value (1 / 2) (1 / 2) = 1.
Proof. unfold interpolation_double. apply (one_empty 0 0); try lia; try lra. exact one_nothing. Qed.

(** Half a cell behind it the interpolation overshoots. *)
Lemma one_overshoot : jre (interpolation_rjet one_value 1 (J (5 / 2) 1) (J 0 0)) = 1 + 1 / 16 * one_score 1 0.
Proof.
  unfold interpolation_rjet, bicubic, spline. cbn [jre scale jet_number].
  replace (1 / 1 * (5 / 2)) with (5 / 2) by field. replace (1 / 1 * 0) with 0 by field.
  rewrite (part_unique (5 / 2) 2) by lra. rewrite (part_unique 0 0) by lra.
  change (2 - 1)%Z with 1%Z. change (2 + 1)%Z with 3%Z. change (2 + 2)%Z with 4%Z.
  change (0 - 1)%Z with (-1)%Z. change (0 + 1)%Z with 1%Z. change (0 + 2)%Z with 2%Z.
  rewrite !one_nodes by lia. cbn [andb Z.eqb Pos.eqb]. unfold hermite. field.
Qed.

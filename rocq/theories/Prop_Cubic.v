(** C63: the interpolating functors. *)
From Coq Require Import Reals Lra List Lia ZArith.
From Verif Require Import Base SysModel JetModel JetSpec JetSamples CubicModel CubicFacts CubicSamples.
Open Scope R_scope.

(** C63: the interpolated residual equals the residual at every sampling point, whatever the map ... *)
Theorem C63_nodes_partial (value : R -> R -> R) (res vx vy : R) (i k : Z) :
  res <> 0 ->
  jre (interpolation_rjet value res (J (IZR i * res) vx) (J (IZR k * res) vy)) =
  interpolation_double value (IZR i * res) (IZR k * res).
Proof. exact (interpolation_node value res vx vy i k). Qed.
Print Assumptions C63_nodes_partial.

(** ... and is differentiable everywhere, with the derivative that the Jet carries; also across borders of
    bundles and of sampling cells (the direct functors are not, C58). *)
Theorem C63_derivative (value : R -> R -> R) (res x y vx vy : R) :
  has_derivative (fun s => Ok (jre (interpolation_rjet value res (J (x + s * vx) vx) (J (y + s * vy) vy)))) 0
    (jde (interpolation_rjet value res (J x vx) (J y vy))).
Proof. exact (proj2 (interpolation_derives value res x y vx vy)). Qed.
Print Assumptions C63_derivative.

(** C63, full statement: false between the sampling points. In the middle of an empty bundle the residual
    for numeric differentiation is 1, the interpolated one is not. *)
Theorem C63_between_refuted :
  cact_all one_grid one_history (new_map one_grid) = Ok one_map /\
  exists x y : R,
    interpolation_double one_value x y = 1 /\
    jre (interpolation_rjet one_value 1 (J x 1) (J y 0)) < 1.
Proof.
  split; [exact one_map_reached|]. exists (1 / 2), (1 / 2). split; [exact one_double|]. rewrite one_between.
  unfold one_score. match goal with |- context [exp ?e] => pose proof (exp_pos e) end. lra.
Qed.
Print Assumptions C63_between_refuted.

(** C63: nor is the interpolated residual a number between 0 and 1. *)
Theorem C63_overshoot_refuted :
  (forall i k : Z, (-1 <= i <= 4)%Z -> (-1 <= k <= 2)%Z -> 0 <= get_value one_value 1 i k <= 1) /\
  exists x y : R, 1 < jre (interpolation_rjet one_value 1 (J x 1) (J y 0)).
Proof.
  split.
  - intros i k Hi Hk. rewrite one_nodes by assumption.
    pose proof (one_score_less 1 0 ltac:(lra)) as H1.
    assert (H0 : 0 < one_score 1 0) by (unfold one_score; apply exp_pos).
    destruct (andb (Z.eqb i 1) (Z.eqb k 0)); lra.
  - exists (5 / 2), 0. rewrite one_overshoot. unfold one_score. match goal with |- context [exp ?e] => pose proof (exp_pos e) end. lra.
Qed.
Print Assumptions C63_overshoot_refuted.

Example C63_example : jre (interpolation_rjet one_value 1 (J (1 * 1) 1) (J (0 * 1) 0)) = 1 - one_score 1 0.
Proof.
  rewrite (interpolation_node one_value 1 1 0 1 0) by lra. change (one_value (1 * 1) (0 * 1)) with (get_value one_value 1 1 0).
  rewrite one_nodes by lia. reflexivity.
Qed.

(** C58: automatic differentiation of the residuals. *)
From Coq Require Import Reals Lra List Lia.
From Verif Require Import Base SeqModel IndexModel MapModel SysModel ExtentModel MatchModel MatchSpec MatchFacts JetModel JetSpec JetFacts
  PriorFacts JetSamples.
Open Scope R_scope.

(** C58: off the borders between bundles, the residual computed with Jets has the value of the residual
    computed with doubles, and its derivative part is the derivative of that residual in the direction in
    which the Jets of the parameters were seeded; for each of the three functors, every map, pose, scan
    point and direction, if the information matrices are positive semidefinite ... *)
Theorem C58_derivative_partial {P : Type} (c : config P) (k : matcher) (inv : R) (valid : P -> bool) (mean : P -> nat -> R)
  (inf : P -> nat -> nat -> R) (m : cmap c) (rot : nat -> nat -> R) (trans : nat -> R) (weight : R)
  (local x v : nat -> R) (r : rjet) :
  (forall d, valid d = true -> semidefinite (dimc c) (inf d)) ->
  off_border (dimc c) inv (to_map_frame real_number (dimc c) rot trans (pose_of k real_number x local)) ->
  residual_rjet (pose_of k) (dimc c) rot trans weight (evaluate_rjet c inv valid mean inf m) local (fun i => J (x i) (v i)) = Ok r ->
  residual_real (pose_of k) (dimc c) rot trans weight (evaluate_real c inv valid mean inf m) local x = Ok (jre r) /\
  has_derivative
    (fun s => residual_real (pose_of k) (dimc c) rot trans weight (evaluate_real c inv valid mean inf m) local (moved x v s))
    0 (jde r).
Proof.
  exact (fun H => residual_derives (pose_of k) (dimc c) inv rot trans weight _ _ local x v r (pose_of_differentiable k)
           (plain_derives c inv valid mean inf m) (plain_nonneg c inv valid mean inf m H)).
Qed.
Print Assumptions C58_derivative_partial.

(** ... and for occupancy maps, if moreover occupancies are probabilities. *)
Theorem C58_occupancy_derivative_partial {P D M : Type} (c : config P) (k : matcher) (inv : R) (inner : P -> option D)
  (valid : D -> bool) (mean : D -> nat -> R) (inf : D -> nat -> nat -> R) (occupancy : M -> P -> R) (ivm : M) (m : cmap c)
  (rot : nat -> nat -> R) (trans : nat -> R) (weight : R) (local x v : nat -> R) (r : rjet) :
  (forall d, valid d = true -> semidefinite (dimc c) (inf d)) -> (forall d, 0 <= occupancy ivm d <= 1) ->
  off_border (dimc c) inv (to_map_frame real_number (dimc c) rot trans (pose_of k real_number x local)) ->
  residual_rjet (pose_of k) (dimc c) rot trans weight (occ_evaluate_rjet c inv inner valid mean inf occupancy ivm m) local
    (fun i => J (x i) (v i)) = Ok r ->
  residual_real (pose_of k) (dimc c) rot trans weight (occ_evaluate_real c inv inner valid mean inf occupancy ivm m) local x
    = Ok (jre r) /\
  has_derivative
    (fun s => residual_real (pose_of k) (dimc c) rot trans weight
                (occ_evaluate_real c inv inner valid mean inf occupancy ivm m) local (moved x v s))
    0 (jde r).
Proof.
  exact (fun H Ho => residual_derives (pose_of k) (dimc c) inv rot trans weight _ _ local x v r (pose_of_differentiable k)
           (occ_derives c inv inner valid mean inf occupancy ivm m) (occ_nonneg c inv inner valid mean inf occupancy ivm m H Ho)).
Qed.
Print Assumptions C58_occupancy_derivative_partial.

(** C58, full statement: false on a border. A scan point at x = 1 enters the bundle in which the only point
    was stored; the Jets report a derivative though the residual jumps there and has none. *)
Theorem C58_border_refuted :
  exists r : rjet,
    one_jet (one_seed 1 (1 / 2) 0) = Ok r /\
    one_residual (one_x 1 (1 / 2) 0) = Ok (jre r) /\
    forall d, ~ has_derivative (fun s => one_residual (moved (one_x 1 (1 / 2) 0) (one_x 1 0 0) s)) 0 d.
Proof.
  exists (J (1 - one_score 1 (1 / 2)) ((1 - 1 / 2) * one_score 1 (1 / 2))).
  split; [apply one_jet_right; lra|]. split; [apply one_right; lra|].
  apply (no_derivative _ 0 1 (1 - one_score 1 (1 / 2))).
  - intros s Hs. rewrite one_moved. apply one_left; lra.
  - rewrite one_moved. replace (1 + 0) with 1 by ring. apply one_right; lra.
  - unfold one_score. pose proof (exp_pos (- (1 / 2) * ((1 - 1 / 2) * (1 - 1 / 2) + (1 / 2 - 1 / 2) * (1 / 2 - 1 / 2)))). lra.
Qed.
Print Assumptions C58_border_refuted.

(** The map was reached by adding a point, and in the middle of that bundle the hypotheses hold: the
    derivative is 1 * exp(-1/2). *)
Example C58_example :
  cact_all one_grid one_history (new_map one_grid) = Ok one_map /\
  off_border 2 1 (to_map_frame real_number 2 one_rot one_trans (pose_2d real_number (one_x (3 / 2) (1 / 2) 0) one_local)) /\
  one_jet (one_seed (3 / 2) (1 / 2) 0) = Ok (J (1 - exp (- (1 / 2))) (exp (- (1 / 2)))) /\
  has_derivative (fun s => one_residual (moved (one_x (3 / 2) (1 / 2) 0) (one_x 1 0 0) s)) 0 (exp (- (1 / 2))).
Proof.
  assert (E : one_jet (one_seed (3 / 2) (1 / 2) 0) = Ok (J (1 - exp (- (1 / 2))) (exp (- (1 / 2))))).
  { rewrite one_jet_right by lra. unfold one_score.
    replace (- (1 / 2) * ((3 / 2 - 1 / 2) * (3 / 2 - 1 / 2) + (1 / 2 - 1 / 2) * (1 / 2 - 1 / 2))) with (- (1 / 2)) by field.
    f_equal. f_equal. field. }
  assert (B : off_border 2 1 (to_map_frame real_number 2 one_rot one_trans (pose_2d real_number (one_x (3 / 2) (1 / 2) 0) one_local))).
  { intros i z Hi C. rewrite (one_frame (3 / 2) (1 / 2) 0 i Hi) in C.
    assert (H : IZR (2 * z) = 3 \/ IZR (2 * z) = 1) by (rewrite mult_IZR; destruct i; lra).
    destruct H as [H|H]; apply eq_IZR in H; lia. }
  split; [exact one_map_reached|]. split; [exact B|]. split; [exact E|].
  exact (proj2 (C58_derivative_partial one_grid Matcher2d 1 one_valid one_mean one_inf one_map one_rot one_trans 1 one_local
    (one_x (3 / 2) (1 / 2) 0) (one_x 1 0 0) _ one_semidefinite B E)).
Qed.

(** C58 for the rotation prior (one angle; [Problem3dRPY] has three of them): the Jet has the value of the
    residual and its derivative, unless the two rotations are opposite ... *)
Theorem C58_rotation_prior_partial (atan2 : R -> R -> R) (w r0 r v : R) :
  atan2_ok atan2 -> ~ congruent (r0 - r) PI ->
  jre (rotation_residual_rjet atan2 w r0 (J r v)) = rotation_residual_2d atan2 w r0 r /\
  has_derivative (fun s => Ok (rotation_residual_2d atan2 w r0 (r + s * v))) 0 (jde (rotation_residual_rjet atan2 w r0 (J r v))).
Proof.
  intros Hf Hn. rewrite prior_value. exact (conj eq_refl (prior_derives atan2 Hf w r0 r v Hn)).
Qed.
Print Assumptions C58_rotation_prior_partial.

(** ... where the residual jumps by 2 pi and has no derivative, though the Jet has. *)
Theorem C58_rotation_prior_refuted :
  exists r0 r : R, forall (atan2 : R -> R -> R) (w : R), atan2_ok atan2 -> w <> 0 ->
    jde (rotation_residual_rjet atan2 w r0 (J r 1)) = - w /\
    forall d, ~ has_derivative (fun s => Ok (rotation_residual_2d atan2 w r0 (r + s * 1))) 0 d.
Proof.
  exists PI, 0. intros atan2 w Hf Hw. split; [rewrite prior_value; cbn; ring|exact (prior_jumps atan2 Hf w Hw)].
Qed.
Print Assumptions C58_rotation_prior_refuted.

Example C58_rotation_example : atan2_ok acos_atan2 /\ ~ congruent (3 - -3) PI.
Proof.
  split; [exact acos_atan2_ok|]. intros C. apply congruent_sin_cos in C as [C _].
  rewrite sin_PI in C. replace (3 - -3) with (2 * PI + - (2 * PI - 6)) in C by ring.
  rewrite sin_plus, sin_2PI, cos_2PI, sin_neg in C.
  assert (S : 0 < sin (2 * PI - 6)) by (apply sin_gt_0; generalize pi_gt_3, PI_4; lra). lra.
Qed.

(** C58: the value a valid distribution contributes is the Gaussian of the Mahalanobis distance. *)
Theorem C58_gaussian (dim : nat) (mean : nat -> R) (inf : nat -> nat -> R) (p : nat -> R) :
  rsample dim true mean inf p =
  exp (- (1 / 2) * rsum dim (fun j => rsum dim (fun i => (p i - mean i) * inf i j * (p j - mean j)))).
Proof. exact (gaussian dim mean inf p). Qed.
Print Assumptions C58_gaussian.

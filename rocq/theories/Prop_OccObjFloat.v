(** C89 for the functions of occupancy maps that nlopt minimizes. *)
From Coq Require Import Reals Lra Lia List Floats.SpecFloat.
From Flocq Require Import Core BinarySingleNaN.
From Verif Require Import ResidualModel RoundModel ObjFloatModel ObjFloatSpec ObjFloatFacts HypotFloatFacts.
From Verif Require Import OccObjFloatModel OccObjFloatSpec OccObjFloatFacts Prop_ObjFloat.
Import ListNotations.
Open Scope R_scope.

(** C89, full statement (mapScore is the mean score): false in three dimensions. A scan of which no point hits
    the map has objective 0 and score 1, like a perfect fit ... *)
Theorem C89_occupancy_3d_missing_refuted :
  exists scores, scores_ok scores /\ scores <> [] /\ mean scores = 0 /\
    double_occ_apply_3d sample_weights scores double_zero double_zero = double_zero /\
    double_mapScore sample_weights (double_occ_apply_3d sample_weights scores double_zero double_zero) double_zero double_zero = double_one.
Proof.
  exists [double_zero; S754_nan; double_zero]. split; [|split; [discriminate|split; [|vm_compute; split; reflexivity]]].
  - repeat apply Forall_cons; try apply Forall_nil; (split; [reflexivity|cbn [SF2R double_zero]; lra]).
  - unfold mean. cbn [fold_right SF2R double_zero]. unfold Rdiv. ring.
Qed.
Print Assumptions C89_occupancy_3d_missing_refuted.

(** ... and in two dimensions, where such a scan of four points has score 15/16. *)
Theorem C89_occupancy_2d_missing_refuted :
  exists scores, scores_ok scores /\ scores <> [] /\ mean scores = 0 /\
    let fi := double_occ_apply_2d sample_weights scores double_zero double_zero double_zero in
    real (double_mapScore sample_weights fi double_zero double_zero) = 15 / 16.
Proof.
  exists [double_zero; S754_nan; double_zero; double_zero]. split; [|split; [discriminate|split]].
  - repeat apply Forall_cons; try apply Forall_nil; (split; [reflexivity|cbn [SF2R double_zero]; lra]).
  - unfold mean. cbn [fold_right SF2R double_zero]. unfold Rdiv. ring.
  - assert (E : double_mapScore sample_weights (double_occ_apply_2d sample_weights [double_zero; S754_nan; double_zero; double_zero] double_zero double_zero double_zero)
                  double_zero double_zero = S754_finite false 8444249301319680 (-53)) by (vm_compute; reflexivity).
    cbv zeta. rewrite E. transitivity (IZR (15 * 2 ^ 49) * bpow radix2 (-53)); [reflexivity|].
    rewrite mult_IZR. change (IZR (2 ^ 49)) with (bpow radix2 49). rewrite Rmult_assoc, <- bpow_plus. cbn. lra.
Qed.
Print Assumptions C89_occupancy_2d_missing_refuted.

(** C89 in three dimensions, what holds: the objective is finite and accurate, and mapScore recovers the mean of
    the scores up to rounding, where points without a score count as perfect ones. *)
Theorem C89_occupancy_3d_partial (w : double_weights) (scores : list double) (td rd : double) :
  weights_moderate w -> scores_ok scores -> scores <> [] -> (Z.of_nat (length scores) <= 2 ^ 50)%Z -> moderate td -> moderate rd ->
  let n := INR (length scores) in
  let fi := double_occ_apply_3d w scores td rd in
  let score := double_mapScore w fi td rd in
  finite_double fi /\
  Rabs (real fi - (real (dw_map w) * (1 - mean_or_one scores) + penalty w td rd))
    <= (n + 16) * roundoff * (real (dw_map w) + penalty_size w td rd) /\
  finite_double score /\
  Rabs (real score - mean_or_one scores) <= (n + 40) * roundoff * (1 + penalty_size w td rd / real (dw_map w)).
Proof. exact (occ_3d_accurate w scores td rd). Qed.
Print Assumptions C89_occupancy_3d_partial.

(** C89 in two dimensions, what holds: the objective is finite and accurate for every scan, also an empty one,
    with a bound that does not grow with the number of points. *)
Theorem C89_occupancy_2d_partial (w : double_weights) (scores : list double) (dx dy rd : double) :
  weights_moderate w -> scores_ok scores -> (Z.of_nat (length scores) <= 2 ^ 50)%Z ->
  small_deviation dx -> small_deviation dy -> small_deviation rd ->
  let fi := double_occ_apply_2d w scores dx dy rd in
  finite_double fi /\ Rabs (real fi - squared_objective w scores dx dy rd) <= 16 * roundoff * squared_size w dx dy rd.
Proof. exact (occ_2d_accurate w scores dx dy rd). Qed.
Print Assumptions C89_occupancy_2d_partial.

(** The weights and scores of [Prop_ObjFloat], a deviation of 1 along x and of 1/2 in the angle. *)
Example C89_occupancy_example_hypotheses :
  weights_moderate sample_weights /\ scores_ok sample_scores /\ sample_scores <> [] /\
  (Z.of_nat (length sample_scores) <= 2 ^ 50)%Z /\ small_deviation double_one /\ small_deviation double_zero /\ small_deviation double_half.
Proof.
  destruct C89_example_hypotheses as [A [B [C [D _]]]]. do 4 (split; [assumption|]).
  assert (P : 1 <= bpow radix2 98) by (change 1 with (bpow radix2 0); apply bpow_le; discriminate).
  split; [|split]; (split; [split; reflexivity|]).
  - rewrite one_real, Rabs_pos_eq by lra. exact P.
  - cbn [SF2R double_zero]. rewrite Rabs_R0. lra.
  - rewrite half_real, Rabs_pos_eq by lra. lra.
Qed.
(** What the machine computes. In two dimensions: 1/4 * 2 * (1/4 + 1 + 1) / 9 + 1/2 * (1/2 + 1/4) = 1/2. In three:
    2 * (1/2) / 3 + 1/2 + 1/2 = 4/3. *)
Example C89_occupancy_example_value :
  double_occ_apply_2d sample_weights sample_scores double_one double_zero double_half = S754_finite false 4503599627370496 (-53) /\
  double_occ_apply_3d sample_weights sample_scores double_one double_half = S754_finite false 6004799503160661 (-52).
Proof. vm_compute. split; reflexivity. Qed.

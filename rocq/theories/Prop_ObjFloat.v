(** C89: the objective functions of the matchers in double precision. *)
From Coq Require Import Reals Lra Lia List Floats.SpecFloat.
From Flocq Require Import Core BinarySingleNaN.
From Verif Require Import ResidualModel RoundModel ObjFloatModel ObjFloatSpec ObjFloatFacts HypotFloatFacts.
Import ListNotations.
Open Scope R_scope.

(** C89, full statement (finite for every scan and all finite weights): false. The objective of an empty scan
    is NaN, 0 divided by 0, even at the initial guess ... *)
Theorem C89_empty_scan_refuted :
  exists w, weights_moderate w /\ moderate double_zero /\ double_apply w [] double_zero double_zero = S754_nan.
Proof.
  exists {| dw_translation := double_one; dw_rotation := double_one; dw_map := double_one |}.
  split; [|split; [exact moderate_zero|vm_compute; reflexivity]].
  unfold weights_moderate. cbn [dw_translation dw_rotation dw_map]. repeat split; try exact (proj2 moderate_one); try apply (proj1 moderate_one).
  rewrite one_real. change 1 with (bpow radix2 0). apply bpow_le. discriminate.
Qed.
Print Assumptions C89_empty_scan_refuted.

(** ... and with a map weight of 0, which leaves only the penalty, mapScore is NaN or infinite. *)
Theorem C89_no_map_weight_refuted :
  exists w scores td,
    scores_ok scores /\ scores <> [] /\ moderate td /\ moderate (dw_map w) /\ finite_double (double_apply w scores td double_zero) /\
    double_mapScore w (double_apply w scores td double_zero) td double_zero = S754_nan.
Proof.
  exists {| dw_translation := double_one; dw_rotation := double_one; dw_map := double_zero |}, [double_half], double_one.
  split; [|repeat split; try discriminate; try exact (proj2 moderate_one); try exact (proj2 moderate_zero)].
  constructor; [|constructor]. split; [reflexivity|]. rewrite half_real. lra.
Qed.
Print Assumptions C89_no_map_weight_refuted.

(** C89, what holds for nlopt: for every scan of 1 to 2^50 points with scores between 0 and 2, also infinite
    ones and NaN, which count as 0, and weights and deviations of moderate size, the objective is finite and
    the weighted cost up to rounding, and mapScore recovers the mean score up to rounding. *)
Theorem C89_nlopt_partial (w : double_weights) (scores : list double) (td rd : double) :
  weights_moderate w -> scores_ok scores -> scores <> [] -> (Z.of_nat (length scores) <= 2 ^ 50)%Z -> moderate td -> moderate rd ->
  let n := INR (length scores) in
  let fi := double_apply w scores td rd in
  let score := double_mapScore w fi td rd in
  finite_double fi /\
  Rabs (real fi - (real (dw_map w) * (1 - mean scores) + penalty w td rd))
    <= (n + 16) * roundoff * (real (dw_map w) + penalty_size w td rd) /\
  finite_double score /\
  Rabs (real score - mean scores) <= (n + 40) * roundoff * (1 + penalty_size w td rd / real (dw_map w)).
Proof. exact (nlopt_accurate w scores td rd). Qed.
Print Assumptions C89_nlopt_partial.

(** For alglib: every entry is finite, and mapScore recovers the mean score, whatever the deviations. *)
Theorem C89_alglib_partial (w : double_weights) (scores rest : list double) :
  weights_moderate w -> scores_ok scores -> scores <> [] -> (Z.of_nat (length scores) <= 2 ^ 50)%Z ->
  let n := INR (length scores) in
  let fi := double_alglib_points w scores in
  let score := double_alglib_score w (length scores) (fi ++ rest) in
  length fi = length scores /\
  (forall i s v, nth_error scores i = Some s -> nth_error fi i = Some v ->
     finite_double v /\ Rabs (real v - real (dw_map w) * (1 - real s) / n) <= 7 * roundoff * (real (dw_map w) / n)) /\
  finite_double score /\ Rabs (real score - mean scores) <= (5 * n + 20) * roundoff.
Proof. exact (alglib_accurate w scores rest). Qed.
Print Assumptions C89_alglib_partial.

(** The distance of the 3D functions: finite, accurate, and of the size the theorems above ask for. *)
Theorem C89_distance (x y z : double) :
  finite_double x -> finite_double y -> finite_double z ->
  Rabs (real x) <= bpow radix2 98 -> Rabs (real y) <= bpow radix2 98 -> Rabs (real z) <= bpow radix2 98 ->
  let exact := sqrt (real x * real x + real y * real y + real z * real z) in
  moderate (double_hypot x y z) /\ Rabs (real (double_hypot x y z) - exact) <= 8 * roundoff * exact + bpow radix2 (-440).
Proof. exact (distance_accurate x y z). Qed.
Print Assumptions C89_distance.

(** A scan that fits perfectly, at the initial guess: the objective is exactly 0 and mapScore exactly 1, for
    every finite weight and any number of points. *)
Theorem C89_perfect (w : double_weights) (scores : list double) (td rd : double) :
  finite_double (dw_translation w) -> finite_double (dw_rotation w) -> finite_double (dw_map w) -> real (dw_map w) <> 0 ->
  scores <> [] -> (Z.of_nat (length scores) <= 2 ^ 50)%Z -> Forall (fun s => s = double_one) scores ->
  finite_double td -> finite_double rd -> real td = 0 -> real rd = 0 ->
  finite_double (double_apply w scores td rd) /\ real (double_apply w scores td rd) = 0 /\
  double_mapScore w (double_apply w scores td rd) td rd = double_one.
Proof. exact (perfect_scan w scores td rd). Qed.
Print Assumptions C89_perfect.

(** Three points, one of them with a score of NaN and one with a subnormal score; a deviation of 1, map
    weight 2. Mean 1/6. *)
Definition sample_weights : double_weights :=
  {| dw_translation := double_half; dw_rotation := double_one; dw_map := S754_finite false 4503599627370496 (-51) |}.
Definition sample_scores : list double := [double_half; S754_nan; S754_finite false 1 (-1074)].
Example C89_example_hypotheses :
  weights_moderate sample_weights /\ scores_ok sample_scores /\ sample_scores <> [] /\
  (Z.of_nat (length sample_scores) <= 2 ^ 50)%Z /\ moderate double_one /\ moderate double_zero.
Proof.
  assert (T : real (S754_finite false 4503599627370496 (-51)) = 2).
  { transitivity (bpow radix2 52 * bpow radix2 (-51)); [reflexivity|]. rewrite <- bpow_plus. reflexivity. }
  assert (P : forall k, (0 <= k)%Z -> 1 <= bpow radix2 k) by (intros k K; change 1 with (bpow radix2 0); apply bpow_le; exact K).
  assert (P2 : 2 <= bpow radix2 100) by (change 2 with (bpow radix2 1); apply bpow_le; discriminate).
  assert (P3 : bpow radix2 (-100) <= 1) by (change 1 with (bpow radix2 0); apply bpow_le; discriminate).
  assert (P4 : bpow radix2 (-1074) <= 1) by (change 1 with (bpow radix2 0); apply bpow_le; discriminate).
  split; [|split; [|split; [discriminate|split; [discriminate|split; [exact moderate_one|exact moderate_zero]]]]].
  - unfold weights_moderate, sample_weights. cbn [dw_translation dw_rotation dw_map]. split; [|split; [exact moderate_one|]].
    + split; [split; reflexivity|]. rewrite half_real, Rabs_pos_eq by lra. lra.
    + rewrite T. split; [split; [split; reflexivity|]|]; [rewrite T, Rabs_pos_eq by lra|]; lra.
  - assert (P5 : real (S754_finite false 1 (-1074)) = bpow radix2 (-1074)) by apply Rmult_1_l.
    pose proof (bpow_ge_0 radix2 (-1074)) as P6. repeat apply Forall_cons; try apply Forall_nil; (split; [reflexivity|]).
    + rewrite half_real. lra.
    + cbn [SF2R]. lra.
    + rewrite P5. lra.
Qed.
(** What the machine computes: the objective 13/6 and the score 1/6, up to a few units in the last place. *)
Example C89_example_value :
  double_apply sample_weights sample_scores double_one double_zero = S754_finite false 4878899596318038 (-51) /\
  double_mapScore sample_weights (double_apply sample_weights sample_scores double_one double_zero) double_one double_zero
    = S754_finite false 6004799503160656 (-55).
Proof. vm_compute. split; reflexivity. Qed.

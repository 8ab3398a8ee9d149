(** C83: likelihood fields and distance maps. *)
From Coq Require Import QArith Qround Qreals Reals Lra Floats.SpecFloat.
From Verif Require Import Base SeqModel IndexModel OctreeSpec MapModel BackendModel SysModel SysSpec ExtentModel SampleModel SampleSpec
  GridModel ResidualModel RoundModel RoundFacts LikelihoodModel LikelihoodSpec LikelihoodFacts Samples Prop_Grid.
Open Scope Z_scope.

(** C83, for every reachable map whose bundles are a whole number of pixels wide and whose extents give
    at most INT_MAX pixels per axis, and for every correct distance transform. A pixel [hits] if the
    score of the map at its position reaches the threshold. The grids have the extent of the map; the
    distance map shows at every pixel the distance to the nearest hit, up to the maximum distance; the
    likelihood field shows exp(-d^2 / (2 sigma^2)) of this distance [d], which lies between the value
    at the maximum distance and 1, is 1 exactly at the hits, and is never smaller for smaller [d]. *)
Theorem C83_field_partial {P : Type} (c : config P) (bres sres : Q) (dsample : P -> list Q -> Q)
  (transform : Q -> Q -> Q -> grid -> Z -> Z -> R) (far threshold : Q) (sigma : R)
  (allocate_all bilinear : bool) (l : list (map_action (P:=P))) (n : Z) :
  config_ok c -> dimc c = 2%nat -> (kindc c = Dynamic -> aminc c = cw_min /\ amaxc c = cw_max) ->
  (0 < bres)%Q -> (0 < sres)%Q ->
  (forall v p q, Forall2 Qeq p q -> (dsample v p == dsample v q)%Q) ->
  0 < n -> (bres == inject_Z n * sres)%Q ->
  transforms transform -> (0 < far)%Q -> (0 <= threshold <= 1)%Q -> (0 < sigma)%R ->
  let l' := l ++ (if allocate_all then [ExpandAll] else []) in
  fits c l' ->
  exists m0 m, cact_all c l (new_map c) = Ok m0 /\ cact_all c l' (new_map c) = Ok m /\
    forall w0 w1, getExtent c bres m 0 = Ok w0 -> getExtent c bres m 1 = Ok w1 ->
    (0 <= w0 /\ w0 <= inject_Z INT_MAX * sres)%Q -> (0 <= w1 /\ w1 <= inject_Z INT_MAX * sres)%Q ->
    (bres <= inject_Z INT_MAX * sres)%Q ->
    (forall d, (d < 2)%nat -> INT_MIN <= nth d (min_bi m) 0 /\ nth d (max_bi m) 0 <= INT_MAX) ->
    exists D F, to_distances c bres sres dsample transform far threshold allocate_all bilinear m0 = Ok (m, D) /\
      to_likelihoods c bres sres dsample transform far sigma threshold allocate_all bilinear m0 = Ok (m, F) /\
      f_width D = f_width F /\ f_height D = f_height F /\
      (inject_Z (f_width F) * sres == w0)%Q /\ (inject_Z (f_height F) * sres == w1)%Q /\
      let hits := fun u v => inside (f_width F) (f_height F) u v /\
        let p := [nth 0 (getMin c bres m) 0 + inject_Z u * sres; nth 1 (getMin c bres m) 0 + inject_Z v * sres]%Q in
        exists s, (if bilinear then sampleNonNormalizedBilinear c (/ bres) dsample m p
                   else sampleNonNormalized c (/ bres) dsample m p) = Ok s /\ (threshold <= s)%Q in
      (forall u v, inside (f_width F) (f_height F) u v ->
         nearest sres (Q2R far) hits u v (f_at D u v) /\
         f_at F u v = exp (- (f_at D u v * f_at D u v / (2 * (sigma * sigma)))) /\
         (exp (- (Q2R far * Q2R far / (2 * (sigma * sigma)))) <= f_at F u v <= 1)%R /\
         (f_at F u v = 1%R <-> hits u v)) /\
      (forall u v u' v', inside (f_width F) (f_height F) u v -> inside (f_width F) (f_height F) u' v' ->
         ((f_at D u v <= f_at D u' v')%R <-> (f_at F u' v' <= f_at F u v)%R)).
Proof.
  intros Hc Hd Hcw Hb Hs Hp Hn Hdiv Ht Hfar [Ht0 Ht1] Hsig l' Hf.
  destruct (grid_distances c Hc Hd Hcw bres sres Hb Hs dsample Hp n Hn Hdiv transform Ht allocate_all bilinear l Hf far threshold Hfar)
    as [m0 [m [E0 [E H]]]].
  exists m0, m. split; [exact E0|]. split; [exact E|]. intros w0 w1 X0 X1 W0 W1 Hint Hmm.
  destruct (H w0 w1 X0 X1 W0 W1 Hint Hmm) as [g [Eg [Gw [Gh Hg]]]].
  unfold to_distances, to_likelihoods. rewrite Eg. apply Qle_bool_iff in Ht0, Ht1. rewrite Ht0, Ht1. cbn [obind fst snd andb].
  do 2 eexists. split; [reflexivity|]. split; [reflexivity|]. cbn [distances f_width f_height f_at].
  split; [reflexivity|]. split; [reflexivity|]. split; [exact Gw|]. split; [exact Gh|].
  assert (F0 : (0 < Q2R far)%R) by (apply Qlt_Rlt in Hfar; rewrite RMicromega.Q2R_0 in Hfar; exact Hfar).
  split.
  - intros u v Hi. pose proof (Hg u v Hi) as HN. destruct (nearest_bounds _ _ _ _ _ _ Hs F0 HN) as [[B0 B1] BZ].
    split; [exact HN|]. split; [apply likelihood_value, Hsig|]. destruct (likelihood_one sigma _ Hsig B0) as [L1 L2].
    split; [split; [|exact L1]|].
    + rewrite <- (likelihood_value sigma) by exact Hsig. apply likelihood_order; [exact Hsig|exact B0|lra|exact B1].
    + rewrite L2. exact BZ.
  - intros u v u' v' Hi Hi'.
    destruct (nearest_bounds _ _ _ _ _ _ Hs F0 (Hg u v Hi)) as [[B0 _] _]. destruct (nearest_bounds _ _ _ _ _ _ Hs F0 (Hg u' v' Hi')) as [[B0' _] _].
    apply likelihood_order; assumption.
Qed.
Print Assumptions C83_field_partial.

(** C83: the field of an occupancy map is that of a map whose cells contribute occupancy times score; without
    inverse model nothing is done. *)
Theorem C83_occupancy_field {P D M : Type} (c : config P) (bres sres : Q) (inner : P -> option D) (sample : D -> list Q -> Q)
  (occupancy : M -> P -> Q) (transform : Q -> Q -> Q -> grid -> Z -> Z -> R) (far threshold : Q) (sigma : R)
  (allocate_all bilinear : bool) (m0 : cmap c) :
  occ_to_likelihoods c bres sres inner sample occupancy transform None far sigma threshold allocate_all bilinear m0 = Ok (m0, None) /\
  forall model m F,
    to_likelihoods c bres sres
      (fun d p => match inner d with Some x => sample x p * occupancy model d | None => 0 end)%Q
      transform far sigma threshold allocate_all bilinear m0 = Ok (m, F) ->
    occ_to_likelihoods c bres sres inner sample occupancy transform (Some model) far sigma threshold allocate_all bilinear m0 = Ok (m, Some F).
Proof. split; [reflexivity|]. intros model m F E. unfold occ_to_likelihoods, occ_contribution. rewrite E. reflexivity. Qed.
Print Assumptions C83_occupancy_field.

(** There is a correct distance transform; the map of C33 with threshold 1/2 and its pixels (4, 4), which hits,
    and (0, 0) and (15, 0). *)
Example C83_example :
  transforms brute_transform /\
  let l := [Modify [3; -4] (fun v => v ++ [5; 6; 7]); Modify [4; -4] (fun v => v ++ [7])] in
  config_ok log_dynamic /\ fits log_dynamic (l ++ [ExpandAll]) /\ (1 == inject_Z 4 * (1 # 4))%Q /\
  (let* m0 := cact_all log_dynamic l (new_map log_dynamic) in
   let* r := to_grid log_dynamic 1 (1 # 4) hits_at true false 0 m0 in
   Ok (g_width (snd r), g_height (snd r), map (fun p => Qle_bool 1 (g_at (snd r) (fst p) (snd p))) [(4, 4); (0, 0); (15, 0)])) =
  Ok (16, 12, [true; false; true]).
Proof.
  split; [exact brute_transforms|]. intros l. split; [exact log_dynamic_ok|]. split; [unfold l; fits_2d|]. split; [reflexivity|].
  vm_compute. reflexivity.
Qed.

(** C83 in doubles: a pixel that hits (distance 0) gets the exponential of 0, if sigma_hit is neither tiny
    nor huge. *)
Theorem C83_double_partial (sigma : double) (s : bool) :
  good_double sigma -> ((2 # 1) ^ (-500) <= float_value sigma <= (2 # 1) ^ 500)%Q ->
  exists s', double_exponent sigma (S754_zero s) = S754_zero s'.
Proof. intros G B. exact (exponent_zero sigma s (good_factor sigma G B)). Qed.
Print Assumptions C83_double_partial.
Example C83_double_example :
  double_exponent double_half (S754_zero false) = S754_zero true /\
  good_double double_half /\ ((2 # 1) ^ (-500) <= float_value double_half <= (2 # 1) ^ 500)%Q.
Proof. split; [vm_compute; reflexivity|]. split; [split; reflexivity|]. split; vm_compute; discriminate. Qed.

(** C83, full statement in doubles: every pixel that hits gets the likelihood exp(0) = 1, for every positive
    sigma_hit. False: the square of 2^-600 is rounded to 0, the factor is infinite and its product with the
    distance 0 not a number. *)
Theorem C83_tiny_sigma_refuted :
  exists sigma : double, good_double sigma /\ (0 < float_value sigma)%Q /\
    double_exponent sigma (S754_zero false) = S754_nan.
Proof.
  exists (S754_finite false 4503599627370496 (-652)). split; [split; reflexivity|]. split; vm_compute; reflexivity.
Qed.
Print Assumptions C83_tiny_sigma_refuted.

(** C83, full statement in exact arithmetic: pixels show the map at their own position. False if the
    resolutions do not divide: a pixel whose position scores below the threshold shows likelihood 1. *)
Theorem C83_position_refuted :
  exists (l : list (map_action (P:=list Z))) (bres sres threshold : Q) (u v : Z),
    fits log_dynamic l /\ (0 < sres)%Q /\ (sres < bres)%Q /\ (0 < threshold <= 1)%Q /\
    exists m F s, cact_all log_dynamic l (new_map log_dynamic) = Ok m /\
      to_likelihoods log_dynamic bres sres hits_at brute_transform 2 (1 / 2)%R threshold false false m = Ok (m, F) /\
      sampleNonNormalized log_dynamic (/ bres) hits_at m
        [nth 0 (getMin log_dynamic bres m) 0 + inject_Z u * sres; nth 1 (getMin log_dynamic bres m) 0 + inject_Z v * sres]%Q = Ok s /\
      (s < threshold)%Q /\ inside (f_width F) (f_height F) u v /\ f_at F u v = 1%R.
Proof.
  set (l := [Modify [0; 0] (fun v => v ++ [5]); Modify [1; 0] (fun v => v ++ [7])] : list (map_action (P:=list Z))).
  assert (HC : (let* m := cact_all log_dynamic l (new_map log_dynamic) in
    let* r := to_grid log_dynamic 1 (2 # 5) hits_at false false 0 m in
    let* s := sampleNonNormalized log_dynamic (/ 1) hits_at m
        [nth 0 (getMin log_dynamic 1 m) 0 + inject_Z 2 * (2 # 5); nth 1 (getMin log_dynamic 1 m) 0 + inject_Z 0 * (2 # 5)]%Q in
    Ok (g_width (snd r), g_height (snd r), Qle_bool (9 # 10) (g_at (snd r) 2 0), Qle_bool (9 # 10) s)) = Ok (5, 3, true, false))
    by (vm_compute; reflexivity).
  destruct (cact_all log_dynamic l (new_map log_dynamic)) as [m| |] eqn:E; try discriminate HC. cbn [obind] in HC.
  destruct (to_grid log_dynamic 1 (2 # 5) hits_at false false 0 m) as [[m' g]| |] eqn:Eg; try discriminate HC. cbn [obind fst snd] in HC.
  destruct (sampleNonNormalized log_dynamic (/ 1) hits_at m _) as [s| |] eqn:Es in HC; try discriminate HC. cbn [obind] in HC.
  injection HC as Gw Gh Hh Hs'.
  assert (m' = m) as -> by (exact (grid_same_map log_dynamic 1 (2 # 5) hits_at false 0 m m' g Eg)).
  apply Qle_bool_iff in Hh. assert (Hs : (s < 9 # 10)%Q).
  { apply Qnot_le_lt. intros K. apply Qle_bool_iff in K. congruence. }
  exists l, 1%Q, (2 # 5)%Q, (9 # 10)%Q, 2, 0. split; [unfold l; fits_2d|]. split; [reflexivity|]. split; [reflexivity|].
  split; [split; [reflexivity|vm_compute; discriminate]|].
  exists m. unfold to_likelihoods. rewrite Eg. cbn [Qle_bool Qnum Qden andb obind fst snd].
  eexists. exists s. split; [exact E|]. split; [reflexivity|]. split; [exact Es|]. split; [exact Hs|].
  cbn [distances f_width f_height f_at]. rewrite Gw, Gh. split; [split; lia|].
  assert (Hi : inside (g_width g) (g_height g) 2 0) by (rewrite Gw, Gh; split; lia).
  destruct (nearest_bounds (2 # 5) (Q2R 2) _ 2 0 _ ltac:(reflexivity) ltac:(unfold Q2R; cbn; lra) (brute_transforms (2 # 5) 2%Q (9 # 10) g 2 0 ltac:(reflexivity) ltac:(reflexivity) Hi)) as [_ B].
  rewrite (proj2 B) by (split; [exact Hi|exact Hh]). apply likelihood_zero.
Qed.
Print Assumptions C83_position_refuted.

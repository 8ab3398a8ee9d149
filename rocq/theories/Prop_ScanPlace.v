(** C94: where the points of a scan are scored. *)
From Coq Require Import QArith Reals Lra Lia List Floats.SpecFloat.
From Flocq Require Import Core BinarySingleNaN.
From Verif Require Import Base IndexModel MapModel BackendModel SysModel SysSpec SysFacts ExtentModel JetModel JetSpec ResidualModel MatchModel MatchSpec RigidSpec RoundModel FloatModel FloatFacts
  FloatIndexFacts ObjFloatModel ObjFloatSpec ObjFloatFacts HypotFloatFacts StepFloatModel StepFloatSpec StepFloatFacts MoveFloatModel MoveFloatSpec MoveFloatFacts ScanPlaceSpec ScanPlaceFacts GaussFacts CloudSamples
  OddsModel OddsSpec OddsFloatModel OddsFloatSpec Prop_OddsFloat Prop_StepFloat Prop_MoveFloat.
Import ListNotations.
Open Scope R_scope.

(** Error of the motion after the updates (C93). *)
Definition drift (q : dquat) (deltas : list double) (t p : dpoint) : R :=
  ((768 * INR (length deltas) + 280) * roundoff + 48 * Rabs (size (value q) - 1)) * extent p t.

(** C94: after any number of pose updates, the index that the program computes for a moved point is that of the bundle
    into which the exact motion takes it, if it is not within the error of the motion (C93) and [M] * 2^-50 of the width of
    a bundle from the border. *)
Theorem C94_bundle (q : dquat) (deltas : list double) (t p : dpoint) (resolution : double) (bi : idx) (M : Z) :
  finite_quat q -> Rabs (size (value q) - 1) <= / 16 -> Forall finite_double deltas -> (Z.of_nat (length deltas) <= 2 ^ 45)%Z ->
  usable_point p -> usable_point t -> float_good_resolution 53 1024 resolution -> within M bi ->
  let h := real resolution / 2 in
  let exact := moved (turned (total_angle deltas) (normalised (value q))) (place t) (place p) in
  well_inside h (drift q deltas t p + IZR M * bpow radix2 (-50) * h) bi (coords exact) ->
  float_bundle_index 53 1024 (float_resolution_inv 53 1024 resolution)
    (dcoords (double_in_world (fold_left double_yaw_plus deltas q) t p)) = Ok bi.
Proof.
  intros F S A N Up Ut Hr Hw h exact In. destruct (C93_scan q deltas t p F S A N Up Ut) as [Fr D].
  apply (index_of_place resolution _ (coords exact) bi M (drift q deltas t p) Hr); [apply finite_dcoords; exact Fr|apply close_distance; exact D|exact Hw|exact In].
Qed.
Print Assumptions C94_bundle.

(** C94: in a map with any history such a point is scored by the distributions of that bundle at its exact position, up to
    the rounding of the mean, the error [eps] of the densities and their slope [L] times the error of the motion. *)
Theorem C94_score {P : Type} (c : config P) (l : list (map_action (P:=P))) (m : cmap c) (sample : P -> list double -> double) (density : P -> list R -> R)
  (eps L : R) (q : dquat) (deltas : list double) (t p : dpoint) (resolution : double) (bi : idx) (M : Z) :
  config_ok c -> dimc c = 3%nat -> fits c l -> cact_all c l (new_map c) = Ok m -> steady (stored_in c m) density (dimc c) L ->
  finite_quat q -> Rabs (size (value q) - 1) <= / 16 -> Forall finite_double deltas -> (Z.of_nat (length deltas) <= 2 ^ 45)%Z ->
  usable_point p -> usable_point t -> float_good_resolution 53 1024 resolution -> within M bi -> usable c 0 bi ->
  let h := real resolution / 2 in
  let exact := moved (turned (total_angle deltas) (normalised (value q))) (place t) (place p) in
  computes (stored_in c m) density h bi sample eps ->
  well_inside h (drift q deltas t p + IZR M * bpow radix2 (-50) * h) bi (coords exact) ->
  scored_there c sample density m eps L resolution (dcoords (double_in_world (fold_left double_yaw_plus deltas q) t p)) (coords exact) bi (drift q deltas t p).
Proof.
  intros Hc HD Hl Em HL F S A N Up Ut Hr Hw Hu h exact Hs In. destruct (C93_scan q deltas t p F S A N Up Ut) as [Fr D].
  apply (scored_near c Hc ltac:(lia) sample density eps L l m Hl Em HL resolution _ (coords exact) bi M (drift q deltas t p) Hr);
    [apply finite_dcoords; exact Fr|exact (distance_pos _ _ _ D)|apply close_distance; exact D|exact Hw|exact Hu|exact Hs|exact In].
Qed.
Print Assumptions C94_score.

(** C94 for poses given by angles. *)
Theorem C94_score_angles {P : Type} (c : config P) (l : list (map_action (P:=P))) (m : cmap c) (sample : P -> list double -> double) (density : P -> list R -> R)
  (eps L : R) (dcos dsin : double -> double) (roll pitch yaw : double) (t p : dpoint) (resolution : double) (bi : idx) (M : Z) :
  config_ok c -> dimc c = 3%nat -> fits c l -> cact_all c l (new_map c) = Ok m -> steady (stored_in c m) density (dimc c) L ->
  trig_ok dcos cos -> trig_ok dsin sin -> finite_double roll -> finite_double pitch -> finite_double yaw ->
  Rabs (real roll) <= 4 -> Rabs (real pitch) <= 4 -> Rabs (real yaw) <= 4 ->
  usable_point p -> usable_point t -> float_good_resolution 53 1024 resolution -> within M bi -> usable c 0 bi ->
  let h := real resolution / 2 in
  let exact := plus3 (rot_z (real yaw) (rot_y (real pitch) (rot_x (real roll) (place p)))) (place t) in
  let E := 2400 * (roundoff * extent p t) in
  computes (stored_in c m) density h bi sample eps ->
  well_inside h (E + IZR M * bpow radix2 (-50) * h) bi (coords exact) ->
  scored_there c sample density m eps L resolution (dcoords (double_in_world_rpy dcos dsin roll pitch yaw t p)) (coords exact) bi E.
Proof.
  intros Hc HD Hl Em HL Tc Ts Fr Fp Fy Br Bp By Up Ut Hr Hw Hu h exact E Hs In.
  destruct (C93_angles dcos dsin roll pitch yaw t p Tc Ts Fr Fp Fy Br Bp By Up Ut) as [Fx D].
  apply (scored_near c Hc ltac:(lia) sample density eps L l m Hl Em HL resolution _ (coords exact) bi M E Hr);
    [apply finite_dcoords; exact Fx|exact (distance_pos _ _ _ D)|apply close_distance; exact D|exact Hw|exact Hu|exact Hs|exact In].
Qed.
Print Assumptions C94_score_angles.

(** C94 in the plane. *)
Theorem C94_score_planar {P : Type} (c : config P) (l : list (map_action (P:=P))) (m : cmap c) (sample : P -> list double -> double) (density : P -> list R -> R)
  (eps L : R) (dcos dsin : double -> double) (angle t0 t1 p0 p1 : double) (S : R) (resolution : double) (bi : idx) (M : Z) :
  config_ok c -> dimc c = 2%nat -> fits c l -> cact_all c l (new_map c) = Ok m -> steady (stored_in c m) density (dimc c) L ->
  trig_ok dcos cos -> trig_ok dsin sin -> finite_double angle -> Rabs (real angle) <= 4 ->
  finite_double t0 -> finite_double t1 -> finite_double p0 -> finite_double p1 ->
  Rabs (real t0) <= S -> Rabs (real t1) <= S -> Rabs (real p0) <= S -> Rabs (real p1) <= S -> bpow radix2 (-1000) <= S <= bpow radix2 100 ->
  float_good_resolution 53 1024 resolution -> within M bi -> usable c 0 bi ->
  let h := real resolution / 2 in
  let exact := [cos (real angle) * real p0 - sin (real angle) * real p1 + real t0; sin (real angle) * real p0 + cos (real angle) * real p1 + real t1] in
  let E := 18 * (roundoff * S) in
  computes (stored_in c m) density h bi sample eps ->
  well_inside h (E + IZR M * bpow radix2 (-50) * h) bi exact ->
  let r := double_in_world_2d dcos dsin angle t0 t1 p0 p1 in
  scored_there c sample density m eps L resolution [fst r; snd r] exact bi E.
Proof.
  intros Hc HD Hl Em HL Tc Ts Fa Ba Ft0 Ft1 Fp0 Fp1 Bt0 Bt1 Bp0 Bp1 BS Hr Hw Hu h exact E Hs In r.
  destruct (C93_planar dcos dsin angle t0 t1 p0 p1 S Tc Ts Fa Ba Ft0 Ft1 Fp0 Fp1 Bt0 Bt1 Bp0 Bp1 BS) as [F0 [F1 [D0 D1]]].
  apply (scored_near c Hc ltac:(lia) sample density eps L l m Hl Em HL resolution _ exact bi M E Hr);
    [repeat (apply Forall_cons; [assumption|]); apply Forall_nil|exact (Rle_trans _ _ _ (Rabs_pos _) D0)| |exact Hw|exact Hu|exact Hs|exact In].
  split; [reflexivity|]. intros [|[|d]] Hd; [exact D0|exact D1|cbn in Hd; lia].
Qed.
Print Assumptions C94_score_planar.

(** C94 for occupancy maps, whose cells score their density times their occupancy: the error [eps_o] of the occupancies
    (C90) and one rounding come on top. Without inverse sensor model the lookup throws. *)
Theorem C94_occupancy {P D I : Type} (c : config P) (l : list (map_action (P:=P))) (m : cmap c) (inner : P -> option D)
  (sample : D -> list double -> double) (density : D -> list R -> R) (occupancy : I -> P -> double) (occ : P -> R) (iv : I)
  (eps eps_o L : R) (q : dquat) (deltas : list double) (t p : dpoint) (resolution : double) (bi : idx) (M : Z) :
  config_ok c -> dimc c = 3%nat -> fits c l -> cact_all c l (new_map c) = Ok m -> 0 <= eps -> 0 <= eps_o -> 0 <= L ->
  steady (inside_cells c m inner) density (dimc c) L -> occupancies c m inner occ (occupancy iv) eps_o ->
  finite_quat q -> Rabs (size (value q) - 1) <= / 16 -> Forall finite_double deltas -> (Z.of_nat (length deltas) <= 2 ^ 45)%Z ->
  usable_point p -> usable_point t -> float_good_resolution 53 1024 resolution -> within M bi -> usable c 0 bi ->
  let h := real resolution / 2 in
  let exact := moved (turned (total_angle deltas) (normalised (value q))) (place t) (place p) in
  let E := drift q deltas t p in
  let lookup := float_occ_sampleNonNormalized 53 1024 c (float_resolution_inv 53 1024 resolution) inner sample occupancy m
                  (dcoords (double_in_world (fold_left double_yaw_plus deltas q) t p)) in
  computes (inside_cells c m inner) density h bi sample eps ->
  well_inside h (E + IZR M * bpow radix2 (-50) * h) bi (coords exact) ->
  lookup None = Throw /\
  exists s, lookup (Some iv) = Ok s /\ finite_double s /\
    match cbundle c m bi with
    | Ok None => real s = 0
    | Ok (Some _) => exists v, (forall k, (k < 2 ^ dimc c)%nat -> cstored c m k (generate_index bi k) = Ok (Some (v k))) /\
        Rabs (real s - mean_density (cell_density inner density occ) (2 ^ dimc c) v (coords exact)) <=
          2 * INR (2 ^ dimc c) * roundoff + (eps + eps_o + roundoff) + L * E
    | _ => False
    end.
Proof.
  intros Hc HD Hl Em He Heo HL0 HL HO F S A N Up Ut Hr Hw Hu h exact E lookup Hs In. split.
  - unfold lookup, float_occ_sampleNonNormalized, E, h, exact in *. rewrite (C94_bundle q deltas t p resolution bi M F S A N Up Ut Hr Hw In). reflexivity.
  - exact (C94_score c l m _ _ _ L q deltas t p resolution bi M Hc HD Hl Em
             (cells_steady c m inner density occupancy occ iv eps_o L _ HL0 HL HO) F S A N Up Ut Hr Hw Hu
             (cells_computed c m inner sample density occupancy occ iv eps eps_o h bi He Heo Hs HO) In).
Qed.
Print Assumptions C94_occupancy.

(** The occupancies of cells with any history of updates (C90) satisfy the assumption, [S] bounds their evidence. *)
Theorem C94_occupancies_of_updates {P D : Type} (c : config P) (m : cmap c) (inner : P -> option D) (updates : P -> list occ_update)
  (fexp : double -> double) (eps S : R) (iv : float_model) :
  formats 53 1024 53 1024 -> exp_accurate 53 1024 fexp eps -> 0 <= eps <= 1 -> moderate_model 53 1024 iv ->
  (forall v s, stored_in c m v -> inner v = Some s -> size_updates (updates v) /\ real_updates (updates v) /\ (1 <= hit_points (updates v))%Z /\
     evidence_size iv (IZR (misses (updates v))) (IZR (hit_points (updates v))) <= S) ->
  occupancies c m inner (fun v => logistic (OddsFloatSpec.evidence iv (IZR (misses (updates v))) (IZR (hit_points (updates v)))))
    (fun v => float_occ_value 53 1024 53 1024 fexp (fold_left occ_apply (updates v) occ_new) iv) (eps + roundoff * (2 * S + 6)).
Proof.
  intros Hf He Heps Mo H v s Hv Es. destruct (H v s Hv Es) as [Hs [Hr [Hp HS]]].
  split.
  { unfold logistic. pose proof (exp_pos (- OddsFloatSpec.evidence iv (IZR (misses (updates v))) (IZR (hit_points (updates v))))) as X.
    split; [left; apply Rinv_0_lt_compat; lra|]. rewrite <- Rinv_1. apply Rinv_le; lra. }
  destruct (C90_occupancy_in_unit 53 1024 53 1024 fexp eps (updates v) iv Hf He Mo Hs) as [[x [Ex Ux]] _]. injection Ex as <-.
  apply FloatScoreFacts.unit_iff in Ux. destruct Ux as [G R]. split; [exact G|]. split; [exact R|].
  eapply Rle_trans; [exact (C90_accuracy 53 1024 53 1024 fexp eps (updates v) iv Hf He Heps Mo Hr Hp)|].
  apply Rplus_le_compat_l. apply Rmult_le_compat_l; [apply bpow_ge_0|]. lra.
Qed.
Print Assumptions C94_occupancies_of_updates.

(** The densities of normal distributions (as in C58) satisfy the assumption on the slope: [L]^2 bounds the sum of the
    entries of the information matrices. *)
Theorem C94_normal_distributions {P : Type} (dim : nat) (valid : P -> bool) (mean : P -> nat -> R) (inf : P -> nat -> nat -> R) (L : R) :
  0 <= L ->
  (forall v i j, (i < dim)%nat -> (j < dim)%nat -> inf v i j = inf v j i) -> (forall v, semidefinite dim (inf v)) ->
  (forall v, rsum dim (fun j => rsum dim (fun i => Rabs (inf v i j))) <= L * L) ->
  steady (fun _ => True) (fun v a => rsample dim (valid v) (mean v) (inf v) (fun i => nth i a 0)) dim L.
Proof.
  intros HL Sym Psd HS v a b E _ La HE [_ Hab]. apply rsample_steady; auto. intros i Hi. apply Hab. lia.
Qed.
Print Assumptions C94_normal_distributions.

(** Without the margin C94 is false: the exact sum of 1 - 2^-53 and 2^-54 lies below 1, the computed one is 1. *)
Theorem C94_border_refuted : exists (q : dquat) (t p : dpoint) (resolution : double) (bi bi' : idx),
  finite_quat q /\ size (value q) = 1 /\ usable_point p /\ usable_point t /\ float_good_resolution 53 1024 resolution /\
  well_inside (real resolution / 2) 0 bi (coords (moved (value q) (place t) (place p))) /\
  float_bundle_index 53 1024 (float_resolution_inv 53 1024 resolution) (dcoords (double_in_world q t p)) = Ok bi' /\ bi' <> bi.
Proof.
  exists identity, {| dp0 := S754_finite false 4503599627370496 (-106); dp1 := double_zero; dp2 := double_zero |},
    {| dp0 := S754_finite false 9007199254740991 (-53); dp1 := double_zero; dp2 := double_zero |}, (S754_finite false 4503599627370496 (-51)), [0; 0; 0]%Z, [1; 0; 0]%Z.
  assert (One : 1 <= bpow radix2 100) by (change 1 with (bpow radix2 0); apply bpow_le; lia).
  split; [repeat split; reflexivity|]. split; [|split; [|split; [|split; [|split; [|split; [vm_compute; reflexivity|discriminate]]]]]].
  - unfold size, value, identity. cbn [qw qx qy qz dqw dqx dqy dqz]. rewrite one_real. cbn [double_zero SF2R].
    replace (1 * 1 + 0 * 0 + 0 * 0 + 0 * 0) with 1 by ring. apply sqrt_1.
  - split; [repeat split; reflexivity|]. unfold reach. cbn [dp0 dp1 dp2 double_zero SF2R cond_Zopp]. unfold F2R. cbn [Fnum Fexp].
    change (bpow radix2 (-53)) with (/ 9007199254740992). rewrite Rabs_R0, (Rmax_left 0 0) by lra. rewrite Rabs_pos_eq, Rmax_left by lra. lra.
  - split; [repeat split; reflexivity|]. unfold reach. cbn [dp0 dp1 dp2 double_zero SF2R cond_Zopp]. unfold F2R. cbn [Fnum Fexp].
    change (bpow radix2 (-106)) with (/ 81129638414606681695789005144064). rewrite Rabs_R0, (Rmax_left 0 0) by lra. rewrite Rabs_pos_eq, Rmax_left by lra. lra.
  - split; [split; reflexivity|]. split; vm_compute; discriminate.
  - unfold moved, plus3, rotate, value, identity, place. cbn [qw qx qy qz dqw dqx dqy dqz dp0 dp1 dp2]. rewrite one_real.
    cbn [double_zero SF2R cond_Zopp]. unfold F2R. cbn [Fnum Fexp].
    change (bpow radix2 (-53)) with (/ 9007199254740992). change (bpow radix2 (-106)) with (/ 81129638414606681695789005144064). change (bpow radix2 (-51)) with (/ 2251799813685248).
    split; [reflexivity|]. intros [|[|[|d]]] Hd; cbn [length nth coords] in *; [lra|lra|lra|lia].
Qed.
Print Assumptions C94_border_refuted.

(** A three-dimensional map with resolution 2 whose cells with points have the density 3/4; the tilted pose of C92, turned to
    and fro and shifted by 1/2 along each axis, takes the point (1, 0, 0) to (1/2, 3/2, 1/2) in bundle (0, 1, 0). *)
Definition three_quarters (v : list Z) (_ : list double) : double := match v with [] => double_zero | _ => S754_finite false 6755399441055744 (-53) end.
Definition level (v : list Z) (_ : list R) : R := match v with [] => 0 | _ => 3 / 4 end.
Definition hall : list (map_action (P:=list Z)) := [Modify [0; 1; 0]%Z (fun v => v ++ [5]%Z)].
Definition shift : dpoint := {| dp0 := double_half; dp1 := double_half; dp2 := double_half |}.
Definition width : double := S754_finite false 4503599627370496 (-51).
Example C94_example :
  let exact := moved (turned (total_angle [quarter; SFopp quarter]) (normalised (value tilted))) (place shift) (place ahead) in
  let x := dcoords (double_in_world (fold_left double_yaw_plus [quarter; SFopp quarter] tilted) shift ahead) in
  coords exact = [1 / 2; 3 / 2; 1 / 2] /\ real width / 2 = 1 /\
  drift tilted [quarter; SFopp quarter] shift ahead + 2 * bpow radix2 (-50) * 1 <= / 4 /\
  exists m s, cact_all log3 hall (new_map log3) = Ok m /\
    computes (stored_in log3 m) level 1 [0; 1; 0]%Z three_quarters 0 /\ steady (stored_in log3 m) level 3 0 /\
    scored_there log3 three_quarters level m 0 0 width x (coords exact) [0; 1; 0]%Z (drift tilted [quarter; SFopp quarter] shift ahead) /\
    float_sampleNonNormalized 53 1024 log3 (float_resolution_inv 53 1024 width) three_quarters m x = Ok s /\ real s = 3 / 4.
Proof.
  destruct C92_example as [F [S [A _]]].
  assert (A' : Forall finite_double [quarter; SFopp quarter]) by (inversion A as [|? ? A1 A2]; inversion A2 as [|? ? A3 _]; repeat (apply Forall_cons; [assumption|]); apply Forall_nil).
  assert (Q : real quarter = / 4) by (unfold quarter; cbn [SF2R cond_Zopp]; unfold F2R; cbn [Fnum Fexp]; change (bpow radix2 (-54)) with (/ 18014398509481984); lra).
  assert (G : good_float 53 1024 quarter) by (split; reflexivity).
  assert (T : total_angle [quarter; SFopp quarter] = 0).
  { cbn [total_angle fold_right]. unfold step_angle, cut. rewrite (proj1 (opp_real _ G)), Q.
    rewrite (Rmin_right (/ 2) (/ 4)), (Rmax_right (- / 2) (/ 4)), (Rmin_right (/ 2) (- / 4)), (Rmax_right (- / 2) (- / 4)) by lra.
    rewrite asin_opp. ring. }
  intros exact x.
  assert (X : coords exact = [1 / 2; 3 / 2; 1 / 2]).
  { unfold exact. rewrite T. unfold moved, plus3, rotate, turned, normalised, value, place, shift, ahead, tilted in *.
    cbn [qw qx qy qz dqw dqx dqy dqz dp0 dp1 dp2] in *. rewrite S. replace (0 / 2) with 0 by field. rewrite cos_0, sin_0, half_real, one_real.
    cbn [double_zero SF2R coords]. repeat (f_equal; [field|]). f_equal. field. }
  assert (W : real width / 2 = 1) by (unfold width; cbn [SF2R cond_Zopp]; unfold F2R; cbn [Fnum Fexp]; change (bpow radix2 (-51)) with (/ 2251799813685248); lra).
  assert (P100 : 1 <= bpow radix2 100) by (change 1 with (bpow radix2 0); apply bpow_le; lia).
  assert (RA : reach ahead = 1).
  { unfold reach, ahead. cbn [dp0 dp1 dp2]. rewrite one_real. cbn [double_zero SF2R]. rewrite Rabs_R0, (Rmax_left 0 0), Rabs_pos_eq, Rmax_left by lra. reflexivity. }
  assert (RS : reach shift = / 2).
  { unfold reach, shift. cbn [dp0 dp1 dp2]. rewrite half_real, Rabs_pos_eq by lra. rewrite !(Rmax_left (/ 2) (/ 2)) by lra. reflexivity. }
  assert (UA : usable_point ahead) by (split; [repeat split; reflexivity|lra]). assert (US : usable_point shift) by (split; [repeat split; reflexivity|lra]).
  assert (T1000 : bpow radix2 (-1000) <= / 1024) by (change (/ 1024) with (bpow radix2 (-10)); apply bpow_le; lia).
  assert (D : drift tilted [quarter; SFopp quarter] shift ahead + 2 * bpow radix2 (-50) * 1 <= / 4).
  { unfold drift, extent, roundoff. rewrite S, RA, RS. replace (1 - 1) with 0 by ring. rewrite Rabs_R0. cbn [length INR].
    change (bpow radix2 (-53)) with (/ 9007199254740992). change (bpow radix2 (-50)) with (/ 1125899906842624). lra. }
  split; [exact X|]. split; [exact W|]. split; [exact D|].
  assert (Hl : fits log3 hall) by (unfold fits, hall; cbn [expansions]; repeat (first [apply Forall_nil | apply Forall_cons]); cbn; unfold usable; cbn; split; try reflexivity; repeat constructor; cbn; lia).
  destruct (run_spec log3 log3_ok hall Hl) as [m [Em _]].
  assert (K : (let* m := cact_all log3 hall (new_map log3) in
               float_sampleNonNormalized 53 1024 log3 (float_resolution_inv 53 1024 width) three_quarters m x) = Ok (S754_finite false 6755399441055744 (-53))).
  { unfold x. vm_compute. reflexivity. }
  rewrite Em in K. cbn [obind] in K.
  exists m. eexists. split; [exact Em|].
  assert (C : computes (stored_in log3 m) level 1 [0; 1; 0]%Z three_quarters 0).
  { intros v y _ _ _ _. destruct v; cbn [three_quarters level].
    - cbn [double_zero SF2R]. split; [split; reflexivity|]. split; [lra|]. rewrite Rminus_diag_eq, Rabs_R0 by reflexivity. lra.
    - split; [split; reflexivity|]. cbn [SF2R cond_Zopp]. unfold F2R. cbn [Fnum Fexp]. change (bpow radix2 (-53)) with (/ 9007199254740992).
      split; [lra|]. replace (_ - _) with 0 by lra. rewrite Rabs_R0. lra. }
  assert (L0 : steady (stored_in log3 m) level 3 0).
  { intros v a b E _ _ HE _. unfold level. rewrite Rminus_diag_eq, Rabs_R0 by (destruct v; reflexivity). lra. }
  split; [exact C|]. split; [exact L0|].
  split; [|split; [exact K|]].
  - apply (C94_score log3 hall m three_quarters level 0 0 tilted [quarter; SFopp quarter] shift ahead width [0; 1; 0]%Z 2 log3_ok eq_refl Hl Em L0 F); [|exact A'| |exact UA|exact US| | | | |].
    + rewrite S. replace (1 - 1) with 0 by ring. rewrite Rabs_R0. lra.
    + cbn. lia.
    + split; [split; reflexivity|]. split; vm_compute; discriminate.
    + split; [lia|]. repeat constructor; cbn; lia.
    + cbn. unfold usable. cbn. split; [reflexivity|]. repeat constructor; cbn; lia.
    + rewrite W. exact C.
    + rewrite W. fold exact. rewrite X. split; [reflexivity|]. intros [|[|[|d]]] Hd; cbn [length nth] in *; try lia; lra.
  - cbn [SF2R cond_Zopp]. unfold F2R. cbn [Fnum Fexp]. change (bpow radix2 (-53)) with (/ 9007199254740992). lra.
Qed.

(** The same map as an occupancy map whose cells with points have the occupancy 1/2: the point is scored 3/8. *)
Definition with_points (v : list Z) : option (list Z) := match v with [] => None | _ => Some v end.
Example C94_occupancy_example :
  let x := dcoords (double_in_world (fold_left double_yaw_plus [quarter; SFopp quarter] tilted) shift ahead) in
  exists m s, cact_all log3 hall (new_map log3) = Ok m /\
    occupancies log3 m with_points (fun _ => / 2) (fun _ => double_half) 0 /\
    computes (inside_cells log3 m with_points) level 1 [0; 1; 0]%Z three_quarters 0 /\ steady (inside_cells log3 m with_points) level 3 0 /\
    float_occ_sampleNonNormalized 53 1024 log3 (float_resolution_inv 53 1024 width) with_points three_quarters (fun (_ : unit) _ => double_half) m x (Some tt) = Ok s /\
    real s = 3 / 8.
Proof.
  intros x.
  assert (Hl : fits log3 hall) by (unfold fits, hall; cbn [expansions]; repeat (first [apply Forall_nil | apply Forall_cons]); cbn; unfold usable; cbn; split; try reflexivity; repeat constructor; cbn; lia).
  destruct (run_spec log3 log3_ok hall Hl) as [m [Em _]].
  assert (K : (let* m := cact_all log3 hall (new_map log3) in
               float_occ_sampleNonNormalized 53 1024 log3 (float_resolution_inv 53 1024 width) with_points three_quarters (fun (_ : unit) _ => double_half) m x (Some tt)) =
              Ok (S754_finite false 6755399441055744 (-54))) by (unfold x; vm_compute; reflexivity).
  rewrite Em in K. cbn [obind] in K. exists m. eexists. split; [exact Em|].
  split; [|split; [|split; [|split; [exact K|]]]].
  - intros v s _ _. unfold double_half. cbn [SF2R cond_Zopp]. unfold F2R. cbn [Fnum Fexp]. change (bpow radix2 (-53)) with (/ 9007199254740992).
    split; [lra|]. split; [split; reflexivity|]. split; [lra|]. replace (_ - _) with 0 by lra. rewrite Rabs_R0. lra.
  - intros v y _ _ _ _. destruct v; cbn [three_quarters level].
    + cbn [double_zero SF2R]. split; [split; reflexivity|]. split; [lra|]. rewrite Rminus_diag_eq, Rabs_R0 by reflexivity. lra.
    + split; [split; reflexivity|]. cbn [SF2R cond_Zopp]. unfold F2R. cbn [Fnum Fexp]. change (bpow radix2 (-53)) with (/ 9007199254740992).
      split; [lra|]. replace (_ - _) with 0 by lra. rewrite Rabs_R0. lra.
  - intros v a b E _ _ HE _. unfold level. rewrite Rminus_diag_eq, Rabs_R0 by (destruct v; reflexivity). lra.
  - cbn [SF2R cond_Zopp]. unfold F2R. cbn [Fnum Fexp]. change (bpow radix2 (-54)) with (/ 18014398509481984). lra.
Qed.

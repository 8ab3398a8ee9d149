(** Rounding errors of the distance of the 3D objective functions. *)
From Coq Require Import Reals Lra Lia List Floats.SpecFloat.
From Flocq Require Import Core BinarySingleNaN.
From Verif Require Import Base ResidualModel RoundModel FloatModel RoundFacts FloatFacts ObjFloatModel ObjFloatSpec ObjFloatFacts.
Import ListNotations.
Open Scope R_scope.

#[local] Instance p53 : Prec_gt_0 53. Proof. reflexivity. Qed.
#[local] Instance p1024 : Prec_lt_emax 53 1024. Proof. reflexivity. Qed.
Notation rnd := (round radix2 (FLT_exp (-1074) 53) ZnearestE).
Notation u := (bpow radix2 (-53)).
Notation eta := (bpow radix2 (-1075)).
Notation big := (bpow radix2 1000).
Notation good := (good_float 53 1024).

Lemma sqrt_round (x : double) : good x -> 0 <= real x ->
  real (SFsqrt 53 1024 x) = rnd (sqrt (real x)) /\ good (SFsqrt 53 1024 x).
Proof.
  intros [V F] P. pose proof (Bsqrt_correct 53 1024 _ _ mode_NE (SF2B x V)) as K.
  rewrite B2R_SF2B in K. destruct K as [K1 [K2 _]]. unfold round_mode in K1.
  assert (E : B2SF (Bsqrt mode_NE (SF2B x V)) = SFsqrt 53 1024 x).
  { destruct x as [s|s| |s m e]; try reflexivity; try discriminate. destruct s; [reflexivity|].
    cbn [SF2B Bsqrt]. rewrite B2SF_SF2B. cbn [SFsqrt]. destruct (SFsqrt_core_binary 53 1024 (Z.pos m) e) as [[mz ez] lz]. symmetry. apply round_aux. }
  rewrite <- E, SF2R_B2SF. split; [exact K1|]. split; [apply valid_binary_B2SF|].
  transitivity (is_finite_SF (B2SF (Bsqrt mode_NE (SF2B x V)))); [destruct (B2SF _); reflexivity|].
  rewrite is_finite_SF_B2SF, K2. destruct x as [s|s| |s m e]; try reflexivity; try discriminate. destruct s; [|reflexivity].
  exfalso. cbn [SF2R] in P. assert (F2R (Float radix2 (cond_Zopp true (Z.pos m)) e) < 0) by (apply F2R_lt_0; reflexivity). lra.
Qed.

Lemma rnd_pos (x : R) : 0 <= x -> 0 <= rnd x.
Proof. intros H. rewrite <- (rnd_0 53 1024) at 1. apply (rnd_mono 53 1024 _). exact H. Qed.

Section Hypot.
Variables x y z : double.
Hypothesis Hx : good x.
Hypothesis Hy : good y.
Hypothesis Hz : good z.
Hypothesis Bx : Rabs (real x) <= bpow radix2 98.
Hypothesis By : Rabs (real y) <= bpow radix2 98.
Hypothesis Bz : Rabs (real z) <= bpow radix2 98.
Notation a := (real x * real x + real y * real y + real z * real z).

Lemma square_small (t : R) : Rabs t <= bpow radix2 98 -> 0 <= t * t <= bpow radix2 196.
Proof.
  intros H. split; [apply Rle_0_sqr|]. replace (t * t) with (Rabs t * Rabs t) by (rewrite <- Rabs_mult; apply Rabs_pos_eq, Rle_0_sqr).
  replace (bpow radix2 196) with (bpow radix2 98 * bpow radix2 98) by (rewrite <- bpow_plus; reflexivity).
  apply Rmult_le_compat; try apply Rabs_pos; assumption.
Qed.
Lemma square_near (t : double) : good t -> Rabs (real t) <= bpow radix2 98 ->
  near (double_mul t t) (real t * real t) (u * (real t * real t) + eta) /\ 0 <= real (double_mul t t).
Proof.
  intros G B. pose proof (square_small _ B) as S. assert (L : real t * real t <= big) by (eapply Rle_trans; [apply S|apply bpow_le; lia]).
  split.
  - eapply near_weaken; [apply (near_mul _ _ _ _ _ _ (real t * real t) (near_exact _ G) (near_exact _ G))|].
    + rewrite !Rmult_0_r, (Rabs_pos_eq (real t * real t)) by apply S. lra.
    + exact L.
    + rewrite !Rmult_0_r. lra.
  - destruct (rnd_bound (real t * real t) (real t * real t)) as [O _]; [rewrite Rabs_pos_eq by apply S; lra|exact L|].
    destruct (fmul_round 53 1024 _ _ t t G G O) as [V _]. change (double_mul t t) with (fmul 53 1024 t t). rewrite V. apply rnd_pos, S.
Qed.
Lemma add_pos (s t : double) (K : R) : good s -> good t -> 0 <= real s -> 0 <= real t -> real s + real t <= big -> 0 <= real (double_add s t).
Proof.
  intros Gs Gt Ps Pt L. destruct (rnd_bound (real s + real t) (real s + real t)) as [O _]; [rewrite Rabs_pos_eq by lra; lra|exact L|].
  destruct (fadd_round 53 1024 _ _ s t Gs Gt O) as [V _]. unfold double_add. rewrite V. apply rnd_pos. lra.
Qed.
Notation sum := (double_add (double_add (double_mul x x) (double_mul y y)) (double_mul z z)).
Lemma sum_squares : near sum a (6 * (u * a) + 8 * eta) /\ 0 <= real sum.
Proof.
  destruct (square_near x Hx Bx) as [Nx Px]. destruct (square_near y Hy By) as [Ny Py]. destruct (square_near z Hz Bz) as [Nz Pz].
  pose proof (square_small _ Bx) as [Sx Tx]. pose proof (square_small _ By) as [Sy Ty]. pose proof (square_small _ Bz) as [Sz Tz].
  set (xx := real x * real x) in *. set (yy := real y * real y) in *. set (zz := real z * real z) in *.
  pose proof u_pos as U. pose proof u16 as U1. pose proof eta_pos as E0. pose proof eta_u as Eu.
  assert (M : forall t, 0 <= t -> 0 <= u * t <= / 16 * t) by (intros t P; split; [apply Rmult_le_pos; lra|apply Rmult_le_compat_r; lra]).
  pose proof (M xx Sx). pose proof (M yy Sy). pose proof (M zz Sz).
  assert (L : forall k, 0 <= k <= 100 -> k * bpow radix2 196 + 1 <= big).
  { intros k K. apply Rle_trans with (bpow radix2 203); [|apply bpow_le; lia].
    replace (bpow radix2 203) with (128 * bpow radix2 196) by (change 128 with (bpow radix2 7); rewrite <- bpow_plus; reflexivity).
    assert (1 <= bpow radix2 196) by (change 1 with (bpow radix2 0); apply bpow_le; lia).
    assert (k * bpow radix2 196 <= 100 * bpow radix2 196) by (apply Rmult_le_compat_r; lra). lra. }
  assert (N1 : near (double_add (double_mul x x) (double_mul y y)) (xx + yy) (3 * (u * (xx + yy)) + 4 * eta)).
  { eapply near_weaken; [apply (near_add _ _ _ _ _ _ (2 * (xx + yy) + 2 * eta) Nx Ny)|].
    - rewrite Rabs_pos_eq by lra. lra.
    - eapply Rle_trans; [|apply (L 10); lra]. lra.
    - replace (u * (2 * (xx + yy) + 2 * eta)) with (2 * (u * (xx + yy)) + 2 * (u * eta)) by ring.
      assert (u * eta <= / 16 * eta) by (apply Rmult_le_compat_r; lra). lra. }
  assert (P1 : 0 <= real (double_add (double_mul x x) (double_mul y y))).
  { apply add_pos; [exact 0|apply Nx|apply Ny|exact Px|exact Py|].
    pose proof (near_size _ _ _ Nx) as Zx. pose proof (near_size _ _ _ Ny) as Zy.
    rewrite !Rabs_pos_eq in Zx, Zy by assumption. eapply Rle_trans; [|apply (L 10); lra]. lra. }
  split.
  - eapply near_weaken; [apply (near_add _ _ _ _ _ _ (2 * (xx + yy + zz) + 5 * eta) N1 Nz)|].
    + rewrite Rabs_pos_eq by lra. lra.
    + eapply Rle_trans; [|apply (L 10); lra]. lra.
    + replace (u * (2 * (xx + yy + zz) + 5 * eta)) with (2 * (u * (xx + yy + zz)) + 5 * (u * eta)) by ring.
      assert (u * eta <= / 16 * eta) by (apply Rmult_le_compat_r; lra). lra.
  - apply add_pos; [exact 0|apply N1|apply Nz|exact P1|exact Pz|].
    pose proof (near_size _ _ _ N1) as Zx. pose proof (near_size _ _ _ Nz) as Zy.
    rewrite Rabs_pos_eq in Zx by assumption. rewrite (Rabs_pos_eq (real (double_mul z z))) in Zy by assumption.
    rewrite Rabs_pos_eq in Zx by lra. rewrite Rabs_pos_eq in Zy by assumption.
    eapply Rle_trans; [|apply (L 10); lra]. lra.
Qed.

Lemma sqrt_diff (v t : R) : 0 <= v -> 0 < t -> Rabs (sqrt v - sqrt t) <= Rabs (v - t) / sqrt t.
Proof.
  intros V T. pose proof (sqrt_lt_R0 t T) as P. pose proof (sqrt_pos v) as Q.
  apply Rmult_le_reg_r with (sqrt t); [exact P|]. unfold Rdiv. rewrite Rmult_assoc, Rinv_l, Rmult_1_r by lra.
  replace (v - t) with ((sqrt v - sqrt t) * (sqrt v + sqrt t)).
  - rewrite Rabs_mult. apply Rmult_le_compat_l; [apply Rabs_pos|]. rewrite Rabs_pos_eq by lra. lra.
  - transitivity (sqrt v * sqrt v - sqrt t * sqrt t); [ring|]. rewrite !sqrt_sqrt by lra. reflexivity.
Qed.

Lemma hypot_near : near (double_hypot x y z) (sqrt a) (8 * u * sqrt a + bpow radix2 (-440)) /\ sqrt a <= bpow radix2 99.
Proof.
  destruct sum_squares as [[Gs Ns] Ps]. destruct (sqrt_round sum Gs Ps) as [V G].
  pose proof (square_small _ Bx) as [Sx Tx]. pose proof (square_small _ By) as [Sy Ty]. pose proof (square_small _ Bz) as [Sz Tz].
  assert (A0 : 0 <= a) by lra. set (v := real sum) in *.
  pose proof u_pos as U. pose proof u16 as U1. pose proof eta_pos as E0. pose proof eta_u as Eu.
  assert (AB : sqrt a <= bpow radix2 99).
  { rewrite <- (sqrt_Rsqr (bpow radix2 99)) by apply bpow_ge_0. apply sqrt_le_1_alt. unfold Rsqr. rewrite <- bpow_plus.
    replace (bpow radix2 (99 + 99)) with (4 * bpow radix2 196) by (change 4 with (bpow radix2 2); rewrite <- bpow_plus; reflexivity). pose proof (bpow_gt_0 radix2 196). lra. }
  split; [|exact AB]. split; [exact G|]. unfold double_hypot. rewrite V. pose proof (rnd_error (sqrt v)) as E. rewrite (Rabs_pos_eq (sqrt v)) in E by apply sqrt_pos.
  replace (rnd (sqrt v) - sqrt a) with ((rnd (sqrt v) - sqrt v) + (sqrt v - sqrt a)) by ring.
  eapply Rle_trans; [apply Rabs_triang|]. pose proof (sqrt_pos a) as QA. pose proof (sqrt_pos v) as QV.
  assert (T440 : 8 * eta <= bpow radix2 (-440)) by (change 8 with (bpow radix2 3); rewrite <- bpow_plus; apply bpow_le; lia).
  destruct (Rle_or_lt (bpow radix2 (-900)) a) as [C|C].
  - assert (P : 0 < a) by (pose proof (bpow_gt_0 radix2 (-900)); lra). pose proof (sqrt_lt_R0 a P) as QP.
    assert (S1 : 8 * eta <= u * a * / 4).
    { apply Rle_trans with (u * bpow radix2 (-900) * / 4); [|apply Rmult_le_compat_r; [lra|apply Rmult_le_compat_l; lra]].
      change 8 with (bpow radix2 3). change (/ 4) with (bpow radix2 (-2)). rewrite <- !bpow_plus. apply bpow_le. lia. }
    pose proof (sqrt_diff v a Ps P) as D.
    assert (D' : Rabs (v - a) / sqrt a <= (6 + / 4) * (u * sqrt a)).
    { apply Rmult_le_reg_r with (sqrt a); [exact QP|]. unfold Rdiv. rewrite Rmult_assoc, Rinv_l, Rmult_1_r by lra.
      replace ((6 + / 4) * (u * sqrt a) * sqrt a) with ((6 + / 4) * (u * (sqrt a * sqrt a))) by ring. rewrite sqrt_sqrt by lra. lra. }
    assert (W : sqrt v <= 3 / 2 * sqrt a).
    { assert (u * sqrt a <= / 16 * sqrt a) by (apply Rmult_le_compat_r; lra). apply Rle_trans with (sqrt a + Rabs (sqrt v - sqrt a)); [|lra].
      pose proof (Rle_abs (sqrt v - sqrt a)). lra. }
    assert (u * sqrt v <= u * (3 / 2 * sqrt a)) by (apply Rmult_le_compat_l; lra).
    assert (0 <= u * sqrt a) by (apply Rmult_le_pos; lra). lra.
  - assert (H1 : sqrt a <= bpow radix2 (-448)).
    { rewrite <- (sqrt_Rsqr (bpow radix2 (-448))) by apply bpow_ge_0. apply sqrt_le_1_alt. unfold Rsqr. rewrite <- bpow_plus.
      apply Rle_trans with (bpow radix2 (-900)); [lra|apply bpow_le; lia]. }
    assert (H2 : sqrt v <= bpow radix2 (-448)).
    { rewrite <- (sqrt_Rsqr (bpow radix2 (-448))) by apply bpow_ge_0. apply sqrt_le_1_alt. unfold Rsqr. rewrite <- bpow_plus.
      assert (u * a <= / 16 * a) by (apply Rmult_le_compat_r; lra). pose proof (Rle_abs (v - a)).
      assert (8 * eta <= bpow radix2 (-900)) by (change 8 with (bpow radix2 3); rewrite <- bpow_plus; apply bpow_le; lia).
      assert (4 * bpow radix2 (-900) <= bpow radix2 (-448 + -448)) by (change 4 with (bpow radix2 2); rewrite <- bpow_plus; apply bpow_le; lia). lra. }
    assert (8 * bpow radix2 (-448) <= bpow radix2 (-440)) by (change 8 with (bpow radix2 3); rewrite <- bpow_plus; apply bpow_le; lia).
    assert (u * sqrt v <= / 16 * sqrt v) by (apply Rmult_le_compat_r; lra).
    assert (0 <= u * sqrt a) by (apply Rmult_le_pos; lra).
    assert (Rabs (sqrt v - sqrt a) <= 2 * bpow radix2 (-448)) by (apply Rabs_le; lra). lra.
Qed.
Lemma hypot_moderate : moderate (double_hypot x y z).
Proof.
  destruct hypot_near as [N AB]. split; [apply finite_good, N|]. pose proof (near_size _ _ _ N) as Z. rewrite (Rabs_pos_eq (sqrt a)) in Z by apply sqrt_pos.
  pose proof u16 as U1. pose proof u_pos as U. assert (u * sqrt a <= / 16 * sqrt a) by (apply Rmult_le_compat_r; [apply sqrt_pos|lra]).
  assert (bpow radix2 (-440) <= 1) by (change 1 with (bpow radix2 0); apply bpow_le; lia).
  replace (bpow radix2 100) with (2 * bpow radix2 99) by (change 2 with (bpow radix2 1); rewrite <- bpow_plus; reflexivity).
  assert (4 <= bpow radix2 99) by (change 4 with (bpow radix2 2); apply bpow_le; lia). lra.
Qed.
End Hypot.

(** ** The statements *)
Lemma one_real : real double_one = 1. Proof. exact one_val. Qed.
Lemma half_real : real double_half = / 2.
Proof. rewrite half_val. reflexivity. Qed.
Lemma moderate_one : moderate double_one.
Proof. split; [split; reflexivity|]. rewrite one_real, Rabs_R1. change 1 with (bpow radix2 0). apply bpow_le. discriminate. Qed.
Lemma moderate_zero : moderate double_zero.
Proof. split; [split; reflexivity|]. cbn [double_zero SF2R]. rewrite Rabs_R0. apply bpow_ge_0. Qed.

Lemma nlopt_accurate (w : double_weights) (scores : list double) (td rd : double) :
  weights_moderate w -> scores_ok scores -> scores <> [] -> (Z.of_nat (length scores) <= 2 ^ 50)%Z -> moderate td -> moderate rd ->
  let n := INR (length scores) in
  let fi := double_apply w scores td rd in
  let score := double_mapScore w fi td rd in
  finite_double fi /\
  Rabs (real fi - (real (dw_map w) * (1 - mean scores) + penalty w td rd))
    <= (n + 16) * roundoff * (real (dw_map w) + penalty_size w td rd) /\
  finite_double score /\
  Rabs (real score - mean scores) <= (n + 40) * roundoff * (1 + penalty_size w td rd / real (dw_map w)).
Proof.
  intros Hw Hs Hne Hn Ht Hr n fi score. pose proof (wm_pos w Hw) as W.
  pose proof (apply_near w scores td rd Hw Hs Hne Hn Ht Hr) as F. pose proof (score_near w scores td rd Hw Hs Hne Hn Ht Hr fi F) as G.
  pose proof (costs_mean scores Hne) as M. rewrite M in *.
  split; [apply finite_good, F|]. split; [|split; [apply finite_good, G|]].
  - unfold penalty, penalty_size, roundoff. rewrite <- !Rplus_assoc. apply F.
  - replace (mean scores) with (1 - (1 - mean scores)) by ring. unfold penalty_size, roundoff.
    replace (1 + _ / real (dw_map w)) with ((real (dw_map w) + Rabs (real (dw_translation w) * real td) + Rabs (real (dw_rotation w) * real rd)) / real (dw_map w)) by (field; lra).
    apply G.
Qed.
Lemma alglib_accurate (w : double_weights) (scores rest : list double) :
  weights_moderate w -> scores_ok scores -> scores <> [] -> (Z.of_nat (length scores) <= 2 ^ 50)%Z ->
  let n := INR (length scores) in
  let fi := double_alglib_points w scores in
  let score := double_alglib_score w (length scores) (fi ++ rest) in
  length fi = length scores /\
  (forall i s v, nth_error scores i = Some s -> nth_error fi i = Some v ->
     finite_double v /\ Rabs (real v - real (dw_map w) * (1 - real s) / n) <= 7 * roundoff * (real (dw_map w) / n)) /\
  finite_double score /\ Rabs (real score - mean scores) <= (5 * n + 20) * roundoff.
Proof.
  intros Hw Hs Hne Hn n fi score. assert (H1 : (1 <= length scores)%nat) by (destruct scores; [contradiction|cbn; lia]).
  pose proof (alglib_near w scores rest Hw Hs Hne Hn) as K.
  split; [apply map_length|]. split; [|split; [apply finite_good, K|apply K]].
  intros i s v Es Ev. unfold fi, double_alglib_points in Ev. rewrite nth_error_map, Es in Ev. cbn [option_map] in Ev. injection Ev as <-.
  pose proof (proj1 (Forall_forall _ _) Hs s (nth_error_In _ _ Es)) as [V R].
  pose proof (entry_near w (length scores) Hw H1 Hn s V R) as N. split; [apply finite_good, N|].
  unfold roundoff, Rdiv, n. rewrite (Rmult_assoc 7). apply N.
Qed.
Lemma distance_accurate (x y z : double) :
  finite_double x -> finite_double y -> finite_double z ->
  Rabs (real x) <= bpow radix2 98 -> Rabs (real y) <= bpow radix2 98 -> Rabs (real z) <= bpow radix2 98 ->
  let exact := sqrt (real x * real x + real y * real y + real z * real z) in
  moderate (double_hypot x y z) /\ Rabs (real (double_hypot x y z) - exact) <= 8 * roundoff * exact + bpow radix2 (-440).
Proof.
  intros Fx Fy Fz Bx By Bz. apply finite_good in Fx, Fy, Fz. split; [apply hypot_moderate; assumption|].
  apply (hypot_near x y z Fx Fy Fz Bx By Bz).
Qed.

(** ** Exact zeros *)
Definition is_zero (x : double) : Prop := exists s, x = S754_zero s.
Lemma zero_of (x : double) : good x -> real x = 0 -> is_zero x.
Proof.
  intros [_ F] E. destruct x as [s|s| |s m e]; try discriminate; [exists s; reflexivity|].
  cbn [SF2R] in E. apply eq_0_F2R in E. destruct s; discriminate.
Qed.
Lemma mul_zero (x y : double) : good x -> is_zero y -> is_zero (double_mul x y).
Proof. intros [_ F] [s ->]. destruct x; try discriminate; eexists; reflexivity. Qed.
Lemma div_zero (x y : double) : is_zero x -> good y -> real y <> 0 -> is_zero (double_div x y).
Proof. intros [s ->] [_ F] N. destruct y; try discriminate; [cbn in N; lra|]. eexists. reflexivity. Qed.
Lemma add_zero (x y : double) : is_zero x -> is_zero y -> is_zero (double_add x y).
Proof. intros [s ->] [t ->]. unfold double_add, fadd. cbn [SFadd]. destruct (Bool.eqb s t); eexists; reflexivity. Qed.
Lemma sub_zero (x y : double) : is_zero x -> is_zero y -> is_zero (double_sub x y).
Proof. intros [s ->] [t ->]. unfold double_sub, fsub. cbn [SFsub]. destruct (Bool.eqb s (negb t)); eexists; reflexivity. Qed.
Lemma perfect_scan (w : double_weights) (scores : list double) (td rd : double) :
  finite_double (dw_translation w) -> finite_double (dw_rotation w) -> finite_double (dw_map w) -> real (dw_map w) <> 0 ->
  scores <> [] -> (Z.of_nat (length scores) <= 2 ^ 50)%Z -> Forall (fun s => s = double_one) scores ->
  finite_double td -> finite_double rd -> real td = 0 -> real rd = 0 ->
  finite_double (double_apply w scores td rd) /\ real (double_apply w scores td rd) = 0 /\
  double_mapScore w (double_apply w scores td rd) td rd = double_one.
Proof.
  intros Gt Gr Gm Nm Hne Hn Hs Ft Fr Et Er. apply finite_good in Gt, Gr, Gm, Ft, Fr.
  assert (H1 : (1 <= length scores)%nat) by (destruct scores; [contradiction|cbn; lia]).
  destruct (size_exact (length scores) ltac:(lia)) as [Z Gz].
  assert (Zt : is_zero (double_mul (dw_translation w) td)) by (apply mul_zero; [exact Gt|apply zero_of; assumption]).
  assert (Zr : is_zero (double_mul (dw_rotation w) (SFabs rd))).
  { apply mul_zero; [exact Gr|]. destruct (zero_of rd Fr Er) as [s ->]. eexists. reflexivity. }
  assert (Zs : forall acc, is_zero acc -> is_zero (fold_left (fun fi s => double_add fi (double_cost s)) scores acc)).
  { clear - Hs. induction Hs as [|s l -> _ IH]; intros acc A; [exact A|]. cbn [fold_left]. apply IH, add_zero; [exact A|]. exists false. vm_compute. reflexivity. }
  assert (Zf : is_zero (double_apply w scores td rd)).
  { unfold double_apply. apply add_zero; [apply add_zero; [|exact Zt]|exact Zr].
    apply div_zero; [apply mul_zero; [exact Gm|apply Zs; exists false; reflexivity]|exact Gz|]. rewrite Z. apply not_0_INR. lia. }
  assert (Zd : is_zero (double_div (double_sub (double_sub (double_apply w scores td rd) (double_mul (dw_translation w) td)) (double_mul (dw_rotation w) (SFabs rd))) (dw_map w))).
  { apply div_zero; [apply sub_zero; [apply sub_zero|]; assumption|exact Gm|exact Nm]. }
  destruct Zf as [s E]. split; [rewrite E; split; reflexivity|]. split; [rewrite E; reflexivity|].
  unfold double_mapScore. destruct Zd as [t ->]. destruct t; vm_compute; reflexivity.
Qed.

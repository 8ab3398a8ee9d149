(** Rounding errors of the objective functions of occupancy maps. *)
From Coq Require Import Reals Lra Lia List Floats.SpecFloat.
From Flocq Require Import Core BinarySingleNaN Plus_error.
From Verif Require Import Base ResidualModel RoundModel FloatModel RoundFacts FloatFacts ObjFloatModel ObjFloatSpec ObjFloatFacts HypotFloatFacts
  OccObjFloatModel OccObjFloatSpec.
Import ListNotations.
Open Scope R_scope.

#[local] Instance p53 : Prec_gt_0 53. Proof. reflexivity. Qed.
#[local] Instance p1024 : Prec_lt_emax 53 1024. Proof. reflexivity. Qed.
Notation rnd := (round radix2 (FLT_exp (-1074) 53) ZnearestE).
Notation u := (bpow radix2 (-53)).
Notation eta := (bpow radix2 (-1075)).
Notation big := (bpow radix2 1000).
Notation good := (good_float 53 1024).

(** ** Three dimensions: passing over a point is giving it the score 1 *)
Definition charged (s : double) : double := if double_isnormal s then s else double_one.

Lemma normal_large (s : double) : is_double s -> double_isnormal s = true -> bpow radix2 (-1022) <= Rabs (real s).
Proof.
  intros V N. destruct s as [b|b| |b m e]; try discriminate. cbn [double_isnormal] in N. apply Z.leb_le in N.
  unfold is_double in V. cbn [valid_binary] in V. unfold bounded in V.
  apply andb_prop in V. destruct V as [V1 _]. unfold canonical_mantissa in V1. apply Zeq_bool_eq in V1.
  unfold SpecFloat.fexp, SpecFloat.emin in V1. assert (E : (-1074 <= e)%Z) by lia.
  cbn [SF2R]. rewrite <- F2R_Zabs. unfold F2R. cbn [Fnum Fexp].
  replace (bpow radix2 (-1022)) with (IZR (2 ^ 52) * bpow radix2 (-1074)) by (change (IZR (2 ^ 52)) with (bpow radix2 52); rewrite <- bpow_plus; reflexivity).
  apply Rmult_le_compat; [apply IZR_le; lia|apply bpow_ge_0|apply IZR_le; destruct b; cbn; lia|apply bpow_le; exact E].
Qed.
Lemma subnormal_small (s : double) : is_double s -> double_isnormal s = false -> Rabs (real s) < bpow radix2 (-1022).
Proof.
  intros V N. destruct s as [b|b| |b m e]; cbn [SF2R]; try (rewrite Rabs_R0; apply bpow_gt_0).
  cbn [double_isnormal] in N. apply Z.leb_gt in N. unfold is_double in V. cbn [valid_binary] in V. unfold bounded in V.
  apply andb_prop in V. destruct V as [V1 V2]. unfold canonical_mantissa in V1. apply Zeq_bool_eq in V1.
  assert (D : (Z.pos (digits2_pos m) <= 52)%Z).
  { rewrite Digits.Zpos_digits2_pos. apply Digits.Zdigits_le_Zpower. cbn [Z.abs]. exact N. }
  unfold SpecFloat.fexp, SpecFloat.emin in V1. assert (e = -1074)%Z by lia. subst e.
  rewrite <- F2R_Zabs. unfold F2R. cbn [Fnum Fexp].
  replace (bpow radix2 (-1022)) with (IZR (2 ^ 52) * bpow radix2 (-1074)) by (change (IZR (2 ^ 52)) with (bpow radix2 52); rewrite <- bpow_plus; reflexivity).
  apply Rmult_lt_compat_r; [apply bpow_gt_0|]. apply IZR_lt. destruct b; cbn; lia.
Qed.
Lemma charged_real (s : double) : is_double s -> 0 <= real s ->
  real (charged s) = (if Rle_dec (bpow radix2 (-1022)) (real s) then real s else 1).
Proof.
  intros V P. unfold charged. destruct (double_isnormal s) eqn:N.
  - pose proof (normal_large s V N) as H. rewrite Rabs_pos_eq in H by exact P. destruct (Rle_dec _ _); [reflexivity|contradiction].
  - pose proof (subnormal_small s V N) as H. rewrite Rabs_pos_eq in H by exact P. destruct (Rle_dec _ _); [lra|exact one_val].
Qed.
Lemma charged_ok (l : list double) : scores_ok l -> scores_ok (map charged l).
Proof.
  induction 1 as [|s l [V H] Hl IH]; [constructor|]. constructor; [|exact IH]. unfold charged.
  destruct (double_isnormal s); [split; assumption|]. split; [reflexivity|]. rewrite one_val. lra.
Qed.
Lemma charged_mean (l : list double) : scores_ok l -> mean (map charged l) = mean_or_one l.
Proof.
  intros H. unfold mean, mean_or_one. rewrite map_length. f_equal.
  induction H as [|s l [V [P _]] Hl IH]; [reflexivity|]. cbn [map fold_right]. rewrite IH, (charged_real s V P). reflexivity.
Qed.

(** A sum is the negative zero only if both terms are. *)
Lemma negative_zero (x y : double) : good x -> good y -> Rabs (real x + real y) <= big ->
  fadd 53 1024 x y = S754_zero true -> x = S754_zero true.
Proof.
  intros [Vx Fx] [Vy Fy] H Ez.
  destruct (rnd_bound _ _ H (Rle_refl _)) as [O _].
  pose proof (Bplus_correct 53 1024 _ _ mode_NE (SF2B x Vx) (SF2B y Vy)) as K.
  rewrite !B2R_SF2B in K. unfold round_mode in K.
  rewrite Rlt_bool_true in K by exact O.
  destruct K as [K1 [K2 K3]]; [rewrite <- is_finite_SF_B2SF, B2SF_SF2B, <- is_finite_good; assumption..|].
  assert (E : B2SF (Bplus mode_NE (SF2B x Vx) (SF2B y Vy)) = fadd 53 1024 x y).
  { destruct x as [sx|sx| |sx mx ex]; destruct y as [sy|sy| |sy my ey]; try reflexivity; try discriminate.
    - unfold fadd. cbn [SF2B Bplus SFadd]. destruct (Bool.eqb sx sy); reflexivity.
    - unfold fadd. cbn [SF2B Bplus SFadd]. unfold Fplus_naive. symmetry. apply normalize_equiv. }
  rewrite Ez in E.
  assert (B0 : Bplus mode_NE (SF2B x Vx) (SF2B y Vy) = B754_zero true).
  { destruct (Bplus mode_NE (SF2B x Vx) (SF2B y Vy)); cbn in E; try discriminate. injection E as ->. reflexivity. }
  rewrite B0 in K1, K3. cbn [B2R Bsign] in K1, K3.
  assert (S0 : real x + real y = 0).
  { destruct (Req_dec (real x + real y) 0) as [S|S]; [exact S|]. exfalso.
    refine (round_plus_neq_0 radix2 (FLT_exp (-1074) 53) ZnearestE (real x) (real y) _ _ S (eq_sym K1)).
    - apply (good_format 53 1024 _). split; assumption.
    - apply (good_format 53 1024 _). split; assumption. }
  rewrite S0, Rcompare_Eq in K3 by reflexivity. symmetry in K3. apply andb_prop in K3. destruct K3 as [Sx Sy].
  destruct x as [sx|sx| |sx mx ex]; try discriminate; cbn in Sx; subst sx; [reflexivity|]. exfalso.
  assert (X : real (S754_finite true mx ex) < 0) by (cbn [SF2R]; apply F2R_lt_0; reflexivity).
  assert (Y : real y <= 0).
  { destruct y as [sy|sy| |sy my ey]; try discriminate; cbn [SF2R]; try lra. cbn in Sy. subst sy. apply Rlt_le, F2R_lt_0. reflexivity. }
  lra.
Qed.
Lemma add_nothing (x : double) : x <> S754_zero true -> double_add x (double_sub double_one double_one) = x.
Proof.
  intros H. change (double_sub double_one double_one) with (S754_zero false). destruct x as [s|s| |s m e]; try reflexivity.
  destruct s; [contradiction|reflexivity].
Qed.

Lemma occ_sum_step (l : list double) : scores_ok l -> forall (acc : double) (v : R) (k : nat),
  (Z.of_nat (k + length l) <= 2 ^ 50)%Z -> Rabs v <= INR k -> near acc v (INR k * (INR k + 4) * u) -> acc <> S754_zero true ->
  fold_left (fun fi s => if double_isnormal s then double_add fi (double_sub double_one s) else fi) l acc =
  fold_left (fun fi s => double_add fi (double_cost s)) (map charged l) acc.
Proof.
  induction 1 as [|s l [Vs Hs] Hl IH]; intros acc v k Hn Hv Ha Hz; [reflexivity|].
  cbn [fold_left map]. replace (k + length (s :: l))%nat with (S k + length l)%nat in * by (cbn [length]; lia).
  destruct (double_isnormal s) eqn:N.
  - unfold charged at 2. rewrite N.
    assert (C1 : Rabs (1 - real s) <= 1) by (apply Rabs_le; lra).
    assert (Ec : double_sub double_one s = double_cost s) by (unfold double_cost; rewrite N; reflexivity). rewrite Ec.
    pose proof (cost_near s Vs Hs) as Hc.
    pose proof (sum_step [s] ltac:(constructor; [split; assumption|constructor]) acc v k ltac:(cbn [length]; lia) Hv Ha) as K.
    cbn [fold_left costs fold_right length] in K. replace (k + 1)%nat with (S k) in K by lia. rewrite Rplus_0_r in K.
    apply (IH _ (v + (1 - real s)) (S k) Hn); [rewrite S_INR; eapply Rle_trans; [apply Rabs_triang|]; lra|exact K|].
    intros E. apply Hz. apply (negative_zero acc (double_cost s)); [apply Ha|apply Hc| |exact E].
    pose proof (near_size _ _ _ Ha) as Z1. pose proof (near_size _ _ _ Hc) as Z2. eapply Rle_trans; [apply Rabs_triang|].
    assert (Q : (INR k + 4) * u <= / 4) by (apply (count_small k 4); lia). pose proof (pos_INR k) as Pk.
    assert (Q' : INR k * (INR k + 4) * u <= INR k * / 4) by (rewrite Rmult_assoc; apply Rmult_le_compat_l; lra).
    assert (INR k <= bpow radix2 50) by (apply count_big; lia). pose proof u_pos. pose proof u16.
    apply Rle_trans with (bpow radix2 60); [|apply big_ge; lia].
    replace (bpow radix2 60) with (1024 * bpow radix2 50) by (change 1024 with (bpow radix2 10); rewrite <- bpow_plus; reflexivity).
    assert (1 <= bpow radix2 50) by (change 1 with (bpow radix2 0); apply bpow_le; lia). lra.
  - unfold charged at 2. rewrite N. change (double_cost double_one) with (double_sub double_one double_one). rewrite (add_nothing acc Hz).
    apply (IH acc v (S k) Hn); [rewrite S_INR; lra| |exact Hz].
    eapply near_weaken; [exact Ha|]. rewrite S_INR. pose proof (pos_INR k). pose proof u_pos.
    apply Rmult_le_compat_r; [lra|]. nra.
Qed.
Lemma occ_sum_charged (l : list double) : scores_ok l -> (Z.of_nat (length l) <= 2 ^ 50)%Z -> double_occ_sum l = double_sum (map charged l).
Proof.
  intros H N. apply (occ_sum_step l H double_zero 0 0%nat N).
  - cbn. rewrite Rabs_R0. lra.
  - eapply near_weaken; [apply (near_exact _ good_zero)|]. cbn. lra.
  - discriminate.
Qed.

Lemma occ_3d_accurate (w : double_weights) (scores : list double) (td rd : double) :
  weights_moderate w -> scores_ok scores -> scores <> [] -> (Z.of_nat (length scores) <= 2 ^ 50)%Z -> moderate td -> moderate rd ->
  let n := INR (length scores) in
  let fi := double_occ_apply_3d w scores td rd in
  let score := double_mapScore w fi td rd in
  finite_double fi /\
  Rabs (real fi - (real (dw_map w) * (1 - mean_or_one scores) + penalty w td rd))
    <= (n + 16) * roundoff * (real (dw_map w) + penalty_size w td rd) /\
  finite_double score /\
  Rabs (real score - mean_or_one scores) <= (n + 40) * roundoff * (1 + penalty_size w td rd / real (dw_map w)).
Proof.
  intros Hw Hs Hne Hn Ht Hr n fi score.
  pose proof (nlopt_accurate w (map charged scores) td rd Hw (charged_ok _ Hs)) as K.
  rewrite map_length, (charged_mean _ Hs) in K.
  assert (E : double_occ_apply_3d w scores td rd = double_apply w (map charged scores) td rd).
  { unfold double_occ_apply_3d, double_apply. rewrite map_length, (occ_sum_charged _ Hs Hn). reflexivity. }
  unfold score, fi, n. rewrite E. apply K; try assumption. destruct scores; [contradiction|discriminate].
Qed.

(** ** Two dimensions *)
Lemma good_half : good double_half. Proof. split; reflexivity. Qed.

Lemma u_small : 1024 * u <= / 1024.
Proof. change 1024 with (bpow radix2 10) at 1. replace (/ 1024) with (bpow radix2 (-10)) by (symmetry; change 1024 with (bpow radix2 10); rewrite <- bpow_opp; reflexivity). rewrite <- bpow_plus. apply bpow_le. lia. Qed.

Section Squares.
Variable w : double_weights.
Variable scores : list double.
Hypothesis Hw : weights_moderate w.
Hypothesis Hs : scores_ok scores.
Hypothesis Hn : (Z.of_nat (length scores) <= 2 ^ 50)%Z.
Notation wm := (real (dw_map w)).
Notation n := (INR (length scores)).
Hypothesis Hne : 1 <= n.
Notation i := (/ n).

Lemma mass_pos : 0 < wm.
Proof. destruct Hw as [_ [_ [_ H]]]. pose proof (bpow_gt_0 radix2 (-100)). lra. Qed.
Lemma mass_small : wm <= bpow radix2 100.
Proof. destruct Hw as [_ [_ [[_ H] _]]]. rewrite Rabs_pos_eq in H; [exact H|apply Rlt_le, mass_pos]. Qed.
Lemma i_bounds : bpow radix2 (-50) <= i <= 1.
Proof.
  split.
  - replace (bpow radix2 (-50)) with (/ bpow radix2 50) by (rewrite <- bpow_opp; reflexivity).
    apply Rinv_le_contravar; [lra|]. apply count_big. exact Hn.
  - rewrite <- Rinv_1. apply Rinv_le_contravar; lra.
Qed.
(** Underflow is negligible. *)
Lemma eta_small : 1024 * eta <= u * (wm * (i * i)) /\ 1024 * eta <= u * (i * i) /\ 1024 * eta <= u * i.
Proof.
  pose proof i_bounds as [I1 I2]. pose proof u_pos as U. pose proof mass_pos as W. destruct Hw as [_ [_ [_ Wl]]].
  assert (P : 0 < bpow radix2 (-50)) by apply bpow_gt_0. assert (P1 : 0 < bpow radix2 (-100)) by apply bpow_gt_0.
  assert (II : bpow radix2 (-100) <= i * i).
  { replace (bpow radix2 (-100)) with (bpow radix2 (-50) * bpow radix2 (-50)) by (rewrite <- bpow_plus; reflexivity). apply Rmult_le_compat; lra. }
  assert (G : forall x, bpow radix2 (-200) <= x -> 1024 * eta <= u * x).
  { intros x X. apply Rle_trans with (u * bpow radix2 (-200)); [|apply Rmult_le_compat_l; lra].
    change 1024 with (bpow radix2 10). rewrite <- !bpow_plus. apply bpow_le. lia. }
  split; [|split]; apply G.
  - replace (bpow radix2 (-200)) with (bpow radix2 (-100) * bpow radix2 (-100)) by (rewrite <- bpow_plus; reflexivity). apply Rmult_le_compat; lra.
  - eapply Rle_trans; [|exact II]. apply bpow_le. lia.
  - eapply Rle_trans; [|exact I1]. apply bpow_le. lia.
Qed.

(** What one point adds. *)
Notation term s := (double_mul (double_mul double_half (dw_map w)) (double_sq (double_div (double_cost s) (double_size (length scores))))).
Notation share s := (/ 2 * wm * (((1 - real s) * i) * ((1 - real s) * i))).
Lemma share_small (s : double) : 0 <= real s <= 2 -> 0 <= share s <= / 2 * (wm * (i * i)).
Proof.
  intros H. pose proof mass_pos as W. pose proof i_bounds as [I1 I2]. assert (P : 0 < bpow radix2 (-50)) by apply bpow_gt_0.
  assert (Q : 0 <= (1 - real s) * (1 - real s) <= 1) by (split; [apply Rle_0_sqr|nra]).
  assert (II : 0 <= i * i) by (apply Rmult_le_pos; lra).
  replace (share s) with (/ 2 * (wm * (i * i)) * ((1 - real s) * (1 - real s))) by ring.
  assert (0 <= / 2 * (wm * (i * i))) by (apply Rmult_le_pos; [lra|apply Rmult_le_pos; lra]). split; [apply Rmult_le_pos; lra|].
  rewrite <- (Rmult_1_r (/ 2 * (wm * (i * i)))) at 2. apply Rmult_le_compat_l; lra.
Qed.
Lemma term_near (s : double) : is_double s -> 0 <= real s <= 2 -> near (term s) (share s) (12 * (u * (wm * (i * i)))).
Proof.
  intros V H. pose proof mass_pos as W. pose proof mass_small as WB. pose proof i_bounds as [I1 I2]. pose proof u_pos as U. pose proof u_small as U1.
  pose proof eta_small as [E1 [E2 E3]]. pose proof eta_pos as E0.
  assert (P : 0 < i) by (pose proof (bpow_gt_0 radix2 (-50)); lra).
  destruct (size_exact (length scores) ltac:(lia)) as [Z Gz].
  assert (C1 : Rabs (1 - real s) <= 1) by (apply Rabs_le; lra).
  set (d := (1 - real s) * i) in *.
  assert (D1 : Rabs d <= i) by (unfold d; rewrite Rabs_mult, (Rabs_pos_eq i) by lra; rewrite <- (Rmult_1_l i) at 2; apply Rmult_le_compat_r; lra).
  assert (B1 : 4 <= big) by (pose proof big_100; lra).
  assert (N1 : near (double_div (double_cost s) (double_size (length scores))) d (5 * (u * i))).
  { replace d with ((1 - real s) / real (double_size (length scores))) by (rewrite Z; reflexivity).
    eapply near_weaken; [apply (near_div _ _ _ _ (2 * i) (cost_near s V H) Gz)|].
    - rewrite Z. lra.
    - rewrite Z. unfold Rdiv. apply Rmult_le_compat_r; lra.
    - lra.
    - rewrite Z. unfold Rdiv. lra. }
  assert (ui : 0 <= u * i <= / 1024 * i) by (split; [apply Rmult_le_pos; lra|apply Rmult_le_compat_r; lra]).
  set (ii := i * i) in *. assert (Pi : 0 < ii) by (apply Rmult_lt_0_compat; lra). assert (I3 : ii <= 1) by (unfold ii; nra).
  assert (uii : 0 <= u * ii <= / 1024 * ii) by (split; [apply Rmult_le_pos; lra|apply Rmult_le_compat_r; lra]).
  assert (D2 : Rabs (d * d) <= ii) by (rewrite Rabs_mult; apply Rmult_le_compat; try apply Rabs_pos; assumption).
  assert (X1 : Rabs d * (5 * (u * i)) <= 5 * (u * ii)).
  { replace (5 * (u * ii)) with (i * (5 * (u * i))) by (unfold ii; ring). apply Rmult_le_compat_r; lra. }
  assert (X2 : 5 * (u * i) * (5 * (u * i)) <= u * ii).
  { replace (5 * (u * i) * (5 * (u * i))) with ((25 * u) * (u * ii)) by (unfold ii; ring). rewrite <- (Rmult_1_l (u * ii)) at 2. apply Rmult_le_compat_r; lra. }
  assert (N2 : near (double_sq (double_div (double_cost s) (double_size (length scores)))) (d * d) (14 * (u * ii))).
  { eapply near_weaken; [apply (near_mul _ _ _ _ _ _ (2 * ii) N1 N1)|].
    - lra.
    - lra.
    - lra. }
  assert (Gm : good (dw_map w)) by (apply finite_good, Hw).
  assert (uw : 0 <= u * wm <= / 1024 * wm) by (split; [apply Rmult_le_pos; lra|apply Rmult_le_compat_r; lra]).
  assert (WB' : 4 * wm <= big).
  { apply Rle_trans with (bpow radix2 102); [|apply big_ge; lia]. replace (bpow radix2 102) with (4 * bpow radix2 100) by (change 4 with (bpow radix2 2); rewrite <- bpow_plus; reflexivity). lra. }
  set (wi := wm * ii) in *.
  assert (Pw : 0 < wi) by (apply Rmult_lt_0_compat; lra).
  assert (Lw : wi <= wm) by (unfold wi; rewrite <- (Rmult_1_r wm) at 2; apply Rmult_le_compat_l; lra).
  assert (uwi : 0 <= u * wi <= u * wm) by (split; [apply Rmult_le_pos; lra|apply Rmult_le_compat_l; lra]).
  assert (uwi' : u * wi <= / 1024 * wi) by (apply Rmult_le_compat_r; lra).
  assert (N3 : near (double_mul double_half (dw_map w)) (/ 2 * wm) (2 * (u * wm))).
  { rewrite <- half_real. eapply near_weaken; [apply (near_mul _ _ _ _ _ _ wm (near_exact _ good_half) (near_exact _ Gm))|].
    - rewrite half_real, !Rmult_0_r, Rabs_pos_eq by lra. lra.
    - lra.
    - rewrite !Rmult_0_r. lra. }
  replace (share s) with (/ 2 * wm * (d * d)) by (unfold d; ring).
  assert (Y1 : Rabs (/ 2 * wm) * (14 * (u * ii)) = 7 * (u * wi)) by (rewrite Rabs_pos_eq by lra; unfold wi; field).
  assert (Y2 : Rabs (d * d) * (2 * (u * wm)) <= 2 * (u * wi)).
  { replace (2 * (u * wi)) with (ii * (2 * (u * wm))) by (unfold wi; ring). apply Rmult_le_compat_r; lra. }
  assert (Y3 : 2 * (u * wm) * (14 * (u * ii)) <= u * wi).
  { replace (2 * (u * wm) * (14 * (u * ii))) with ((28 * u) * (u * wi)) by (unfold wi; ring). rewrite <- (Rmult_1_l (u * wi)) at 2. apply Rmult_le_compat_r; lra. }
  assert (Y4 : Rabs (/ 2 * wm * (d * d)) <= / 2 * wi).
  { rewrite Rabs_mult, (Rabs_pos_eq (/ 2 * wm)) by lra. replace (/ 2 * wi) with (/ 2 * wm * ii) by (unfold wi; ring). apply Rmult_le_compat_l; lra. }
  eapply near_weaken; [apply (near_mul _ _ _ _ _ _ wi N3 N2)|].
  - rewrite Y1. lra.
  - lra.
  - rewrite Y1. lra.
Qed.

Definition shares (l : list double) : R := fold_right (fun s a => share s + a) 0 l.
Lemma squares_step (l : list double) : scores_ok l -> forall (acc : double) (v : R) (k : nat),
  (k + length l <= length scores)%nat -> 0 <= v <= / 2 * (INR k * (wm * (i * i))) -> near acc v (INR k * (INR k + 14) * (u * (wm * (i * i)))) ->
  near (fold_left (fun fi s => double_add fi (term s)) l acc) (v + shares l)
       (INR (k + length l) * (INR (k + length l) + 14) * (u * (wm * (i * i)))) /\
  0 <= v + shares l <= / 2 * (INR (k + length l) * (wm * (i * i))).
Proof.
  induction 1 as [|s l [Vs Hsc] Hl IH]; intros acc v k Hk Hv Ha.
  - cbn [fold_left shares fold_right length]. rewrite Nat.add_0_r, Rplus_0_r. split; assumption.
  - cbn [fold_left]. change (shares (s :: l)) with (share s + shares l). rewrite <- Rplus_assoc.
    replace (k + length (s :: l))%nat with (S k + length l)%nat in * by (cbn [length]; lia).
    pose proof (share_small s Hsc) as Sh. pose proof (term_near s Vs Hsc) as T.
    pose proof mass_pos as W. pose proof mass_small as WB. pose proof i_bounds as [I1 I2]. pose proof u_pos as U. pose proof u_small as U1.
    pose proof eta_small as [E1 _]. pose proof eta_pos as E0. assert (P : 0 < i) by (pose proof (bpow_gt_0 radix2 (-50)); lra).
    assert (Pi : 0 < i * i <= 1) by (split; [apply Rmult_lt_0_compat; lra|nra]).
    set (wi := wm * (i * i)) in *. assert (Pw : 0 < wi) by (apply Rmult_lt_0_compat; lra).
    assert (Lw : wi <= wm) by (unfold wi; rewrite <- (Rmult_1_r wm) at 2; apply Rmult_le_compat_l; lra).
    assert (uwi : 0 <= u * wi <= / 1024 * wi) by (split; [apply Rmult_le_pos; lra|apply Rmult_le_compat_r; lra]).
    pose proof (pos_INR k) as Pk. assert (Q : (INR k + 14) * u <= / 4) by (apply (count_small k 14); lia).
    assert (kw : 0 <= INR k * wi) by (apply Rmult_le_pos; lra).
    assert (Q' : INR k * (INR k + 14) * (u * wi) <= / 4 * (INR k * wi)).
    { replace (INR k * (INR k + 14) * (u * wi)) with (((INR k + 14) * u) * (INR k * wi)) by ring. apply Rmult_le_compat_r; lra. }
    apply IH; [exact Hk|rewrite S_INR; lra|].
    eapply near_weaken; [apply (near_add _ _ _ _ _ _ ((INR k + 1) * wi) Ha T)|].
    + rewrite Rabs_pos_eq by lra. lra.
    + assert (INR k <= bpow radix2 50) by (apply count_big; lia). apply Rle_trans with (bpow radix2 160); [|apply big_ge; lia].
      replace (bpow radix2 160) with (1024 * bpow radix2 50 * bpow radix2 100) by (change 1024 with (bpow radix2 10); rewrite <- !bpow_plus; reflexivity).
      assert (1 <= bpow radix2 50) by (change 1 with (bpow radix2 0); apply bpow_le; lia). apply Rmult_le_compat; lra.
    + rewrite S_INR. replace ((INR k + 1) * (INR k + 1 + 14) * (u * wi)) with (INR k * (INR k + 14) * (u * wi) + 2 * (INR k * (u * wi)) + 15 * (u * wi)) by ring.
      replace (u * ((INR k + 1) * wi)) with (INR k * (u * wi) + u * wi) by ring.
      assert (0 <= INR k * (u * wi)) by (apply Rmult_le_pos; lra). lra.
Qed.
Lemma squares_near : near (double_occ_squares w scores) (/ 2 * wm * squared_costs scores) (15 * (u * wm)) /\
  0 <= / 2 * wm * squared_costs scores <= / 2 * wm.
Proof.
  pose proof mass_pos as W. pose proof i_bounds as [I1 I2]. pose proof u_pos as U. assert (P : 0 < i) by (pose proof (bpow_gt_0 radix2 (-50)); lra).
  destruct (squares_step scores Hs double_zero 0 0%nat) as [K1 K2].
  - cbn. lia.
  - cbn. lra.
  - eapply near_weaken; [apply (near_exact _ good_zero)|]. cbn. lra.
  - cbn [Nat.add] in *. rewrite Rplus_0_l in K1, K2.
    assert (E : shares scores = / 2 * wm * squared_costs scores).
    { unfold squared_costs. assert (G : forall l, shares l = / 2 * wm * (fold_right (fun s a => (1 - real s) * (1 - real s) + a) 0 l / (n * n))).
      { induction l as [|s l IH]; [cbn; unfold Rdiv; ring|]. change (shares (s :: l)) with (share s + shares l). rewrite IH. cbn [fold_right]. field. lra. }
      apply G. }
    rewrite E in K1, K2. assert (N1 : n * (wm * (i * i)) = wm * i) by (field; lra).
    assert (wi : wm * i <= wm) by (rewrite <- (Rmult_1_r wm) at 2; apply Rmult_le_compat_l; lra).
    split; [|rewrite N1 in K2; lra]. eapply near_weaken; [exact K1|].
    replace (n * (n + 14) * (u * (wm * (i * i)))) with (u * (wm * (1 + 14 * i))) by (field; lra).
    replace (15 * (u * wm)) with (u * (wm * 15)) by ring. apply Rmult_le_compat_l; [lra|]. apply Rmult_le_compat_l; lra.
Qed.
End Squares.

Lemma any_squares_near (w : double_weights) (scores : list double) :
  weights_moderate w -> scores_ok scores -> (Z.of_nat (length scores) <= 2 ^ 50)%Z ->
  near (double_occ_squares w scores) (/ 2 * real (dw_map w) * squared_costs scores) (15 * (u * real (dw_map w))) /\
  0 <= / 2 * real (dw_map w) * squared_costs scores <= / 2 * real (dw_map w).
Proof.
  intros Hw Hs Hn. destruct scores as [|s scores].
  - pose proof (mass_pos w Hw) as W. pose proof u_pos as U. unfold squared_costs. cbn [fold_right]. unfold Rdiv. rewrite Rmult_0_l, Rmult_0_r.
    split; [|lra]. eapply near_weaken; [apply (near_exact _ good_zero)|]. apply Rmult_le_pos; [lra|apply Rmult_le_pos; lra].
  - apply squares_near; auto. change (length (s :: scores)) with (S (length scores)). rewrite S_INR. pose proof (pos_INR (length scores)). lra.
Qed.

Lemma occ_2d_accurate (w : double_weights) (scores : list double) (dx dy rd : double) :
  weights_moderate w -> scores_ok scores -> (Z.of_nat (length scores) <= 2 ^ 50)%Z ->
  small_deviation dx -> small_deviation dy -> small_deviation rd ->
  let fi := double_occ_apply_2d w scores dx dy rd in
  finite_double fi /\ Rabs (real fi - squared_objective w scores dx dy rd) <= 16 * roundoff * squared_size w dx dy rd.
Proof.
  intros Hw Hs Hn [Fx Bx] [Fy By] [Fr Br] fi.
  apply finite_good in Fx. apply finite_good in Fy. apply finite_good in Fr.
  destruct (any_squares_near w scores Hw Hs Hn) as [N0 V0].
  pose proof (mass_pos w Hw) as W. pose proof (mass_small w Hw) as WB. pose proof u_pos as U. pose proof u_small as U1. pose proof eta_pos as E0.
  destruct (square_near dx Fx Bx) as [Nx _]. destruct (square_near dy Fy By) as [Ny _]. destruct (square_near rd Fr Br) as [Nr _].
  pose proof (square_small _ Bx) as [Sx Tx]. pose proof (square_small _ By) as [Sy Ty]. pose proof (square_small _ Br) as [Sr Tr].
  unfold squared_objective, squared_size, square. set (wm := real (dw_map w)) in *.
  set (wt := real (dw_translation w)) in *. set (wr := real (dw_rotation w)) in *.
  set (xx := real dx * real dx) in *. set (yy := real dy * real dy) in *. set (rr := real rd * real rd) in *.
  set (D := xx + yy) in *. set (A := Rabs wt * D). set (B := Rabs wr * rr). set (m := / 2 * wm * squared_costs scores) in *.
  destruct Hw as [[Ft Bt] [[Fw Bw] [_ Wl]]]. fold wt in Bt. fold wr in Bw. fold wm in Wl. apply finite_good in Ft. apply finite_good in Fw.
  assert (P100 : 1 <= bpow radix2 100) by (change 1 with (bpow radix2 0); apply bpow_le; lia).
  assert (P196 : 1 <= bpow radix2 196) by (change 1 with (bpow radix2 0); apply bpow_le; lia).
  (* underflow, also of products with the weights *)
  assert (Ew : 1024 * (bpow radix2 100 * eta) <= u * wm).
  { apply Rle_trans with (u * bpow radix2 (-100)); [|apply Rmult_le_compat_l; lra]. change 1024 with (bpow radix2 10). rewrite <- !bpow_plus. apply bpow_le. lia. }
  assert (Et : Rabs wt * eta <= bpow radix2 100 * eta) by (apply Rmult_le_compat_r; lra).
  assert (Er : Rabs wr * eta <= bpow radix2 100 * eta) by (apply Rmult_le_compat_r; lra).
  assert (Ee : eta <= bpow radix2 100 * eta) by (rewrite <- (Rmult_1_l eta) at 1; apply Rmult_le_compat_r; lra).
  pose proof (Rabs_pos wt) as Pt. pose proof (Rabs_pos wr) as Pr.
  assert (Et0 : 0 <= Rabs wt * eta) by (apply Rmult_le_pos; lra). assert (Er0 : 0 <= Rabs wr * eta) by (apply Rmult_le_pos; lra).
  assert (PD : 0 <= D) by (unfold D; lra).
  assert (PA : 0 <= A) by (apply Rmult_le_pos; lra). assert (PB : 0 <= B) by (apply Rmult_le_pos; lra).
  assert (AL : A <= 2 * bpow radix2 296).
  { replace (2 * bpow radix2 296) with (bpow radix2 100 * (2 * bpow radix2 196)) by (replace (bpow radix2 296) with (bpow radix2 100 * bpow radix2 196) by (rewrite <- bpow_plus; reflexivity); ring). unfold A. apply Rmult_le_compat; unfold D; lra. }
  assert (BL : B <= bpow radix2 296).
  { replace (bpow radix2 296) with (bpow radix2 100 * bpow radix2 196) by (rewrite <- bpow_plus; reflexivity). unfold B. apply Rmult_le_compat; lra. }
  assert (WL : wm <= bpow radix2 296) by (eapply Rle_trans; [exact WB|apply bpow_le; lia]).
  assert (L : forall x, x <= 100 * bpow radix2 296 -> x <= big).
  { intros x X. eapply Rle_trans; [exact X|]. apply Rle_trans with (bpow radix2 303); [|apply bpow_le; lia].
    replace (bpow radix2 303) with (128 * bpow radix2 296) by (change 128 with (bpow radix2 7); rewrite <- bpow_plus; reflexivity). pose proof (bpow_gt_0 radix2 296). lra. }
  assert (S196 : bpow radix2 196 <= bpow radix2 296) by (apply bpow_le; lia).
  assert (uD : 0 <= u * D <= / 1024 * D) by (split; [apply Rmult_le_pos; lra|apply Rmult_le_compat_r; lra]).
  assert (uxx : 0 <= u * xx <= / 1024 * xx) by (split; [apply Rmult_le_pos; lra|apply Rmult_le_compat_r; lra]).
  assert (uyy : 0 <= u * yy <= / 1024 * yy) by (split; [apply Rmult_le_pos; lra|apply Rmult_le_compat_r; lra]).
  assert (urr : 0 <= u * rr <= / 1024 * rr) by (split; [apply Rmult_le_pos; lra|apply Rmult_le_compat_r; lra]).
  assert (uA : 0 <= u * A <= / 1024 * A) by (split; [apply Rmult_le_pos; lra|apply Rmult_le_compat_r; lra]).
  assert (uB : 0 <= u * B <= / 1024 * B) by (split; [apply Rmult_le_pos; lra|apply Rmult_le_compat_r; lra]).
  assert (uw : 0 <= u * wm <= / 1024 * wm) by (split; [apply Rmult_le_pos; lra|apply Rmult_le_compat_r; lra]).
  assert (ueta : 0 <= u * eta <= / 1024 * eta) by (split; [apply Rmult_le_pos; lra|apply Rmult_le_compat_r; lra]).
  assert (eta1 : eta <= 1) by (change 1 with (bpow radix2 0); apply bpow_le; lia).
  assert (XD : u * D = u * xx + u * yy) by (unfold D; ring).
  assert (N1 : near (double_add (double_sq dx) (double_sq dy)) D (3 * (u * D) + 4 * eta)).
  { eapply near_weaken; [apply (near_add _ _ _ _ _ _ (2 * D + 2 * eta) Nx Ny)|].
    - fold D. rewrite Rabs_pos_eq by lra. unfold D in *. lra.
    - apply L. unfold D. lra.
    - replace (u * (2 * D + 2 * eta)) with (2 * (u * D) + 2 * (u * eta)) by ring. lra. }
  assert (N2 : near (double_mul (dw_translation w) (double_add (double_sq dx) (double_sq dy))) (wt * D) (5 * (u * A) + / 100 * (u * wm))).
  { assert (X : Rabs wt * (3 * (u * D) + 4 * eta) = 3 * (u * A) + 4 * (Rabs wt * eta)) by (unfold A; ring).
    assert (Y : Rabs (wt * D) = A) by (rewrite Rabs_mult, (Rabs_pos_eq D) by lra; reflexivity).
    eapply near_weaken; [apply (near_mul _ _ _ _ _ _ (2 * A + 4 * (Rabs wt * eta)) (near_exact _ Ft) N1)|].
    - fold wt. rewrite X, Y, Rmult_0_r, Rmult_0_l. lra.
    - apply L. lra.
    - fold wt. rewrite X, Rmult_0_r, Rmult_0_l. replace (u * (2 * A + 4 * (Rabs wt * eta))) with (2 * (u * A) + u * (4 * (Rabs wt * eta))) by ring.
      assert (u * (4 * (Rabs wt * eta)) <= 4 * (Rabs wt * eta)) by (rewrite <- (Rmult_1_l (4 * (Rabs wt * eta))) at 2; apply Rmult_le_compat_r; lra). lra. }
  assert (AA : Rabs (wt * D) = A) by (rewrite Rabs_mult, (Rabs_pos_eq D) by lra; reflexivity).
  assert (BB : Rabs (wr * rr) = B) by (rewrite Rabs_mult, (Rabs_pos_eq rr) by lra; reflexivity).
  assert (N3 : near (double_add (double_occ_squares w scores) (double_mul (dw_translation w) (double_add (double_sq dx) (double_sq dy)))) (m + wt * D) (18 * (u * wm) + 7 * (u * A))).
  { eapply near_weaken; [apply (near_add _ _ _ _ _ _ (wm + 2 * A) N0 N2)|].
    - pose proof (Rabs_triang m (wt * D)) as T. rewrite AA, (Rabs_pos_eq m) in T by lra. lra.
    - apply L. lra.
    - replace (u * (wm + 2 * A)) with (u * wm + 2 * (u * A)) by ring. lra. }
  assert (N4 : near (double_mul (dw_rotation w) (double_sq rd)) (wr * rr) (3 * (u * B) + / 100 * (u * wm))).
  { assert (X : Rabs wr * (u * rr + eta) = u * B + Rabs wr * eta) by (unfold B; ring).
    eapply near_weaken; [apply (near_mul _ _ _ _ _ _ (2 * B + Rabs wr * eta) (near_exact _ Fw) Nr)|].
    - fold wr. rewrite X, BB, Rmult_0_r, Rmult_0_l. lra.
    - apply L. lra.
    - fold wr. rewrite X, Rmult_0_r, Rmult_0_l. replace (u * (2 * B + Rabs wr * eta)) with (2 * (u * B) + u * (Rabs wr * eta)) by ring.
      assert (u * (Rabs wr * eta) <= Rabs wr * eta) by (rewrite <- (Rmult_1_l (Rabs wr * eta)) at 2; apply Rmult_le_compat_r; lra). lra. }
  assert (Z : Rabs (m + wt * D + wr * rr) <= / 2 * wm + A + B).
  { pose proof (Rabs_triang (m + wt * D) (wr * rr)). pose proof (Rabs_triang m (wt * D)) as T. rewrite AA, (Rabs_pos_eq m) in T by lra. rewrite BB in *. lra. }
  assert (N5 : near (double_add (double_add (double_occ_squares w scores) (double_mul (dw_translation w) (double_add (double_sq dx) (double_sq dy))))
                (double_mul (dw_rotation w) (double_sq rd))) (m + wt * D + wr * rr) (20 * (u * wm) + 9 * (u * A) + 5 * (u * B))).
  { eapply near_weaken; [apply (near_add _ _ _ _ _ _ (wm + 2 * A + 2 * B) N3 N4)|].
    - lra.
    - apply L. lra.
    - replace (u * (wm + 2 * A + 2 * B)) with (u * wm + 2 * (u * A) + 2 * (u * B)) by ring. lra. }
  assert (N6 : near fi (/ 2 * (m + wt * D + wr * rr)) (16 * (u * (wm + A + B)))).
  { unfold fi, double_occ_apply_2d. rewrite <- half_real.
    eapply near_weaken; [apply (near_mul _ _ _ _ _ _ (wm + A + B) (near_exact _ good_half) N5)|].
    - rewrite half_real, Rmult_0_r, Rmult_0_l, Rabs_mult, (Rabs_pos_eq (/ 2)) by lra. lra.
    - apply L. lra.
    - rewrite half_real, Rmult_0_r, Rmult_0_l, (Rabs_pos_eq (/ 2)) by lra.
      replace (u * (wm + A + B)) with (u * wm + u * A + u * B) by ring. lra. }
  destruct N6 as [G N6]. split; [apply finite_good; exact G|].
  replace (/ 4 * wm * squared_costs scores + / 2 * (wt * D + wr * rr)) with (/ 2 * (m + wt * D + wr * rr)) by (unfold m; field).
  change roundoff with u. replace (16 * u * (wm + A + B)) with (16 * (u * (wm + A + B))) by ring. exact N6.
Qed.

(** Rounding errors of the objective functions. *)
From Coq Require Import Reals Lra Lia List Floats.SpecFloat.
From Flocq Require Import Core BinarySingleNaN.
From Verif Require Import Base ResidualModel RoundModel FloatModel RoundFacts FloatFacts ObjFloatModel ObjFloatSpec.
Import ListNotations.
Open Scope R_scope.

#[local] Instance p53 : Prec_gt_0 53. Proof. reflexivity. Qed.
#[local] Instance p1024 : Prec_lt_emax 53 1024. Proof. reflexivity. Qed.
Notation rnd := (round radix2 (FLT_exp (-1074) 53) ZnearestE).
Notation u := (bpow radix2 (-53)).
Notation eta := (bpow radix2 (-1075)).
Notation big := (bpow radix2 1000).
Notation good := (good_float 53 1024).

Lemma finite_good (x : double) : finite_double x <-> good x.
Proof. unfold finite_double, is_double, good_float. destruct x; reflexivity. Qed.

(** ** Approximations: [x] stands for [v] up to [e] *)
Definition near (x : double) (v e : R) : Prop := good x /\ Rabs (real x - v) <= e.

Lemma near_exact (x : double) : good x -> near x (real x) 0.
Proof. intros G. split; [exact G|]. rewrite Rminus_diag_eq by reflexivity. rewrite Rabs_R0. lra. Qed.
Lemma near_weaken (x : double) (v e e' : R) : near x v e -> e <= e' -> near x v e'.
Proof. intros [G H] L. split; [exact G|lra]. Qed.
Lemma near_pos (x : double) (v e : R) : near x v e -> 0 <= e.
Proof. intros [_ H]. eapply Rle_trans; [apply Rabs_pos|exact H]. Qed.
Lemma near_size (x : double) (v e : R) : near x v e -> Rabs (real x) <= Rabs v + e.
Proof. intros [_ H]. replace (real x) with (v + (real x - v)) by ring. eapply Rle_trans; [apply Rabs_triang|]. lra. Qed.

Lemma rnd_bound (x K : R) : Rabs x <= K -> K <= big -> Rabs (rnd x) < bpow radix2 1024 /\ Rabs (rnd x - x) <= u * K + eta.
Proof.
  intros H B. pose proof (rnd_error x) as E. pose proof (bpow_gt_0 radix2 (-53)) as U. pose proof (bpow_gt_0 radix2 (-1075)) as T.
  assert (L : u * Rabs x <= u * K) by (apply Rmult_le_compat_l; lra). split; [|lra].
  replace (rnd x) with (x + (rnd x - x)) by ring. eapply Rle_lt_trans; [apply Rabs_triang|].
  assert (u <= 1) by (change 1 with (bpow radix2 0); apply bpow_le; lia).
  assert (eta <= 1) by (change 1 with (bpow radix2 0); apply bpow_le; lia).
  assert (1 <= big) by (change 1 with (bpow radix2 0); apply bpow_le; lia).
  assert (M : u * Rabs x <= 1 * Rabs x) by (apply Rmult_le_compat_r; [apply Rabs_pos|assumption]).
  apply Rle_lt_trans with (4 * big); [lra|]. change 4 with (bpow radix2 2). rewrite <- bpow_plus. apply bpow_lt. reflexivity.
Qed.

Lemma near_add (x y : double) (a b ea eb K : R) : near x a ea -> near y b eb -> Rabs (a + b) + ea + eb <= K -> K <= big ->
  near (double_add x y) (a + b) (ea + eb + u * K + eta).
Proof.
  intros [Gx Hx] [Gy Hy] HK B.
  assert (S : Rabs (real x + real y - (a + b)) <= ea + eb).
  { replace (real x + real y - (a + b)) with ((real x - a) + (real y - b)) by ring. eapply Rle_trans; [apply Rabs_triang|]. lra. }
  assert (S' : Rabs (real x + real y) <= K).
  { replace (real x + real y) with ((a + b) + (real x + real y - (a + b))) by ring. eapply Rle_trans; [apply Rabs_triang|]. lra. }
  destruct (rnd_bound _ _ S' B) as [O E]. destruct (fadd_round 53 1024 _ _ x y Gx Gy O) as [V G].
  split; [exact G|]. unfold double_add. change (3 - 1024 - 53)%Z with (-1074)%Z in V. rewrite V.
  replace (rnd (real x + real y) - (a + b)) with ((rnd (real x + real y) - (real x + real y)) + (real x + real y - (a + b))) by ring.
  eapply Rle_trans; [apply Rabs_triang|]. lra.
Qed.
Lemma near_sub (x y : double) (a b ea eb K : R) : near x a ea -> near y b eb -> Rabs (a - b) + ea + eb <= K -> K <= big ->
  near (double_sub x y) (a - b) (ea + eb + u * K + eta).
Proof.
  intros [Gx Hx] [Gy Hy] HK B.
  assert (S : Rabs (real x - real y - (a - b)) <= ea + eb).
  { replace (real x - real y - (a - b)) with ((real x - a) - (real y - b)) by ring. unfold Rminus at 1. eapply Rle_trans; [apply Rabs_triang|]. rewrite Rabs_Ropp. lra. }
  assert (S' : Rabs (real x - real y) <= K).
  { replace (real x - real y) with ((a - b) + (real x - real y - (a - b))) by ring. eapply Rle_trans; [apply Rabs_triang|]. lra. }
  destruct (rnd_bound _ _ S' B) as [O E]. destruct (fsub_round 53 1024 _ _ x y Gx Gy O) as [V G].
  split; [exact G|]. unfold double_sub. change (3 - 1024 - 53)%Z with (-1074)%Z in V. rewrite V.
  replace (rnd (real x - real y) - (a - b)) with ((rnd (real x - real y) - (real x - real y)) + (real x - real y - (a - b))) by ring.
  eapply Rle_trans; [apply Rabs_triang|]. lra.
Qed.
Lemma near_mul (x y : double) (a b ea eb K : R) : near x a ea -> near y b eb -> Rabs (a * b) + (Rabs a * eb + Rabs b * ea + ea * eb) <= K -> K <= big ->
  near (double_mul x y) (a * b) (Rabs a * eb + Rabs b * ea + ea * eb + u * K + eta).
Proof.
  intros [Gx Hx] [Gy Hy] HK B.
  assert (S : Rabs (real x * real y - a * b) <= Rabs a * eb + Rabs b * ea + ea * eb).
  { replace (real x * real y - a * b) with ((a * (real y - b) + b * (real x - a)) + (real x - a) * (real y - b)) by ring.
    eapply Rle_trans; [apply Rabs_triang|]. apply Rplus_le_compat.
    - eapply Rle_trans; [apply Rabs_triang|]. rewrite !Rabs_mult.
      apply Rplus_le_compat; apply Rmult_le_compat_l; try apply Rabs_pos; assumption.
    - rewrite Rabs_mult. apply Rmult_le_compat; try apply Rabs_pos; assumption. }
  assert (S' : Rabs (real x * real y) <= K).
  { replace (real x * real y) with ((a * b) + (real x * real y - a * b)) by ring. eapply Rle_trans; [apply Rabs_triang|]. lra. }
  destruct (rnd_bound _ _ S' B) as [O E]. destruct (fmul_round 53 1024 _ _ x y Gx Gy O) as [V G].
  split; [exact G|]. change (double_mul x y) with (fmul 53 1024 x y). change (3 - 1024 - 53)%Z with (-1074)%Z in V. rewrite V.
  replace (rnd (real x * real y) - a * b) with ((rnd (real x * real y) - real x * real y) + (real x * real y - a * b)) by ring.
  eapply Rle_trans; [apply Rabs_triang|]. lra.
Qed.
(** By an exact number. *)
Lemma near_div (x y : double) (a ea K : R) : near x a ea -> good y -> 0 < real y -> (Rabs a + ea) / real y <= K -> K <= big ->
  near (double_div x y) (a / real y) (ea / real y + u * K + eta).
Proof.
  intros [Gx Hx] Gy Py HK B.
  assert (I : 0 < / real y) by (apply Rinv_0_lt_compat; exact Py).
  assert (S : Rabs (real x / real y - a / real y) <= ea / real y).
  { replace (real x / real y - a / real y) with ((real x - a) * / real y) by (unfold Rdiv; ring).
    rewrite Rabs_mult, (Rabs_pos_eq (/ real y)) by lra. apply Rmult_le_compat_r; lra. }
  assert (S' : Rabs (real x / real y) <= K).
  { eapply Rle_trans; [|exact HK]. unfold Rdiv. rewrite Rabs_mult, (Rabs_pos_eq (/ real y)) by lra.
    apply Rmult_le_compat_r; [lra|]. apply near_size. split; assumption. }
  destruct (rnd_bound _ _ S' B) as [O E]. destruct Gx as [Vx Fx], Gy as [Vy Fy].
  destruct (div_round x y Vx Vy Fx Fy ltac:(lra) O) as [V [G1 G2]].
  split; [split; assumption|]. rewrite V.
  replace (rnd (real x / real y) - a / real y) with ((rnd (real x / real y) - real x / real y) + (real x / real y - a / real y)) by ring.
  eapply Rle_trans; [apply Rabs_triang|]. lra.
Qed.

(** ** The parts of the objective *)
Lemma good_one : good double_one. Proof. split; reflexivity. Qed.
Lemma good_zero : good double_zero. Proof. split; reflexivity. Qed.
Lemma size_exact (n : nat) : (Z.of_nat n <= 2 ^ 53)%Z -> real (double_size n) = INR n /\ good (double_size n).
Proof.
  intros H. unfold double_size, float_of_int. rewrite INR_IZR_INZ.
  assert (F : F2R (Float radix2 (Z.of_nat n) 0) = IZR (Z.of_nat n)) by (unfold F2R; cbn; ring).
  assert (R : rnd (IZR (Z.of_nat n)) = IZR (Z.of_nat n)) by (apply (rnd_id 53 1024); apply (format_int 53 1024 _); lia).
  pose proof (normalize_round 53 1024 _ _ (Z.of_nat n) 0 false) as K. rewrite F in K. cbn [Z.sub] in K.
  change (3 - 1024 - 53)%Z with (-1074)%Z in K. rewrite R in K. apply K.
  rewrite Rabs_pos_eq by (apply IZR_le; lia). apply Rle_lt_trans with (IZR (2 ^ 53)); [apply IZR_le; exact H|].
  change (IZR (2 ^ 53)) with (bpow radix2 53). apply bpow_lt. reflexivity.
Qed.
Lemma abs_good (x : double) : good x -> real (SFabs x) = Rabs (real x) /\ good (SFabs x).
Proof.
  intros [V F]. destruct x as [s|s| |s m e]; try discriminate.
  - cbn. rewrite Rabs_R0. repeat split.
  - split; [|split; [exact V|reflexivity]]. cbn [SFabs SF2R]. rewrite <- F2R_Zabs. destruct s; reflexivity.
Qed.
(** A score that is not normal is within [2^-1022] of 0, or counts as 0. *)
Lemma not_normal (s : double) : is_double s -> double_isnormal s = false -> Rabs (real s) <= bpow radix2 (-1022).
Proof.
  intros V N. destruct s as [b|b| |b m e]; cbn [SF2R]; try (rewrite Rabs_R0; apply bpow_ge_0).
  cbn [double_isnormal] in N. apply Z.leb_gt in N. unfold is_double in V. cbn [valid_binary] in V. unfold bounded in V.
  apply andb_prop in V. destruct V as [V1 V2]. unfold canonical_mantissa in V1. apply Zeq_bool_eq in V1.
  assert (D : (Z.pos (digits2_pos m) <= 52)%Z).
  { rewrite Digits.Zpos_digits2_pos. apply Digits.Zdigits_le_Zpower. cbn [Z.abs]. exact N. }
  unfold fexp, SpecFloat.emin in V1. assert (e = -1074)%Z by lia. subst e.
  rewrite <- F2R_Zabs. unfold F2R. cbn [Fnum Fexp].
  replace (bpow radix2 (-1022)) with (IZR (2 ^ 52) * bpow radix2 (-1074)) by (change (IZR (2 ^ 52)) with (bpow radix2 52); rewrite <- bpow_plus; reflexivity).
  apply Rmult_le_compat_r; [apply bpow_ge_0|]. apply IZR_le. destruct b; cbn; lia.
Qed.
Lemma normal_good (s : double) : is_double s -> double_isnormal s = true -> good s.
Proof. intros V N. split; [exact V|]. destruct s; try discriminate. reflexivity. Qed.

Lemma u_pos : 0 < u. Proof. apply bpow_gt_0. Qed.
Lemma eta_pos : 0 < eta. Proof. apply bpow_gt_0. Qed.
Lemma eta_tiny : eta <= u * bpow radix2 (-500).
Proof. rewrite <- bpow_plus. apply bpow_le. lia. Qed.
Lemma tiny : bpow radix2 (-500) <= bpow radix2 (-400) * / 16.
Proof. change (/ 16) with (bpow radix2 (-4)). rewrite <- bpow_plus. apply bpow_le. lia. Qed.
Lemma sub_tiny : bpow radix2 (-1022) <= u * / 4.
Proof. change (/ 4) with (bpow radix2 (-2)). rewrite <- bpow_plus. apply bpow_le. lia. Qed.
Lemma eta_u : eta <= u * / 16.
Proof. change (/ 16) with (bpow radix2 (-4)). rewrite <- bpow_plus. apply bpow_le. lia. Qed.
Lemma big_ge (k : Z) : (k <= 1000)%Z -> bpow radix2 k <= big. Proof. apply bpow_le. Qed.
Lemma big_100 : 100 <= big.
Proof. apply Rle_trans with (bpow radix2 7); [|apply bpow_le; lia]. change (bpow radix2 7) with 128. lra. Qed.

Lemma cost_near (s : double) : is_double s -> 0 <= real s <= 2 -> near (double_cost s) (1 - real s) (2 * u).
Proof.
  intros V [L H]. pose proof u_pos as U. pose proof eta_u as E. pose proof sub_tiny as T. unfold double_cost.
  destruct (double_isnormal s) eqn:N.
  - pose proof (near_exact _ good_one) as A. rewrite one_val in A.
    pose proof (near_sub _ _ _ _ _ _ 1 A (near_exact _ (normal_good s V N))) as K.
    eapply near_weaken; [apply K; [|pose proof big_100; lra]|lra].
    assert (Rabs (1 - real s) <= 1) by (apply Rabs_le; lra). lra.
  - split; [exact good_one|]. rewrite one_val. replace (1 - (1 - real s)) with (real s) by ring.
    pose proof (not_normal s V N). lra.
Qed.

(** ** The sum over the points *)
Definition costs (l : list double) : R := fold_right (fun s a => (1 - real s) + a) 0 l.
Lemma costs_mean (l : list double) : l <> [] -> costs l / INR (length l) = 1 - mean l.
Proof.
  intros H. unfold mean. assert (E : costs l = INR (length l) - fold_right (fun s a => real s + a) 0 l).
  { induction l as [|s l IH]; [contradiction|]. destruct l as [|s' l'].
    - cbn. ring.
    - change (costs (s :: s' :: l')) with ((1 - real s) + costs (s' :: l')). rewrite IH by discriminate.
      change (length (s :: s' :: l')) with (S (length (s' :: l'))). rewrite S_INR. cbn [fold_right]. ring. }
  rewrite E. field. apply not_0_INR. destruct l; [contradiction|discriminate].
Qed.
Lemma costs_small (l : list double) : scores_ok l -> Rabs (costs l) <= INR (length l).
Proof.
  induction 1 as [|s l [_ Hs] Hl IH]; [cbn; rewrite Rabs_R0; lra|].
  change (costs (s :: l)) with ((1 - real s) + costs l). change (length (s :: l)) with (S (length l)). rewrite S_INR.
  assert (Rabs (1 - real s) <= 1) by (apply Rabs_le; lra). eapply Rle_trans; [apply Rabs_triang|]. lra.
Qed.
Lemma count_small (n : nat) (k : Z) : (Z.of_nat n <= 2 ^ 50)%Z -> (0 <= k <= 100)%Z -> (INR n + IZR k) * u <= / 4.
Proof.
  intros H K. assert (B : INR n + IZR k <= bpow radix2 51).
  { rewrite INR_IZR_INZ, <- plus_IZR. change (bpow radix2 51) with (IZR (2 ^ 51)). apply IZR_le. lia. }
  apply Rle_trans with (bpow radix2 51 * u); [apply Rmult_le_compat_r; [apply Rlt_le, u_pos|exact B]|].
  rewrite <- bpow_plus. change (/ 4) with (bpow radix2 (-2)). apply bpow_le. lia.
Qed.
Lemma count_big (n : nat) : (Z.of_nat n <= 2 ^ 50)%Z -> INR n <= bpow radix2 50.
Proof. intros H. rewrite INR_IZR_INZ. change (bpow radix2 50) with (IZR (2 ^ 50)). apply IZR_le. exact H. Qed.

Lemma sum_step (l : list double) : scores_ok l -> forall (acc : double) (v : R) (k : nat),
  (Z.of_nat (k + length l) <= 2 ^ 50)%Z -> Rabs v <= INR k -> near acc v (INR k * (INR k + 4) * u) ->
  near (fold_left (fun fi s => double_add fi (double_cost s)) l acc) (v + costs l)
       (INR (k + length l) * (INR (k + length l) + 4) * u).
Proof.
  induction 1 as [|s l [Vs Hs] Hl IH]; intros acc v k Hn Hv Ha.
  - cbn [fold_left costs fold_right length]. rewrite Nat.add_0_r, Rplus_0_r. exact Ha.
  - cbn [fold_left]. change (costs (s :: l)) with ((1 - real s) + costs l). rewrite <- Rplus_assoc.
    replace (k + length (s :: l))%nat with (S k + length l)%nat in * by (cbn [length]; lia).
    apply IH; [exact Hn|rewrite S_INR; eapply Rle_trans; [apply Rabs_triang|]; assert (Rabs (1 - real s) <= 1) by (apply Rabs_le; lra); lra|].
    pose proof (pos_INR k) as Pk. pose proof u_pos as U. pose proof eta_u as E.
    assert (C : (INR k + 4) * u <= / 4) by (apply (count_small k 4); lia).
    assert (Q : INR k * ((INR k + 4) * u) <= INR k * / 4) by (apply Rmult_le_compat_l; assumption).
    pose proof (cost_near s Vs Hs) as Hc.
    assert (C1 : Rabs (1 - real s) <= 1) by (apply Rabs_le; lra).
    eapply near_weaken; [apply (near_add _ _ _ _ _ _ (2 * (INR k + 1)) Ha Hc)|].
    + pose proof (Rabs_triang v (1 - real s)). assert (2 * u <= / 2) by nra. lra.
    + apply Rle_trans with (bpow radix2 60); [|apply big_ge; lia].
      assert (INR k <= bpow radix2 50) by (apply count_big; lia). replace (bpow radix2 60) with (1024 * bpow radix2 50) by (change 1024 with (bpow radix2 10); rewrite <- bpow_plus; reflexivity).
      assert (1 <= bpow radix2 50) by (change 1 with (bpow radix2 0); apply bpow_le; lia). lra.
    + rewrite S_INR. nra.
Qed.
Lemma sum_near (l : list double) : scores_ok l -> (Z.of_nat (length l) <= 2 ^ 50)%Z ->
  near (double_sum l) (costs l) (INR (length l) * (INR (length l) + 4) * u).
Proof.
  intros H N. pose proof (sum_step l H double_zero 0 0%nat N) as K. rewrite (Rplus_0_l (costs l)) in K. apply K.
  - cbn. rewrite Rabs_R0. lra.
  - eapply near_weaken; [apply (near_exact _ good_zero)|]. cbn. lra.
Qed.

(** ** [apply] and [mapScore] of the nlopt functions *)
Section Nlopt.
Variable w : double_weights.
Variable scores : list double.
Variables td rd : double.
Hypothesis Hw : weights_moderate w.
Hypothesis Hs : scores_ok scores.
Hypothesis Hne : scores <> [].
Hypothesis Hn : (Z.of_nat (length scores) <= 2 ^ 50)%Z.
Hypothesis Ht : moderate td.
Hypothesis Hr : moderate rd.
Notation n := (length scores).
Notation wm := (real (dw_map w)).
Notation wt := (real (dw_translation w)).
Notation wr := (real (dw_rotation w)).
Notation A := (Rabs (wt * real td)).
Notation B := (Rabs (wr * real rd)).
Notation S := (wm + A + B).
Notation c := (costs scores / INR n).

Lemma wm_pos : 0 < wm.
Proof. destruct Hw as [_ [_ [_ H]]]. pose proof (bpow_gt_0 radix2 (-100)). lra. Qed.
Lemma wm_small : wm <= bpow radix2 100.
Proof. destruct Hw as [_ [_ [[_ H] _]]]. rewrite Rabs_pos_eq in H; [exact H|apply Rlt_le, wm_pos]. Qed.
Lemma n_pos : 1 <= INR n.
Proof. replace 1 with (INR 1) by reflexivity. apply le_INR. destruct scores; [contradiction|cbn; lia]. Qed.
Lemma c_small : Rabs c <= 1.
Proof.
  pose proof n_pos as N. pose proof (costs_small scores Hs) as C. unfold Rdiv. rewrite Rabs_mult, (Rabs_pos_eq (/ INR n)) by (apply Rlt_le, Rinv_0_lt_compat; lra).
  apply Rmult_le_reg_r with (INR n); [lra|]. rewrite Rmult_assoc, Rinv_l by lra. lra.
Qed.
Lemma product_moderate (x y : double) : moderate x -> moderate y -> Rabs (real x * real y) <= bpow radix2 200.
Proof. intros [_ X] [_ Y]. rewrite Rabs_mult. replace (bpow radix2 200) with (bpow radix2 100 * bpow radix2 100) by (rewrite <- bpow_plus; reflexivity). apply Rmult_le_compat; try apply Rabs_pos; assumption. Qed.
Lemma A_small : 0 <= A <= bpow radix2 200.
Proof. split; [apply Rabs_pos|]. apply product_moderate; [apply Hw|exact Ht]. Qed.
Lemma B_small : 0 <= B <= bpow radix2 200.
Proof. split; [apply Rabs_pos|]. apply product_moderate; [apply Hw|exact Hr]. Qed.
Lemma S_small : 100 * S <= bpow radix2 300.
Proof.
  pose proof A_small. pose proof B_small. pose proof wm_small. assert (bpow radix2 100 <= bpow radix2 200) by (apply bpow_le; lia).
  replace (bpow radix2 300) with (1024 * (bpow radix2 90 * bpow radix2 200)) by (change 1024 with (bpow radix2 10); rewrite <- !bpow_plus; reflexivity).
  assert (1 <= bpow radix2 90) by (change 1 with (bpow radix2 0); apply bpow_le; lia). pose proof (bpow_gt_0 radix2 200). nra.
Qed.
Lemma eta_wm : 32 * eta <= u * wm.
Proof.
  destruct Hw as [_ [_ [_ H]]]. apply Rle_trans with (u * bpow radix2 (-100)).
  - change 32 with (bpow radix2 5). rewrite <- !bpow_plus. apply bpow_le. discriminate.
  - apply Rmult_le_compat_l; [apply Rlt_le, u_pos|exact H].
Qed.
Lemma moderate_good (x : double) : moderate x -> good x.
Proof. intros [H _]. apply finite_good. exact H. Qed.
Lemma small_big (x : R) : x <= 100 * S -> x <= big.
Proof. intros H. eapply Rle_trans; [exact H|]. eapply Rle_trans; [apply S_small|]. apply big_ge. lia. Qed.

(** The map part. *)
Lemma map_part : near (double_div (double_mul (dw_map w) (double_sum scores)) (double_size n)) (wm * c) ((INR n + 9) * u * wm).
Proof.
  pose proof wm_pos as W. pose proof n_pos as N. pose proof u_pos as U. pose proof eta_pos as E0. pose proof eta_wm as E.
  pose proof (sum_near scores Hs Hn) as F. pose proof (costs_small scores Hs) as C.
  destruct (size_exact n ltac:(lia)) as [Z Gz].
  assert (Q : (INR n + 4) * u <= / 4) by (apply (count_small n 4); lia).
  assert (Q' : INR n * (INR n + 4) * u <= INR n * / 4) by (rewrite Rmult_assoc; apply Rmult_le_compat_l; lra).
  assert (Gm : good (dw_map w)) by (apply moderate_good, Hw).
  assert (L : wm * (INR n * (INR n + 4) * u) <= wm * (INR n * / 4)) by (apply Rmult_le_compat_l; lra).
  assert (L' : Rabs (wm * costs scores) <= wm * INR n) by (rewrite Rabs_mult, (Rabs_pos_eq wm) by lra; apply Rmult_le_compat_l; lra).
  assert (M : near (double_mul (dw_map w) (double_sum scores)) (wm * costs scores)
                   (wm * (INR n * (INR n + 4) * u) + u * (2 * wm * INR n) + eta)).
  { eapply near_weaken; [apply (near_mul _ _ _ _ _ _ (2 * wm * INR n) (near_exact _ Gm) F)|].
    - rewrite (Rabs_pos_eq wm) by lra. nra.
    - eapply Rle_trans; [|apply (big_ge 151); lia]. replace (bpow radix2 151) with (2 * bpow radix2 100 * bpow radix2 50) by (change 2 with (bpow radix2 1); rewrite <- !bpow_plus; reflexivity).
      pose proof wm_small. pose proof (count_big n Hn). apply Rmult_le_compat; lra.
    - rewrite (Rabs_pos_eq wm) by lra. lra. }
  assert (D : forall x, x / INR n * INR n = x) by (intros x; field; lra).
  assert (I : 0 < / INR n <= 1) by (split; [apply Rinv_0_lt_compat; lra|rewrite <- Rinv_1; apply Rinv_le_contravar; lra]).
  assert (EN : eta / INR n <= eta) by (unfold Rdiv; rewrite <- (Rmult_1_r eta) at 2; apply Rmult_le_compat_l; lra).
  assert (X1 : (wm * (INR n * (INR n + 4) * u) + u * (2 * wm * INR n) + eta) / INR n = wm * ((INR n + 4) * u) + u * (2 * wm) + eta / INR n) by (field; lra).
  assert (X2 : wm * ((INR n + 4) * u) <= wm * / 4) by (apply Rmult_le_compat_l; lra).
  assert (U1 : u <= / 16) by (change (/ 16) with (bpow radix2 (-4)); apply bpow_le; lia).
  assert (X3 : u * wm <= / 16 * wm) by (apply Rmult_le_compat_r; lra).
  replace (wm * c) with (wm * costs scores / real (double_size n)) by (rewrite Z; field; lra).
  eapply near_weaken; [apply (near_div _ _ _ _ (2 * wm) M Gz)|].
  - rewrite Z. lra.
  - rewrite Z. unfold Rdiv. rewrite Rmult_plus_distr_r. change (?x * / INR n) with (x / INR n). rewrite X1.
    assert (Rabs (wm * costs scores) / INR n <= wm) by (apply Rmult_le_reg_r with (INR n); [lra|rewrite D; exact L']). lra.
  - apply small_big. pose proof A_small. pose proof B_small. lra.
  - rewrite Z, X1. nra.
Qed.
Lemma trans_part : near (double_mul (dw_translation w) td) (wt * real td) (u * A + eta).
Proof.
  assert (G : good (dw_translation w)) by (apply moderate_good, Hw).
  pose proof wm_pos. pose proof A_small. pose proof B_small.
  eapply near_weaken; [apply (near_mul _ _ _ _ _ _ A (near_exact _ G) (near_exact _ (moderate_good _ Ht)))|].
  - rewrite !Rmult_0_r. lra.
  - apply small_big. lra.
  - rewrite !Rmult_0_r. lra.
Qed.
Lemma rot_part : near (double_mul (dw_rotation w) (SFabs rd)) (wr * Rabs (real rd)) (u * B + eta).
Proof.
  assert (G : good (dw_rotation w)) by (apply moderate_good, Hw).
  destruct (abs_good rd (moderate_good _ Hr)) as [V Ga].
  pose proof wm_pos. pose proof A_small. pose proof B_small.
  assert (X : Rabs (wr * Rabs (real rd)) = B) by (rewrite !Rabs_mult, Rabs_Rabsolu; reflexivity).
  rewrite <- V at 1. eapply near_weaken; [apply (near_mul _ _ _ _ _ _ B (near_exact _ G) (near_exact _ Ga))|].
  - rewrite V, X, !Rmult_0_r. lra.
  - apply small_big. lra.
  - rewrite !Rmult_0_r. lra.
Qed.
Lemma abs_rot : Rabs (wr * Rabs (real rd)) = B.
Proof. rewrite !Rabs_mult, Rabs_Rabsolu. reflexivity. Qed.

Lemma apply_near : near (double_apply w scores td rd) (wm * c + wt * real td + wr * Rabs (real rd)) ((INR n + 16) * u * S).
Proof.
  pose proof wm_pos as W. pose proof n_pos as N. pose proof u_pos as U. pose proof eta_pos as E0. pose proof eta_wm as E.
  pose proof A_small as [PA _]. pose proof B_small as [PB _]. pose proof c_small as C.
  assert (Q : (INR n + 16) * u <= / 4) by (apply (count_small n 16); lia).
  assert (C' : Rabs (wm * c) <= wm) by (rewrite Rabs_mult, (Rabs_pos_eq wm) by lra; rewrite <- (Rmult_1_r wm) at 2; apply Rmult_le_compat_l; lra).
  assert (U1 : u <= / 16) by (change (/ 16) with (bpow radix2 (-4)); apply bpow_le; lia).
  assert (UA : 0 <= u * A <= / 16 * A) by (split; [apply Rmult_le_pos; lra|apply Rmult_le_compat_r; lra]).
  assert (UB : 0 <= u * B <= / 16 * B) by (split; [apply Rmult_le_pos; lra|apply Rmult_le_compat_r; lra]).
  assert (UW : 0 <= u * wm <= / 16 * wm) by (split; [apply Rmult_le_pos; lra|apply Rmult_le_compat_r; lra]).
  assert (QW : (INR n + 16) * u * wm <= / 4 * wm) by (apply Rmult_le_compat_r; lra).
  assert (QA : 0 <= INR n * u * A) by (apply Rmult_le_pos; [apply Rmult_le_pos; lra|lra]).
  assert (QB : 0 <= INR n * u * B) by (apply Rmult_le_pos; [apply Rmult_le_pos; lra|lra]).
  set (nuw := INR n * u * wm) in *. 
  assert (XW : forall k, (INR n + k) * u * wm = nuw + k * (u * wm)) by (intros k; unfold nuw; ring). rewrite XW in QW.
  assert (T1 : near (double_add (double_div (double_mul (dw_map w) (double_sum scores)) (double_size n)) (double_mul (dw_translation w) td))
                    (wm * c + wt * real td) (nuw + 13 * (u * wm) + 4 * (u * A))).
  { eapply near_weaken; [apply (near_add _ _ _ _ _ _ (2 * wm + 2 * A) map_part trans_part)|].
    - rewrite XW. pose proof (Rabs_triang (wm * c) (wt * real td)). lra.
    - apply small_big. lra.
    - rewrite XW. replace (u * (2 * wm + 2 * A)) with (2 * (u * wm) + 2 * (u * A)) by ring. lra. }
  unfold double_apply. eapply near_weaken; [apply (near_add _ _ _ _ _ _ (2 * wm + 2 * A + 2 * B) T1 rot_part)|].
  - pose proof (Rabs_triang (wm * c + wt * real td) (wr * Rabs (real rd))). pose proof (Rabs_triang (wm * c) (wt * real td)). rewrite abs_rot in *. lra.
  - apply small_big. lra.
  - replace ((INR n + 16) * u * S) with (nuw + 16 * (u * wm) + (INR n * u * A + 16 * (u * A)) + (INR n * u * B + 16 * (u * B))) by (unfold nuw; ring).
    replace (u * (2 * wm + 2 * A + 2 * B)) with (2 * (u * wm) + 2 * (u * A) + 2 * (u * B)) by ring. lra.
Qed.

(** [mapScore] of a value near the objective. *)
Lemma score_near (fi : double) : near fi (wm * c + wt * real td + wr * Rabs (real rd)) ((INR n + 16) * u * S) ->
  near (double_mapScore w fi td rd) (1 - c) ((INR n + 40) * u * (S / wm)).
Proof.
  intros F. pose proof wm_pos as W. pose proof n_pos as N. pose proof u_pos as U. pose proof eta_pos as E0. pose proof eta_wm as E.
  pose proof A_small as [PA _]. pose proof B_small as [PB _]. pose proof c_small as C.
  assert (Q : (INR n + 40) * u <= / 4) by (apply (count_small n 40); lia).
  assert (C' : Rabs (wm * c) <= wm) by (rewrite Rabs_mult, (Rabs_pos_eq wm) by lra; rewrite <- (Rmult_1_r wm) at 2; apply Rmult_le_compat_l; lra).
  assert (PS : wm <= S) by lra.
  assert (U1 : u <= / 16) by (change (/ 16) with (bpow radix2 (-4)); apply bpow_le; lia).
  assert (UA : 0 <= u * A <= u * S) by (split; [apply Rmult_le_pos; lra|apply Rmult_le_compat_l; lra]).
  assert (UB : 0 <= u * B <= u * S) by (split; [apply Rmult_le_pos; lra|apply Rmult_le_compat_l; lra]).
  assert (UW : 0 <= u * wm <= u * S) by (split; [apply Rmult_le_pos; lra|apply Rmult_le_compat_l; lra]).
  assert (US : u * S <= / 16 * S) by (apply Rmult_le_compat_r; lra).
  assert (QS : (INR n + 40) * u * S <= / 4 * S) by (apply Rmult_le_compat_r; lra).
  set (nus := INR n * u * S) in *.
  assert (XS : forall k, (INR n + k) * u * S = nus + k * (u * S)) by (intros k; unfold nus; ring). rewrite XS in *.
  assert (NP : 0 <= nus) by (unfold nus; apply Rmult_le_pos; [apply Rmult_le_pos; lra|lra]).
  assert (T1 : near (double_sub fi (double_mul (dw_translation w) td)) (wm * c + wr * Rabs (real rd)) (nus + 20 * (u * S))).
  { replace (wm * c + wr * Rabs (real rd)) with (wm * c + wt * real td + wr * Rabs (real rd) - wt * real td) by ring.
    eapply near_weaken; [apply (near_sub _ _ _ _ _ _ (2 * S) F trans_part)|].
    - replace (wm * c + wt * real td + wr * Rabs (real rd) - wt * real td) with (wm * c + wr * Rabs (real rd)) by ring.
      pose proof (Rabs_triang (wm * c) (wr * Rabs (real rd))). rewrite abs_rot in *. lra.
    - apply small_big. lra.
    - replace (u * (2 * S)) with (2 * (u * S)) by ring. lra. }
  assert (T2 : near (double_sub (double_sub fi (double_mul (dw_translation w) td)) (double_mul (dw_rotation w) (SFabs rd))) (wm * c) (nus + 24 * (u * S))).
  { replace (wm * c) with (wm * c + wr * Rabs (real rd) - wr * Rabs (real rd)) by ring.
    eapply near_weaken; [apply (near_sub _ _ _ _ _ _ (2 * S) T1 rot_part)|].
    - replace (wm * c + wr * Rabs (real rd) - wr * Rabs (real rd)) with (wm * c) by ring. lra.
    - apply small_big. lra.
    - replace (u * (2 * S)) with (2 * (u * S)) by ring. lra. }
  assert (Gm : good (dw_map w)) by (apply moderate_good, Hw).
  set (r := S / wm) in *. set (nur := INR n * u * r).
  assert (R1 : 1 <= r) by (unfold r; apply Rmult_le_reg_r with wm; [lra|]; unfold Rdiv; rewrite Rmult_assoc, Rinv_l by lra; lra).
  assert (RB : 100 * r <= big).
  { apply Rle_trans with (bpow radix2 400); [|apply big_ge; lia].
    assert (I : / wm <= bpow radix2 100).
    { replace (bpow radix2 100) with (/ bpow radix2 (-100)) by (rewrite <- bpow_opp; reflexivity). apply Rinv_le_contravar; [apply bpow_gt_0|apply Hw]. }
    replace (bpow radix2 400) with (bpow radix2 300 * bpow radix2 100) by (rewrite <- bpow_plus; reflexivity).
    unfold r, Rdiv. rewrite <- Rmult_assoc. apply Rmult_le_compat; [lra|apply Rlt_le, Rinv_0_lt_compat; lra|apply S_small|exact I]. }
  assert (NR : nus / wm = nur) by (unfold nur, nus, r; field; lra).
  assert (UR : u * S / wm = u * r) by (unfold r; field; lra).
  assert (Ur : u <= u * r) by (rewrite <- (Rmult_1_r u) at 1; apply Rmult_le_compat_l; lra).
  assert (UR' : u * r <= / 16 * r) by (apply Rmult_le_compat_r; lra).
  assert (QR : nur + 40 * (u * r) <= / 4 * r).
  { replace (nur + 40 * (u * r)) with ((INR n + 40) * u * r) by (unfold nur; ring). apply Rmult_le_compat_r; lra. }
  assert (NP' : 0 <= nur) by (unfold nur; apply Rmult_le_pos; [apply Rmult_le_pos; lra|lra]).
  assert (Eu : eta <= u * / 16) by apply eta_u.
  assert (T3 : near (double_div (double_sub (double_sub fi (double_mul (dw_translation w) td)) (double_mul (dw_rotation w) (SFabs rd))) (dw_map w)) c (nur + 30 * (u * r))).
  { replace c with (wm * c / wm) by (field; lra).
    eapply near_weaken; [apply (near_div _ _ _ _ (2 * r) T2 Gm W)|].
    - apply Rmult_le_reg_r with wm; [lra|]. unfold Rdiv. rewrite Rmult_assoc, Rinv_l, Rmult_1_r by lra.
      replace (2 * r * wm) with (2 * S) by (unfold r; field; lra). lra.
    - lra.
    - replace ((nus + 24 * (u * S)) / wm) with (nur + 24 * (u * r)) by (rewrite <- NR, <- UR; field; lra).
      replace (u * (2 * r)) with (2 * (u * r)) by ring. lra. }
  unfold double_mapScore. pose proof (near_exact _ good_one) as O. rewrite one_val in O.
  eapply near_weaken; [apply (near_sub _ _ _ _ _ _ (4 * r) O T3)|].
  - assert (Rabs (1 - c) <= 2) by (apply Rabs_le; apply Rabs_le_inv in C; lra). lra.
  - lra.
  - replace ((INR n + 40) * u * r) with (nur + 40 * (u * r)) by (unfold nur; ring). replace (u * (4 * r)) with (4 * (u * r)) by ring. lra.
Qed.
End Nlopt.

(** ** The alglib functions *)
Section Alglib.
Variable w : double_weights.
Variable n : nat.
Hypothesis Hw : weights_moderate w.
Hypothesis Hn1 : (1 <= n)%nat.
Hypothesis Hn : (Z.of_nat n <= 2 ^ 50)%Z.
Notation wm := (real (dw_map w)).
Notation i := (/ INR n).

Lemma an_pos : 1 <= INR n.
Proof. replace 1 with (INR 1) by reflexivity. apply le_INR. exact Hn1. Qed.
Lemma i_pos : 0 < i <= 1.
Proof. pose proof an_pos. split; [apply Rinv_0_lt_compat; lra|rewrite <- Rinv_1; apply Rinv_le_contravar; lra]. Qed.
Lemma i_lower : bpow radix2 (-50) <= i.
Proof.
  replace (bpow radix2 (-50)) with (/ bpow radix2 50) by (rewrite <- bpow_opp; reflexivity).
  apply Rinv_le_contravar; [pose proof an_pos; lra|apply count_big; exact Hn].
Qed.
Lemma wm_inv : bpow radix2 (-100) <= / wm <= bpow radix2 100.
Proof.
  pose proof (wm_pos w Hw) as W. replace (bpow radix2 (-100)) with (/ bpow radix2 100) by (rewrite <- bpow_opp; reflexivity).
  replace (bpow radix2 100) with (/ bpow radix2 (-100)) at 2 by (rewrite <- bpow_opp; reflexivity).
  split; (apply Rinv_le_contravar; [|]).
  - exact W.
  - apply wm_small. exact Hw.
  - apply bpow_gt_0.
  - apply Hw.
Qed.
Lemma eta_i : 32 * eta <= u * i.
Proof.
  apply Rle_trans with (u * bpow radix2 (-50)).
  - change 32 with (bpow radix2 5). rewrite <- !bpow_plus. apply bpow_le. lia.
  - apply Rmult_le_compat_l; [apply Rlt_le, u_pos|apply i_lower].
Qed.
Lemma eta_wi : 32 * eta <= u * (wm * i).
Proof.
  apply Rle_trans with (u * (bpow radix2 (-100) * bpow radix2 (-50))).
  - change 32 with (bpow radix2 5). rewrite <- !bpow_plus. apply bpow_le. lia.
  - apply Rmult_le_compat_l; [apply Rlt_le, u_pos|]. apply Rmult_le_compat; try apply bpow_ge_0; [apply Hw|apply i_lower].
Qed.
Lemma eta_inv : 32 * eta <= u * / wm.
Proof.
  apply Rle_trans with (u * bpow radix2 (-100)).
  - change 32 with (bpow radix2 5). rewrite <- !bpow_plus. apply bpow_le. lia.
  - apply Rmult_le_compat_l; [apply Rlt_le, u_pos|apply wm_inv].
Qed.
Lemma u16 : u <= / 16.
Proof. change (/ 16) with (bpow radix2 (-4)). apply bpow_le. discriminate. Qed.
Lemma wm_big : 100 * wm <= big.
Proof.
  pose proof (wm_small w Hw). apply Rle_trans with (bpow radix2 107); [|apply big_ge; lia].
  replace (bpow radix2 107) with (128 * bpow radix2 100) by (change 128 with (bpow radix2 7); rewrite <- bpow_plus; reflexivity).
  pose proof (bpow_gt_0 radix2 100). lra.
Qed.

Lemma entry_near (s : double) : is_double s -> 0 <= real s <= 2 ->
  near (double_div (double_mul (dw_map w) (double_cost s)) (double_size n)) (wm * (1 - real s) * i) (7 * (u * (wm * i))).
Proof.
  intros V Hs. pose proof (wm_pos w Hw) as W. pose proof u_pos as U. pose proof eta_pos as E0. pose proof (eta_wm w Hw) as E.
  pose proof i_pos as I. pose proof eta_wi as Ei. pose proof u16 as U1. pose proof wm_big as WB.
  assert (Gm : good (dw_map w)) by (apply moderate_good, Hw).
  destruct (size_exact n ltac:(lia)) as [Z Gz].
  assert (C : Rabs (1 - real s) <= 1) by (apply Rabs_le; lra).
  assert (C' : Rabs (wm * (1 - real s)) <= wm) by (rewrite Rabs_mult, (Rabs_pos_eq wm) by lra; rewrite <- (Rmult_1_r wm) at 2; apply Rmult_le_compat_l; lra).
  assert (UW : 0 <= u * wm <= / 16 * wm) by (split; [apply Rmult_le_pos; lra|apply Rmult_le_compat_r; lra]).
  assert (M : near (double_mul (dw_map w) (double_cost s)) (wm * (1 - real s)) (4 * (u * wm) + eta)).
  { eapply near_weaken; [apply (near_mul _ _ _ _ _ _ (2 * wm) (near_exact _ Gm) (cost_near s V Hs))|].
    - rewrite (Rabs_pos_eq wm) by lra. lra.
    - lra.
    - rewrite (Rabs_pos_eq wm) by lra. lra. }
  assert (WI : 0 < wm * i) by (apply Rmult_lt_0_compat; lra).
  assert (WI1 : wm * i <= wm) by (rewrite <- (Rmult_1_r wm) at 2; apply Rmult_le_compat_l; lra).
  assert (D : (4 * (u * wm) + eta) * i <= 4 * (u * (wm * i)) + eta).
  { rewrite Rmult_plus_distr_r. assert (eta * i <= eta) by (rewrite <- (Rmult_1_r eta) at 2; apply Rmult_le_compat_l; lra). lra. }
  replace (wm * (1 - real s) * i) with (wm * (1 - real s) / real (double_size n)) by (rewrite Z; reflexivity).
  eapply near_weaken; [apply (near_div _ _ _ _ (2 * (wm * i)) M Gz)|].
  - rewrite Z. pose proof an_pos. lra.
  - rewrite Z. unfold Rdiv. replace (2 * (wm * i)) with ((2 * wm) * i) by ring. apply Rmult_le_compat_r; [lra|]. lra.
  - lra.
  - rewrite Z. unfold Rdiv. lra.
Qed.

Lemma scale_near : near (double_div double_one (dw_map w)) (/ wm) (2 * (u * / wm)).
Proof.
  pose proof (wm_pos w Hw) as W. pose proof eta_inv as E. pose proof eta_pos as E0. pose proof wm_inv as [I1 I2].
  assert (Gm : good (dw_map w)) by (apply moderate_good, Hw).
  pose proof (near_exact _ good_one) as O. rewrite one_val in O.
  replace (/ wm) with (1 / wm) at 1 by (unfold Rdiv; ring).
  eapply near_weaken; [apply (near_div _ _ _ _ (/ wm) O Gm W)|].
  - rewrite Rabs_R1. unfold Rdiv. lra.
  - eapply Rle_trans; [exact I2|]. apply big_ge. lia.
  - unfold Rdiv. rewrite Rmult_0_l. lra.
Qed.
Lemma absolute_near : near (double_div double_one (double_size n)) i (2 * (u * i)).
Proof.
  pose proof eta_i as E. pose proof eta_pos as E0. pose proof i_pos as I. pose proof an_pos as N. destruct (size_exact n ltac:(lia)) as [Z Gz].
  pose proof (near_exact _ good_one) as O. rewrite one_val in O.
  replace i with (1 / real (double_size n)) at 1 by (rewrite Z; unfold Rdiv; ring).
  eapply near_weaken; [apply (near_div _ _ _ _ i O Gz)|].
  - rewrite Z. lra.
  - rewrite Z, Rabs_R1. unfold Rdiv. lra.
  - pose proof big_100. lra.
  - rewrite Z. unfold Rdiv. rewrite Rmult_0_l. lra.
Qed.

Lemma term_near (s v : double) : is_double s -> 0 <= real s <= 2 ->
  near v (wm * (1 - real s) * i) (7 * (u * (wm * i))) ->
  near (double_sub (double_div double_one (double_size n)) (double_mul v (double_div double_one (dw_map w)))) (real s * i) (19 * (u * i)).
Proof.
  intros V Hs Hv. pose proof (wm_pos w Hw) as W. pose proof u_pos as U. pose proof eta_pos as E0. pose proof eta_i as E.
  pose proof i_pos as I. pose proof u16 as U1. pose proof big_100 as B.
  assert (UI : 0 <= u * i <= / 16 * i) by (split; [apply Rmult_le_pos; lra|apply Rmult_le_compat_r; lra]).
  assert (C : Rabs (1 - real s) <= 1) by (apply Rabs_le; lra).
  assert (UU : u * (u * i) <= / 16 * (u * i)) by (apply Rmult_le_compat_r; lra).
  assert (C' : Rabs (wm * (1 - real s) * i) <= wm * i).
  { rewrite !Rabs_mult, (Rabs_pos_eq wm), (Rabs_pos_eq i) by lra. apply Rmult_le_compat_r; [lra|]. rewrite <- (Rmult_1_r wm) at 2. apply Rmult_le_compat_l; lra. }
  assert (C2 : Rabs ((1 - real s) * i) <= i).
  { rewrite Rabs_mult, (Rabs_pos_eq i) by lra. rewrite <- (Rmult_1_l i) at 2. apply Rmult_le_compat_r; lra. }
  assert (X : Rabs (wm * (1 - real s) * i) * (2 * (u * / wm)) <= 2 * (u * i)).
  { apply Rle_trans with (wm * i * (2 * (u * / wm))); [|right; field; pose proof an_pos; repeat split; lra].
    apply Rmult_le_compat_r; [|exact C']. assert (0 < / wm) by (apply Rinv_0_lt_compat; lra). apply Rmult_le_pos; [lra|apply Rmult_le_pos; lra]. }
  assert (Y : Rabs (/ wm) * (7 * (u * (wm * i))) = 7 * (u * i)).
  { rewrite Rabs_pos_eq by (apply Rlt_le, Rinv_0_lt_compat; lra). field. pose proof an_pos. repeat split; lra. }
  assert (T : 7 * (u * (wm * i)) * (2 * (u * / wm)) = 14 * (u * (u * i))) by (field; pose proof an_pos; repeat split; lra).
  assert (P : near (double_mul v (double_div double_one (dw_map w))) ((1 - real s) * i) (13 * (u * i))).
  { replace ((1 - real s) * i) with (wm * (1 - real s) * i * / wm) by (field; pose proof an_pos; repeat split; lra).
    eapply near_weaken; [apply (near_mul _ _ _ _ _ _ (2 * i) Hv scale_near)|].
    - rewrite Y, T. replace (wm * (1 - real s) * i * / wm) with ((1 - real s) * i) by (field; pose proof an_pos; repeat split; lra). lra.
    - lra.
    - rewrite Y, T. replace (u * (2 * i)) with (2 * (u * i)) by ring. lra. }
  replace (real s * i) with (i - (1 - real s) * i) by ring.
  eapply near_weaken; [apply (near_sub _ _ _ _ _ _ (3 * i) absolute_near P)|].
  - replace (i - (1 - real s) * i) with (real s * i) by ring. rewrite Rabs_pos_eq by (apply Rmult_le_pos; lra).
    assert (real s * i <= 2 * i) by (apply Rmult_le_compat_r; lra). lra.
  - lra.
  - replace (u * (3 * i)) with (3 * (u * i)) by ring. lra.
Qed.

Definition totals (l : list double) : R := fold_right (fun s a => real s + a) 0 l.
Lemma score_step (l : list double) : scores_ok l -> forall (acc : double) (a : R) (k : nat),
  (k + length l <= n)%nat -> 0 <= a <= 2 * INR k * i -> near acc a (INR k * (19 * (u * i) + 5 * u)) ->
  near (fold_left (fun score v => double_add score (double_sub (double_div double_one (double_size n)) (double_mul v (double_div double_one (dw_map w)))))
          (map (fun s => double_div (double_mul (dw_map w) (double_cost s)) (double_size n)) l) acc)
       (a + totals l * i) (INR (k + length l) * (19 * (u * i) + 5 * u)).
Proof.
  pose proof u_pos as U. pose proof i_pos as I. pose proof eta_u as E.
  induction 1 as [|s l [Vs Hs] Hl IH]; intros acc a k Hk Ha Hacc.
  - cbn [map fold_left totals fold_right length]. rewrite Nat.add_0_r, Rmult_0_l, Rplus_0_r. exact Hacc.
  - cbn [map fold_left]. change (totals (s :: l)) with (real s + totals l). rewrite Rmult_plus_distr_r, <- Rplus_assoc.
    replace (k + length (s :: l))%nat with (S k + length l)%nat in * by (cbn [length]; lia).
    assert (SI : 0 <= real s * i <= 2 * i) by (split; [apply Rmult_le_pos; lra|apply Rmult_le_compat_r; lra]).
    apply IH; [exact Hk|rewrite S_INR; lra|].
    pose proof (term_near s _ Vs Hs (entry_near s Vs Hs)) as T.
    assert (K1 : INR (S k) <= INR n) by (apply le_INR; lia). rewrite S_INR in *. pose proof (pos_INR k) as Pk.
    assert (Q : (INR n + 20) * u <= / 4) by (apply (count_small n 20); lia).
    assert (NI : INR n * i = 1) by (field; pose proof an_pos; lra).
    assert (KI : (INR k + 1) * i <= 1) by (rewrite <- NI; apply Rmult_le_compat_r; lra).
    assert (KU : (INR k + 1) * u <= INR n * u) by (apply Rmult_le_compat_r; lra).
    assert (KUI : u * ((INR k + 1) * i) <= u * 1) by (apply Rmult_le_compat_l; lra).
    assert (UI : 0 <= u * i) by (apply Rmult_le_pos; lra).
    assert (X : (INR k + 1) * (19 * (u * i) + 5 * u) = 19 * (u * ((INR k + 1) * i)) + 5 * ((INR k + 1) * u)) by ring.
    eapply near_weaken; [apply (near_add _ _ _ _ _ _ 4 Hacc T)|].
    + rewrite Rabs_pos_eq by lra. lra.
    + pose proof big_100. lra.
    + lra.
Qed.
End Alglib.

Lemma alglib_near (w : double_weights) (scores rest : list double) : weights_moderate w -> scores_ok scores -> scores <> [] ->
  (Z.of_nat (length scores) <= 2 ^ 50)%Z ->
  near (double_alglib_score w (length scores) (double_alglib_points w scores ++ rest)) (mean scores) ((5 * INR (length scores) + 20) * u).
Proof.
  intros Hw Hs Hne Hn. assert (H1 : (1 <= length scores)%nat) by (destruct scores; [contradiction|cbn; lia]).
  unfold double_alglib_score, double_alglib_points.
  rewrite firstn_app, map_length, Nat.sub_diag, firstn_O, app_nil_r, firstn_all2 by (rewrite map_length; apply le_n).
  pose proof (score_step w (length scores) Hw H1 Hn scores Hs double_zero 0 0%nat (le_n _)) as K.
  rewrite (Rplus_0_l (totals scores * _)) in K. change (0 + length scores)%nat with (length scores) in K.
  unfold mean. fold (totals scores). eapply near_weaken; [apply K|].
  - cbn. lra.
  - eapply near_weaken; [apply (near_exact _ good_zero)|]. cbn [INR]. lra.
  - pose proof u_pos. pose proof (an_pos _ H1). replace (INR (length scores) * (19 * (u * / INR (length scores)) + 5 * u)) with (19 * u + 5 * (INR (length scores) * u)) by (field; lra). lra.
Qed.

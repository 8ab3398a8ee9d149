(** Inverse models and cells for the properties of OddsFloatModel. *)
From Coq Require Import Reals Lra Lia List Floats.SpecFloat.
From Flocq Require Import Core BinarySingleNaN.
From Verif Require Import Base ResidualModel RoundModel FloatModel RoundFacts FloatFacts FloatScoreFacts.
From Verif Require Import OddsModel OddsSpec OddsFloatModel OddsFloatSpec LogisticFacts OddsFloatFacts OddsFloatTop.
Import ListNotations.
Open Scope R_scope.

(** InverseModel(0.5, 0.45, 0.65) of the 3D map loader, with [T = float] and [T = double]. *)
Definition loader_float : float_model :=
  {| fl_prior := S754_zero false; fl_free := S754_finite true 13466782 (-26); fl_occupied := S754_finite false 10385755 (-24) |}.
Definition loader_double : float_model :=
  {| fl_prior := S754_zero false; fl_free := S754_finite true 7229923754460181 (-55); fl_occupied := S754_finite false 5575809496611991 (-53) |}.
(** InverseModel(0.3, 0.2, 0.4) with [T = float]. *)
Definition skewed_float : float_model :=
  {| fl_prior := S754_finite true 14215299 (-24); fl_free := S754_finite true 11629080 (-23); fl_occupied := S754_finite true 13605151 (-25) |}.
(** A probability of 0: InverseModel(0.5, 0, 0.65). *)
Definition certain_float : float_model :=
  {| fl_prior := S754_zero false; fl_free := S754_infinity true; fl_occupied := S754_finite false 10385755 (-24) |}.

Ltac by_values := unfold moderate_odds; split; [split; reflexivity|]; cbn -[bpow Rabs]; unfold F2R; cbn -[Rabs]; apply Rabs_le; lra.
Lemma loader_float_moderate : moderate_model 24 128 loader_float.
Proof. split; [|split]; by_values. Qed.
Lemma loader_double_moderate : moderate_model 53 1024 loader_double.
Proof. split; [|split]; by_values. Qed.
Lemma skewed_float_moderate : moderate_model 24 128 skewed_float.
Proof. split; [|split]; by_values. Qed.

Lemma float_standard : standard_format 24 128.
Proof. left. split; reflexivity. Qed.
Lemma double_standard : standard_format 53 1024.
Proof. right. split; reflexivity. Qed.
Lemma float_formats : formats 24 128 24 128.
Proof. split; [exact float_standard|left; split; reflexivity]. Qed.
Lemma float_double_formats : formats 24 128 53 1024.
Proof. split; [exact float_standard|right; split; reflexivity]. Qed.
Lemma double_formats : formats 53 1024 53 1024.
Proof. split; [exact double_standard|left; split; reflexivity]. Qed.

(** ** A hit lowers the occupancy *)
Definition crowded : list occ_update := [Free 2298710; Hit 2804223].
Lemma crowded_odds :
  float_log_odds 24 128 2298710 2804223 skewed_float = S754_finite false 8388608 (-24) /\
  float_log_odds 24 128 2298710 2804224 skewed_float = S754_zero false.
Proof. split; vm_compute; reflexivity. Qed.
Lemma crowded_drop (wprec wemax : Z) (fexp : spec_float -> spec_float) (eps : R) :
  formats 24 128 wprec wemax -> exp_accurate 24 128 fexp eps -> 0 <= eps <= / 256 ->
  let before := float_occ_value 24 128 wprec wemax fexp (fold_left occ_apply crowded occ_new) skewed_float in
  let after := float_occ_value 24 128 wprec wemax fexp (fold_left occ_apply (crowded ++ [Hit 1]) occ_new) skewed_float in
  val after < val before - / 16.
Proof.
  intros Hf He E0 before after.
  assert (B : before = float_from_log_odds 24 128 wprec wemax fexp (S754_finite false 8388608 (-24))).
  { unfold before. rewrite <- (proj1 crowded_odds). reflexivity. }
  assert (A : after = float_from_log_odds 24 128 wprec wemax fexp (S754_zero false)).
  { unfold after. rewrite <- (proj2 crowded_odds). reflexivity. }
  pose proof (from_accurate 24 128 wprec wemax Hf fexp eps (S754_finite false 8388608 (-24)) He ltac:(lra) ltac:(split; reflexivity)) as K1.
  pose proof (from_accurate 24 128 wprec wemax Hf fexp eps (S754_zero false) He ltac:(lra) ltac:(split; reflexivity)) as K2.
  rewrite <- A in K2. rewrite <- B in K1.
  assert (V1 : val (S754_finite false 8388608 (-24)) = / 2) by (cbn -[bpow]; unfold F2R; cbn; lra). rewrite V1 in K1.
  change (val (S754_zero false)) with 0 in K2. unfold logistic in *. rewrite logistic_alt in K1, K2. rewrite exp_0 in K2.
  assert (X : 1 + / 2 < exp (/ 2)) by (apply exp_ineq1; lra).
  assert (Y : / (1 + exp (/ 2)) <= / (5 / 2)) by (apply Rinv_le; lra).
  change (bpow radix2 (- (24))) with (/ 16777216) in *. apply Rabs_le_inv in K1, K2. lra.
Qed.

(** ** Many hits make a cell certain *)
Lemma many_hits_odds : exists x, float_log_odds 53 1024 0 2000 loader_double = x /\ good_float 53 1024 x /\ 1200 <= val x.
Proof.
  eexists. split; [vm_compute; reflexivity|]. split; [split; reflexivity|]. cbn -[bpow]. unfold F2R. cbn. lra.
Qed.
Lemma exp_big : 2 * (2 * bpow radix2 1024) <= exp 1200.
Proof.
  replace 1200 with (INR 1200 * 1) by (rewrite INR_IZR_INZ; change (Z.of_nat 1200) with 1200%Z; lra).
  assert (P : forall n, bpow radix2 (Z.of_nat n) <= exp (INR n * 1)).
  { induction n as [|n IH]; [cbn -[exp]; rewrite Rmult_0_l, exp_0; lra|].
    rewrite S_INR, Rmult_plus_distr_r, exp_plus, Nat2Z.inj_succ, <- Z.add_1_r, bpow_plus.
    apply Rmult_le_compat; try apply bpow_ge_0; [exact IH|]. rewrite Rmult_1_l. pose proof (exp_ineq1 1 ltac:(lra)). change (bpow radix2 1) with 2. lra. }
  eapply Rle_trans; [|apply P]. change (Z.of_nat 1200) with 1200%Z.
  replace (2 * (2 * bpow radix2 1024)) with (bpow radix2 (1 + (1 + 1024))) by (rewrite !bpow_plus; reflexivity). apply bpow_le. discriminate.
Qed.
Lemma many_hits (wprec wemax : Z) (fexp : spec_float -> spec_float) (eps : R) :
  formats 53 1024 wprec wemax -> exp_accurate 53 1024 fexp eps -> eps <= / 2 ->
  val (float_occ_value 53 1024 wprec wemax fexp (fold_left occ_apply [Hit 2000] occ_new) loader_double) = 1.
Proof.
  intros Hf He E0. destruct many_hits_odds as [x [Ex [G L]]].
  change (val (float_from_log_odds 53 1024 wprec wemax fexp (float_log_odds 53 1024 0 2000 loader_double)) = 1). rewrite Ex.
  assert (F : fexp x = infinity).
  { destruct (He x G) as [[F _]|[Ge [P A]]]; [exact F|exfalso].
    pose proof (good_bound 53 1024 _ Ge) as B. pose proof exp_big as X.
    assert (Y : exp 1200 <= exp (val x)) by (apply exp_le; exact L).
    assert (T : bpow radix2 (2 - 1024 - 53) <= 1) by (change 1 with (bpow radix2 0); apply bpow_le; discriminate).
    assert (O : 1 <= bpow radix2 1024) by (change 1 with (bpow radix2 0); apply bpow_le; discriminate).
    assert (Z : eps * exp (val x) <= / 2 * exp (val x)) by (apply Rmult_le_compat_r; lra).
    apply Rabs_le_inv in A. rewrite Rabs_pos_eq in B by exact P. lra. }
  destruct (tail_of_infinity 53 1024 wprec wemax Hf) as [V _]. unfold tail_of in V. unfold float_from_log_odds. rewrite F. exact V.
Qed.

(** ** A model that excludes misses *)
Lemma certain_nan (wprec wemax : Z) (fexp : spec_float -> spec_float) : fexp S754_nan = S754_nan ->
  float_occ_value 24 128 wprec wemax fexp (fold_left occ_apply [Hit 1] occ_new) certain_float = S754_nan.
Proof.
  intros F. assert (L : float_log_odds 24 128 0 1 certain_float = S754_nan) by (vm_compute; reflexivity).
  change (float_from_log_odds 24 128 wprec wemax fexp (float_log_odds 24 128 0 1 certain_float) = S754_nan). rewrite L.
  unfold float_from_log_odds. rewrite F. cbn [float_convert]. cbv zeta. unfold fadd, fsub. 
  destruct (float_of_int wprec wemax 1) as [s|s| |s m e]; reflexivity.
Qed.

(** ** Weights that no longer grow *)
Section Saturation.
Variables prec emax : Z.
Hypothesis Hs : standard_format prec emax.
Notation one := (float_of_int prec emax 1).
Lemma count_exact (z : Z) : (0 <= z <= 2 ^ prec)%Z -> val (float_of_int prec emax z) = IZR z /\ good_float prec emax (float_of_int prec emax z).
Proof.
  intros H. destruct (count_float prec emax Hs z) as [G [V _]].
  { destruct Hs as [[-> ->]|[-> ->]]; lia. }
  split; [|exact G]. rewrite V. apply (rnd_id prec emax). apply (format_int prec emax).
  - destruct Hs as [[-> ->]|[-> ->]]; reflexivity.
  - destruct Hs as [[-> ->]|[-> ->]]; lia.
  - lia.
Qed.
Lemma full_stays : fadd prec emax (float_of_int prec emax (2 ^ prec)) one = float_of_int prec emax (2 ^ prec).
Proof. destruct Hs as [[-> ->]|[-> ->]]; vm_compute; reflexivity. Qed.
Lemma add_one_count (x : spec_float) (n : Z) : good_float prec emax x -> val x = IZR (Z.min n (2 ^ prec)) -> (0 <= n)%Z ->
  good_float prec emax (fadd prec emax x one) /\ val (fadd prec emax x one) = IZR (Z.min (n + 1) (2 ^ prec)).
Proof.
  intros G V Hn. assert (Hp : Prec_gt_0 prec) by (destruct Hs as [[-> ->]|[-> ->]]; reflexivity).
  assert (He : Prec_lt_emax prec emax) by (destruct Hs as [[-> ->]|[-> ->]]; reflexivity).
  assert (P1 : (1 <= 2 ^ prec)%Z) by (destruct Hs as [[-> ->]|[-> ->]]; discriminate).
  destruct (count_exact 1 ltac:(lia)) as [V1 G1].
  assert (B : Rabs (round radix2 (FLT_exp (3 - emax - prec) prec) ZnearestE (val x + val one)) < bpow radix2 emax).
  { pose proof (c_range prec emax Hs) as [CR CR2]. apply (rnd_fits prec emax Hp CR _ (prec + 1)); [lia|]. rewrite V, V1, <- plus_IZR.
    rewrite Rabs_pos_eq by (apply (IZR_le 0); lia). rewrite <- IZR_Zpower by lia. apply IZR_le. change (radix_val radix2) with 2%Z.
    rewrite Z.pow_add_r by lia. lia. }
  destruct (fadd_round prec emax Hp He x one G G1 B) as [E G']. split; [exact G'|].
  destruct (Z.le_gt_cases (2 ^ prec) n) as [C|C].
  - rewrite Z.min_r in V by exact C. rewrite Z.min_r by lia. rewrite E, V.
    destruct (count_exact (2 ^ prec) ltac:(lia)) as [Vf Gf].
    assert (B' := B). rewrite V, <- Vf in B'. destruct (fadd_round prec emax Hp He _ one Gf G1 B') as [E2 _]. rewrite full_stays, Vf in E2. symmetry. exact E2.
  - rewrite Z.min_l in V by lia. rewrite Z.min_l by lia. rewrite E, V, V1, <- plus_IZR.
    destruct (count_exact (n + 1) ltac:(lia)) as [Vn Gn]. rewrite <- Vn. apply (rnd_id prec emax). apply (good_format prec emax). exact Gn.
Qed.
Lemma unit_misses (n : nat) :
  let d := fold_left (fw_apply prec emax) (repeat (FWFree one) n) fw_new in
  good_float prec emax (fw_free d) /\ val (fw_free d) = IZR (Z.min (Z.of_nat n) (2 ^ prec)) /\ fw_hit d = None.
Proof.
  assert (P1 : (1 <= 2 ^ prec)%Z) by (destruct Hs as [[-> ->]|[-> ->]]; discriminate).
  cbv zeta. induction n as [|n [G [V N]]].
  - cbn [repeat fold_left fw_new fw_free fw_hit]. split; [split; reflexivity|]. split; [|reflexivity]. rewrite Z.min_l by lia. reflexivity.
  - change (repeat (FWFree one) (S n)) with (FWFree one :: repeat (FWFree one) n). rewrite repeat_cons, fold_left_app. cbn [fold_left fw_apply]. unfold fw_updateFree. cbn [fw_free fw_hit].
    destruct (add_one_count _ _ G V ltac:(lia)) as [G' V']. split; [exact G'|]. split; [|exact N]. rewrite V', Nat2Z.inj_succ, Z.add_1_r. reflexivity.
Qed.
Lemma unit_hits (n : nat) :
  let d := fold_left (fw_apply prec emax) (repeat (FWHit one) (S n)) fw_new in
  val (fw_free d) = 0 /\ exists w, fw_hit d = Some w /\ good_float prec emax w /\ val w = IZR (Z.min (Z.of_nat (S n)) (2 ^ prec)).
Proof.
  assert (P1 : (1 <= 2 ^ prec)%Z) by (destruct Hs as [[-> ->]|[-> ->]]; discriminate).
  cbv zeta. induction n as [|n [F [w [E [G V]]]]].
  - cbn [repeat fold_left fw_apply]. unfold fw_updateOccupied. cbn [fw_new fw_free fw_hit]. split; [reflexivity|]. exists one. split; [reflexivity|].
    destruct (count_exact 1 ltac:(lia)) as [V1 G1]. split; [exact G1|]. rewrite V1, Z.min_l by (cbn; lia). reflexivity.
  - change (repeat (FWHit one) (S (S n))) with (FWHit one :: repeat (FWHit one) (S n)). rewrite repeat_cons, fold_left_app. cbn [fold_left]. cbn [fw_apply]. unfold fw_updateOccupied. cbn [fw_free fw_hit]. rewrite E.
    split; [exact F|]. eexists. split; [reflexivity|]. destruct (add_one_count _ _ G V ltac:(lia)) as [G' V']. split; [exact G'|].
    rewrite V', (Nat2Z.inj_succ (S n)), Z.add_1_r. reflexivity.
Qed.
End Saturation.

(** ** Orders and histories of the samples *)
Lemma skewed_order : val (fl_free skewed_float) <= val (fl_prior skewed_float) <= val (fl_occupied skewed_float).
Proof. cbn -[bpow]. unfold F2R. cbn. lra. Qed.
Lemma loader_order : val (fl_prior loader_float) = 0 /\ val (fl_free loader_float) <= 0 <= val (fl_occupied loader_float).
Proof. cbn -[bpow]. unfold F2R. cbn. lra. Qed.
Lemma crowded_real : real_updates (crowded ++ [Hit 1]).
Proof. split; [repeat constructor; discriminate|reflexivity]. Qed.
Lemma accuracy_sample :
  Rabs (val (float_occ_value 24 128 24 128 (rounded_exp 24 128) (fold_left occ_apply [Free 2; Hit 3] occ_new) loader_float) -
        logistic (3 * (10385755 / 16777216) - 2 * (13466782 / 67108864))) <= bpow radix2 (-20).
Proof.
  pose proof (value_accurate 24 128 24 128 float_formats (rounded_exp 24 128) (bpow radix2 (-24)) [Free 2; Hit 3] loader_float
    (rounded_exp_accurate 24 128 float_standard)) as K.
  assert (E : OddsFloatSpec.evidence loader_float (IZR (misses [Free 2; Hit 3])) (IZR (hit_points [Free 2; Hit 3])) =
              3 * (10385755 / 16777216) - 2 * (13466782 / 67108864)).
  { unfold OddsFloatSpec.evidence. cbn -[bpow]. unfold F2R. cbn. field. }
  rewrite E in K. eapply Rle_trans; [apply K|].
  - cbn. lra.
  - exact loader_float_moderate.
  - split; [repeat constructor; discriminate|reflexivity].
  - discriminate.
  - unfold evidence_size. cbn -[Rabs bpow]. unfold F2R. cbn -[Rabs].
    rewrite Rabs_R0. rewrite (Rabs_left (-13466782 * / 67108864)) by lra. rewrite (Rabs_pos_eq (10385755 * / 16777216)) by lra. lra.
Qed.

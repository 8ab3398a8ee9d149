(** Rounding errors of the index of a point. *)
From Coq Require Import QArith Qpower Qround Reals Lra Qreals Floats.SpecFloat.
From Flocq Require Import Core Relative Mult_error BinarySingleNaN.
From Verif Require Import Base ExtentModel ResidualModel RoundModel.
Open Scope R_scope.

Lemma nearest_even (s : bool) (m : Z) (l : location) : round_nearest_even m l = choice_mode mode_NE s m l.
Proof. destruct l as [|k]; [reflexivity|]. destruct k; [|reflexivity..]. cbn. unfold Round.cond_incr. destruct (Z.even m); reflexivity. Qed.
Lemma round_aux (prec emax : Z) (sx : bool) (mx ex : Z) (lx : location) :
  SpecFloat.binary_round_aux prec emax sx mx ex lx = BinarySingleNaN.binary_round_aux prec emax mode_NE sx mx ex lx.
Proof.
  unfold SpecFloat.binary_round_aux, BinarySingleNaN.binary_round_aux. destruct (shr_fexp prec emax mx ex lx) as [mrs e].
  rewrite (nearest_even sx). reflexivity.
Qed.

(** ** Doubles *)
Notation val := (SF2R radix2).
Notation valid := (valid_binary 53 1024).
Notation rnd := (round radix2 (FLT_exp (-1074) 53) ZnearestE).
#[local] Instance p53 : Prec_gt_0 53. Proof. reflexivity. Qed.
#[local] Instance p1024 : Prec_lt_emax 53 1024. Proof. reflexivity. Qed.

Lemma mul_round (x y : double) : valid x = true -> valid y = true -> float_finite x = true -> float_finite y = true ->
  Rabs (rnd (val x * val y)) < bpow radix2 1024 ->
  val (double_mul x y) = rnd (val x * val y) /\ valid (double_mul x y) = true /\ float_finite (double_mul x y) = true.
Proof.
  intros Vx Vy Fx Fy H.
  pose proof (Bmult_correct 53 1024 _ _ mode_NE (SF2B x Vx) (SF2B y Vy)) as K.
  rewrite !B2R_SF2B in K. unfold round_mode in K.
  rewrite Rlt_bool_true in K by exact H. destruct K as [K1 [K2 _]].
  assert (E : B2SF (Bmult mode_NE (SF2B x Vx) (SF2B y Vy)) = double_mul x y).
  { destruct x as [sx|sx| |sx mx ex]; destruct y as [sy|sy| |sy my ey]; try reflexivity; try discriminate.
    cbn [SF2B Bmult]. rewrite B2SF_SF2B. unfold double_mul. cbn [SFmul]. symmetry. apply round_aux. }
  rewrite <- E. rewrite SF2R_B2SF. split; [exact K1|]. split; [apply valid_binary_B2SF|].
  transitivity (is_finite_SF (B2SF (Bmult mode_NE (SF2B x Vx) (SF2B y Vy)))).
  - destruct (B2SF _); reflexivity.
  - rewrite is_finite_SF_B2SF, K2. rewrite <- !is_finite_SF_B2SF, !B2SF_SF2B. destruct x, y; try reflexivity; discriminate.
Qed.
Lemma div_round (x y : double) : valid x = true -> valid y = true -> float_finite x = true -> float_finite y = true ->
  val y <> 0 -> Rabs (rnd (val x / val y)) < bpow radix2 1024 ->
  val (double_div x y) = rnd (val x / val y) /\ valid (double_div x y) = true /\ float_finite (double_div x y) = true.
Proof.
  intros Vx Vy Fx Fy Hy H.
  pose proof (Bdiv_correct 53 1024 _ _ mode_NE (SF2B x Vx) (SF2B y Vy)) as K.
  rewrite !B2R_SF2B in K. specialize (K Hy). unfold round_mode in K.
  rewrite Rlt_bool_true in K by exact H. destruct K as [K1 [K2 _]].
  assert (E : B2SF (Bdiv mode_NE (SF2B x Vx) (SF2B y Vy)) = double_div x y).
  { destruct x as [sx|sx| |sx mx ex]; destruct y as [sy|sy| |sy my ey]; try reflexivity; try discriminate.
    cbn [SF2B Bdiv]. rewrite B2SF_SF2B. unfold double_div. cbn [SFdiv].
    destruct (SFdiv_core_binary 53 1024 (Z.pos mx) ex (Z.pos my) ey) as [[mz ez] lz]. symmetry. apply round_aux. }
  rewrite <- E. rewrite SF2R_B2SF. split; [exact K1|]. split; [apply valid_binary_B2SF|].
  transitivity (is_finite_SF (B2SF (Bdiv mode_NE (SF2B x Vx) (SF2B y Vy)))).
  - destruct (B2SF _); reflexivity.
  - rewrite is_finite_SF_B2SF, K2. rewrite <- is_finite_SF_B2SF, B2SF_SF2B. destruct x; try reflexivity; discriminate.
Qed.
Lemma val_format (x : double) : valid x = true -> generic_format radix2 (FLT_exp (-1074) 53) (val x).
Proof. intros V. rewrite <- (B2R_SF2B 53 1024 x V). apply (generic_format_B2R 53 1024). Qed.

(** The error of a rounding. *)
Lemma rnd_relative (x : R) : bpow radix2 (-1022) <= Rabs x -> Rabs (rnd x - x) <= bpow radix2 (-53) * Rabs x.
Proof.
  intros H. pose proof (relative_error_N_FLT radix2 (-1074) 53 eq_refl (fun x => negb (Z.even x)) x H) as K.
  change (/ 2) with (bpow radix2 (-1)) in K. rewrite <- bpow_plus in K. exact K.
Qed.
Lemma rnd_error (x : R) : Rabs (rnd x - x) <= bpow radix2 (-53) * Rabs x + bpow radix2 (-1075).
Proof.
  destruct (Rle_or_lt (bpow radix2 (-1074 + 53 - 1)) (Rabs x)) as [H|H].
  - eapply Rle_trans; [apply rnd_relative; exact H|]. pose proof (bpow_gt_0 radix2 (-1075)). lra.
  - pose proof (error_le_half_ulp radix2 (FLT_exp (-1074) 53) (fun x => negb (Z.even x)) x) as K.
    rewrite (ulp_FLT_small radix2 (-1074) 53 x) in K.
    + change (/ 2) with (bpow radix2 (-1)) in K. rewrite <- bpow_plus in K. cbn [Z.add Z.opp Pos.add] in K.
      pose proof (Rmult_le_pos _ _ (bpow_ge_0 radix2 (-53)) (Rabs_pos x)). change (-1 + -1074)%Z with (-1075)%Z in K. lra.
    + eapply Rlt_trans; [exact H|]. apply bpow_lt. reflexivity.
Qed.

(** ** The value of a float *)
Lemma pow_bpow (e : Z) : Q2R ((2 # 1) ^ e) = bpow radix2 e.
Proof.
  assert (P : forall p, Q2R ((2 # 1) ^ Z.pos p) = bpow radix2 (Z.pos p)).
  { intros p. rewrite <- (Qeq_eqR (inject_Z (2 ^ Z.pos p)) ((2 # 1) ^ Z.pos p)).
    - unfold Q2R, inject_Z. cbn [Qnum Qden]. rewrite Rinv_1, Rmult_1_r. exact (IZR_Zpower radix2 (Z.pos p) ltac:(discriminate)).
    - rewrite Zpower_Qpower by discriminate. reflexivity. }
  destruct e as [|p|p].
  - cbn. unfold Q2R. cbn [Qnum Qden]. lra.
  - apply P.
  - replace (bpow radix2 (Z.neg p)) with (/ bpow radix2 (Z.pos p)) by (rewrite <- bpow_opp; reflexivity).
    rewrite <- P. change ((2 # 1) ^ Z.neg p)%Q with (/ (2 # 1) ^ Z.pos p)%Q. apply Q2R_inv.
    intros E. apply Qeq_eqR in E. rewrite P in E. pose proof (bpow_gt_0 radix2 (Z.pos p)). unfold Q2R in E. cbn [Qnum Qden] in E. lra.
Qed.
Lemma Q2R_inject (z : Z) : Q2R (inject_Z z) = IZR z.
Proof. unfold Q2R, inject_Z. cbn [Qnum Qden]. lra. Qed.
Lemma value_val (x : spec_float) : Q2R (float_value x) = val x.
Proof.
  destruct x as [s|s| |s m e]; cbn [float_value SF2R]; try (unfold Q2R; cbn [Qnum Qden]; lra).
  rewrite Q2R_mult, pow_bpow, Q2R_inject. unfold F2R. cbn [Fnum Fexp]. destruct s; reflexivity.
Qed.
Lemma floor_val (x : spec_float) : Qfloor (float_value x) = Zfloor (val x).
Proof.
  symmetry. apply Zfloor_imp. rewrite <- value_val. split.
  - rewrite <- Q2R_inject. apply Qle_Rle, Qfloor_le.
  - rewrite <- Q2R_inject. apply Qlt_Rlt, Qlt_floor.
Qed.

(** ** One coordinate *)
Section Index.
Variable resolution x : double.
Hypothesis Vr : valid resolution = true.
Hypothesis Vx : valid x = true.
Hypothesis Fr : float_finite resolution = true.
Hypothesis Fx : float_finite x = true.
Hypothesis Hr : bpow radix2 (-1000) <= val resolution <= bpow radix2 1000.
Notation h := (val resolution / 2).
Notation q := (val x / h).

Lemma rpos : 0 < val resolution.
Proof. pose proof (bpow_gt_0 radix2 (-1000)). lra. Qed.

Lemma half_val : val double_half = bpow radix2 (-1).
Proof. transitivity (bpow radix2 52 * bpow radix2 (-53)); [reflexivity|]. rewrite <- bpow_plus. reflexivity. Qed.
Lemma one_val : val double_one = 1.
Proof. transitivity (bpow radix2 52 * bpow radix2 (-52)); [reflexivity|]. rewrite <- bpow_plus. reflexivity. Qed.

Lemma halved : val (bundle_resolution resolution) = h /\ valid (bundle_resolution resolution) = true /\
  float_finite (bundle_resolution resolution) = true.
Proof.
  assert (E : rnd (val double_half * val resolution) = h).
  { rewrite half_val, Rmult_comm. rewrite round_generic.
    - cbn. lra.
    - apply valid_rnd_N.
    - apply mult_bpow_exact_FLT; [apply val_format; exact Vr|].
      assert ((-1000 + 1 <= mag radix2 (val resolution))%Z); [|lia].
      apply mag_ge_bpow. replace (-1000 + 1 - 1)%Z with (-1000)%Z by lia.
      rewrite Rabs_pos_eq by (pose proof rpos; lra). lra. }
  unfold bundle_resolution. rewrite <- E. apply mul_round; try assumption; try reflexivity.
  rewrite E. rewrite Rabs_pos_eq by (pose proof rpos; lra).
  apply Rle_lt_trans with (bpow radix2 1000); [pose proof rpos; lra|]. apply bpow_lt. reflexivity.
Qed.

Lemma inverse : exists e, Rabs e <= bpow radix2 (-53) /\ val (bundle_resolution_inv resolution) = / h * (1 + e) /\
  valid (bundle_resolution_inv resolution) = true /\ float_finite (bundle_resolution_inv resolution) = true.
Proof.
  destruct halved as [H1 [H2 H3]]. pose proof rpos as R0.
  assert (B1 : bpow radix2 (-1000) <= / h <= bpow radix2 1001).
  { split.
    - apply Rle_trans with (/ (bpow radix2 1000)).
      + rewrite <- bpow_opp. apply bpow_le. discriminate.
      + apply Rinv_le; lra.
    - replace (bpow radix2 1001) with (/ (bpow radix2 (-1000) / 2)).
      + apply Rinv_le; [pose proof (bpow_gt_0 radix2 (-1000)); lra|lra].
      + change (bpow radix2 1001) with (bpow radix2 (1 + 1000)). rewrite bpow_plus. change (bpow radix2 1) with 2.
        change (-1000)%Z with (Z.opp 1000). rewrite bpow_opp. unfold Rdiv. rewrite Rinv_mult, !Rinv_inv. lra. }
  assert (P0 : 0 < / h) by (apply Rinv_0_lt_compat; lra).
  assert (K : Rabs (rnd (/ h) - / h) <= bpow radix2 (-53) * Rabs (/ h)).
  { apply rnd_relative. rewrite Rabs_pos_eq by lra. apply Rle_trans with (bpow radix2 (-1000)); [apply bpow_le; discriminate|lra]. }
  rewrite Rabs_pos_eq with (x := / h) in K by lra.
  assert (E1 : 1 / h = / h) by (unfold Rdiv; apply Rmult_1_l).
  assert (S53 : bpow radix2 (-53) <= 1) by (change 1 with (bpow radix2 0); apply bpow_le; discriminate).
  destruct (div_round double_one (bundle_resolution resolution)) as [D1 [D2 D3]]; try assumption; try reflexivity.
  - rewrite H1. lra.
  - rewrite one_val, H1, E1.
    apply Rle_lt_trans with (bpow radix2 1002); [|apply bpow_lt; reflexivity].
    change (bpow radix2 1002) with (bpow radix2 (1 + 1001)). rewrite bpow_plus. change (bpow radix2 1) with 2.
    apply Rabs_le_inv in K. apply Rabs_le. assert (bpow radix2 (-53) * / h <= / h) by (rewrite <- (Rmult_1_l (/ h)) at 2; apply Rmult_le_compat_r; lra).
    lra.
  - rewrite one_val, H1 in D1. rewrite E1 in D1.
    exists ((rnd (/ h) - / h) * h). split.
    + rewrite Rabs_mult. rewrite (Rabs_pos_eq h) by lra.
      apply Rle_trans with (bpow radix2 (-53) * / h * h); [apply Rmult_le_compat_r; lra|].
      rewrite Rmult_assoc, Rinv_l by lra. lra.
    + split; [|split; assumption]. unfold bundle_resolution_inv. rewrite D1. field. lra.
Qed.

Variable M : R.
Hypothesis HM : 0 <= M <= bpow radix2 1000.
Hypothesis Hq : Rabs q <= M.

(** The product that is rounded down. *)
Lemma product : exists p, double_mul x (bundle_resolution_inv resolution) = p /\ float_finite p = true /\
  Rabs (val p - q) <= M * bpow radix2 (-51) + bpow radix2 (-1070).
Proof.
  eexists. split; [reflexivity|]. pose proof rpos as R0.
  destruct inverse as [e [He [I1 [I2 I3]]]].
  set (u := bpow radix2 (-53)) in *. assert (U : 0 < u <= / 4).
  { split; [apply bpow_gt_0|]. change (/ 4) with (bpow radix2 (-2)). apply bpow_le. discriminate. }
  set (t := val x * val (bundle_resolution_inv resolution)).
  assert (T : t = q * (1 + e)) by (unfold t; rewrite I1; field; lra).
  assert (A : Rabs (t - q) <= u * M).
  { rewrite T. replace (q * (1 + e) - q) with (e * q) by ring. rewrite Rabs_mult.
    apply Rmult_le_compat; try apply Rabs_pos; assumption. }
  assert (At : Rabs t <= 2 * M).
  { replace t with (t - q + q) by ring. eapply Rle_trans; [apply Rabs_triang|].
    assert (u * M <= M) by (rewrite <- (Rmult_1_l M) at 2; apply Rmult_le_compat_r; lra). lra. }
  pose proof (rnd_error t) as B. fold u in B.
  assert (S : bpow radix2 (-1075) <= bpow radix2 (-1070)) by (apply bpow_le; discriminate).
  assert (E51 : bpow radix2 (-51) = 4 * u).
  { unfold u. change (-51)%Z with (2 + -53)%Z. rewrite bpow_plus. reflexivity. }
  assert (uM : u * Rabs t <= u * (2 * M)) by (apply Rmult_le_compat_l; lra).
  assert (uM0 : 0 <= u * M) by (apply Rmult_le_pos; lra).
  assert (C : Rabs (rnd t - q) <= M * bpow radix2 (-51) + bpow radix2 (-1070)).
  { replace (rnd t - q) with ((rnd t - t) + (t - q)) by ring. eapply Rle_trans; [apply Rabs_triang|]. rewrite E51. lra. }
  destruct (mul_round x (bundle_resolution_inv resolution)) as [D1 [D2 D3]]; try assumption.
  - fold t. replace (rnd t) with (rnd t - q + q) by ring. eapply Rle_lt_trans; [apply Rabs_triang|].
    apply Rle_lt_trans with (bpow radix2 1000 + bpow radix2 1000 + bpow radix2 1000).
    + assert (M * bpow radix2 (-51) <= M).
      { rewrite E51. rewrite <- (Rmult_1_r M) at 2. apply Rmult_le_compat_l; lra. }
      assert (bpow radix2 (-1070) <= bpow radix2 1000) by (apply bpow_le; discriminate). lra.
    + assert (L : 4 * bpow radix2 1000 < bpow radix2 1024).
      { change 4 with (bpow radix2 2). rewrite <- bpow_plus. apply bpow_lt. reflexivity. }
      pose proof (bpow_gt_0 radix2 1000). lra.
  - split; [exact D3|]. rewrite D1. fold t. exact C.
Qed.
End Index.

Lemma index_near_R (resolution x : double) (M : R) :
  valid resolution = true -> valid x = true -> float_finite resolution = true -> float_finite x = true ->
  bpow radix2 (-1000) <= val resolution <= bpow radix2 1000 -> 0 <= M <= bpow radix2 1000 ->
  let q := val x / (val resolution / 2) in Rabs q <= M ->
  let tol := M * bpow radix2 (-51) + bpow radix2 (-1070) in
  match double_index (bundle_resolution_inv resolution) x with
  | Ok k => IZR k - tol <= q < IZR k + 1 + tol /\ (INT_MIN <= k <= INT_MAX)%Z
  | UB => q < IZR INT_MIN + tol \/ IZR INT_MAX + 1 - tol <= q
  | Throw => False
  end.
Proof.
  intros Vr Vx Fr Fx Hr HM q Hq tol. destruct (product resolution x Vr Vx Fr Fx Hr M HM Hq) as [p [E [Fp Hp]]].
  fold q tol in Hp. unfold double_index. rewrite E. unfold int_floor. rewrite Fp, floor_val.
  pose proof (Zfloor_lb (val p)) as L. pose proof (Zfloor_ub (val p)) as U. apply Rabs_le_inv in Hp.
  unfold to_int. destruct ((INT_MIN <=? Zfloor (val p)) && (Zfloor (val p) <=? INT_MAX))%Z eqn:B.
  - apply andb_prop in B. destruct B as [B1 B2]. apply Z.leb_le in B1, B2. split; [lra|]. split; assumption.
  - apply andb_false_iff in B. destruct B as [B|B]; apply Z.leb_gt in B.
    + left. assert (IZR (Zfloor (val p)) + 1 <= IZR INT_MIN) by (rewrite <- plus_IZR; apply IZR_le; lia). lra.
    + right. assert (IZR INT_MAX + 1 <= IZR (Zfloor (val p))) by (rewrite <- plus_IZR; apply IZR_le; lia). lra.
Qed.

Lemma Q2R_half : Q2R (1 # 2) = / 2.
Proof. unfold Q2R. cbn [Qnum Qden]. lra. Qed.
Lemma Q2R_1' : Q2R 1 = 1.
Proof. unfold Q2R. cbn [Qnum Qden]. lra. Qed.
Lemma Q2R_0' : Q2R 0 = 0.
Proof. unfold Q2R. cbn [Qnum Qden]. lra. Qed.
Ltac q2r_in H := rewrite ?Q2R_mult, ?Q2R_plus, ?Q2R_minus, ?Q2R_opp, ?Q2R_inject, ?value_val, ?pow_bpow, ?Q2R_half, ?Q2R_1', ?Q2R_0' in H.
Ltac q2r := repeat (first [rewrite Q2R_mult|rewrite Q2R_plus|rewrite Q2R_minus|rewrite Q2R_opp]);
  rewrite ?Q2R_inject, ?value_val, ?pow_bpow, ?Q2R_half, ?Q2R_1', ?Q2R_0'.

Lemma index_near (resolution x : double) (M : Q) :
  valid resolution = true -> valid x = true -> float_finite resolution = true -> float_finite x = true ->
  ((2 # 1) ^ (-1000) <= float_value resolution <= (2 # 1) ^ 1000)%Q -> (0 <= M <= (2 # 1) ^ 1000)%Q ->
  let h := (float_value resolution * (1 # 2))%Q in
  (- M * h <= float_value x <= M * h)%Q ->
  let tol := (M * (2 # 1) ^ (-51) + (2 # 1) ^ (-1070))%Q in
  match double_index (bundle_resolution_inv resolution) x with
  | Ok k => ((inject_Z k - tol) * h <= float_value x /\ float_value x < (inject_Z k + 1 + tol) * h)%Q /\
            (INT_MIN <= k <= INT_MAX)%Z
  | UB => (float_value x < (inject_Z INT_MIN + tol) * h \/ (inject_Z INT_MAX + 1 - tol) * h <= float_value x)%Q
  | Throw => False
  end.
Proof.
  intros Vr Vx Fr Fx [Hr1 Hr2] [HM1 HM2] h [Hx1 Hx2] tol. apply Qle_Rle in Hr1, Hr2, HM1, HM2, Hx1, Hx2.
  unfold h in *. q2r_in Hr1. q2r_in Hr2. q2r_in HM1. q2r_in HM2. q2r_in Hx1. q2r_in Hx2.
  assert (P : 0 < val resolution) by (pose proof (bpow_gt_0 radix2 (-1000)); lra).
  set (q := val x / (val resolution / 2)).
  assert (Eq : val x = q * (val resolution * / 2)) by (unfold q; field; lra).
  assert (Hq : Rabs q <= Q2R M).
  { apply Rabs_le. split; apply Rmult_le_reg_r with (val resolution * / 2); lra. }
  pose proof (index_near_R resolution x (Q2R M) Vr Vx Fr Fx (conj Hr1 Hr2) (conj HM1 HM2) Hq) as K. cbn zeta in K.
  fold q in K.
  assert (M2 : forall a b, a <= b -> a * (val resolution * / 2) <= b * (val resolution * / 2)) by (intros; apply Rmult_le_compat_r; lra).
  assert (M3 : forall a b, a < b -> a * (val resolution * / 2) < b * (val resolution * / 2)) by (intros; apply Rmult_lt_compat_r; lra).
  destruct (double_index (bundle_resolution_inv resolution) x) as [k| |]; [| |exact K].
  - destruct K as [[K1 K2] K3]. split; [|exact K3]. unfold tol. split.
    + apply Rle_Qle. q2r. rewrite Eq. apply M2. exact K1.
    + apply Rlt_Qlt. q2r. rewrite Eq. apply M3. exact K2.
  - unfold tol. destruct K as [K|K].
    + left. apply Rlt_Qlt. q2r. rewrite Eq. apply M3. exact K.
    + right. apply Rle_Qle. q2r. rewrite Eq. apply M2. exact K.
Qed.

Lemma tol_small : bpow radix2 31 * bpow radix2 (-51) + bpow radix2 (-1070) < bpow radix2 (-19).
Proof.
  rewrite <- bpow_plus. change (31 + -51)%Z with (-20)%Z. change (-19)%Z with (1 + -20)%Z. rewrite bpow_plus.
  change (bpow radix2 1) with 2. assert (bpow radix2 (-1070) < bpow radix2 (-20)) by (apply bpow_lt; reflexivity). lra.
Qed.
Lemma small_one : 0 < bpow radix2 (-19) < / 4.
Proof. split; [apply bpow_gt_0|]. change (/ 4) with (bpow radix2 (-2)). apply bpow_lt. reflexivity. Qed.
Lemma int_bound (k : Z) : (INT_MIN <= k <= INT_MAX)%Z -> - bpow radix2 31 <= IZR k <= bpow radix2 31 - 1.
Proof.
  intros [A B]. apply IZR_le in A, B. change (bpow radix2 31) with (IZR 2147483648). unfold INT_MIN, INT_MAX in *.
  change (-2147483648)%Z with (Z.opp 2147483648) in A. rewrite opp_IZR in A.
  change 2147483647%Z with (2147483648 - 1)%Z in B. rewrite minus_IZR in B. split; assumption.
Qed.

Section Both.
Variable resolution x : double.
Hypothesis Vr : valid resolution = true.
Hypothesis Vx : valid x = true.
Hypothesis Fr : float_finite resolution = true.
Hypothesis Fx : float_finite x = true.
Hypothesis Hr : bpow radix2 (-1000) <= val resolution <= bpow radix2 1000.
Notation q := (val x / (val resolution / 2)).

Lemma inside_R (k : Z) : (INT_MIN <= k <= INT_MAX)%Z ->
  IZR k + bpow radix2 (-19) <= q <= IZR k + 1 - bpow radix2 (-19) ->
  double_index (bundle_resolution_inv resolution) x = Ok k.
Proof.
  intros Hk Hq. pose proof small_one as S1. pose proof tol_small as S2. pose proof (int_bound k Hk) as B.
  pose proof (index_near_R resolution x (bpow radix2 31) Vr Vx Fr Fx Hr) as K. cbn zeta in K.
  destruct (double_index (bundle_resolution_inv resolution) x) as [k'| |].
  - destruct K as [K _].
    + split; [apply bpow_ge_0|apply bpow_le; discriminate].
    + apply Rabs_le. lra.
    + f_equal. assert (L1 : IZR k' < IZR k + 1) by lra. assert (L2 : IZR k < IZR k' + 1) by lra.
      rewrite <- plus_IZR in L1, L2. apply lt_IZR in L1, L2. lia.
  - exfalso. destruct K as [K|K].
    + split; [apply bpow_ge_0|apply bpow_le; discriminate].
    + apply Rabs_le. lra.
    + assert (IZR INT_MIN <= IZR k) by (apply IZR_le; lia). lra.
    + assert (IZR k <= IZR INT_MAX) by (apply IZR_le; lia). lra.
  - exfalso. apply K.
    + split; [apply bpow_ge_0|apply bpow_le; discriminate].
    + apply Rabs_le. lra.
Qed.

Lemma neighbour_R (k k' : Z) : (INT_MIN <= k' <= INT_MAX)%Z -> IZR k' <= q < IZR k' + 1 ->
  double_index (bundle_resolution_inv resolution) x = Ok k -> (Z.abs (k - k') <= 1)%Z.
Proof.
  intros Hk Hq E. pose proof small_one as S1. pose proof tol_small as S2. pose proof (int_bound k' Hk) as B.
  pose proof (index_near_R resolution x (bpow radix2 31) Vr Vx Fr Fx Hr) as K. cbn zeta in K. rewrite E in K. destruct K as [K _].
  - split; [apply bpow_ge_0|apply bpow_le; discriminate].
  - apply Rabs_le. lra.
  - assert (L1 : IZR k < IZR k' + 1 + 1) by lra. assert (L2 : IZR k' < IZR k + 1 + 1) by lra.
    rewrite <- !plus_IZR in L1, L2. apply lt_IZR in L1, L2. lia.
Qed.
End Both.

Definition good_double (x : double) : Prop := valid x = true /\ float_finite x = true.
Definition good_resolution (r : double) : Prop :=
  good_double r /\ ((2 # 1) ^ (-1000) <= float_value r <= (2 # 1) ^ 1000)%Q.

Lemma good_range (r : double) : good_resolution r -> bpow radix2 (-1000) <= val r <= bpow radix2 1000.
Proof.
  intros [_ [A B]]. apply Qle_Rle in A, B. q2r_in A. q2r_in B. split; assumption.
Qed.
Lemma good_pos (r : double) : good_resolution r -> 0 < val r.
Proof. intros H. apply good_range in H. pose proof (bpow_gt_0 radix2 (-1000)). lra. Qed.

Lemma scaled_le (r x : double) (a : R) : 0 < val r -> a * (val r * / 2) <= val x <-> a <= val x / (val r / 2).
Proof.
  intros P. assert (E : val x = val x / (val r / 2) * (val r * / 2)) by (field; lra). split; intros H.
  - rewrite E in H. apply Rmult_le_reg_r in H; [exact H|lra].
  - rewrite E. apply Rmult_le_compat_r; lra.
Qed.
Lemma scaled_ge (r x : double) (a : R) : 0 < val r -> val x <= a * (val r * / 2) <-> val x / (val r / 2) <= a.
Proof.
  intros P. assert (E : val x = val x / (val r / 2) * (val r * / 2)) by (field; lra). split; intros H.
  - rewrite E in H. apply Rmult_le_reg_r in H; [exact H|lra].
  - rewrite E. apply Rmult_le_compat_r; lra.
Qed.

(** ** All coordinates *)
Open Scope Z_scope.
Lemma inside (resolution : double) (p : list double) (bi : list Z) :
  good_resolution resolution -> Forall good_double p -> length bi = length p ->
  Forall (fun z => INT_MIN <= z <= INT_MAX) bi ->
  let h := (float_value resolution * (1 # 2))%Q in
  (forall d, (d < length p)%nat ->
     ((inject_Z (nth d bi 0%Z) + (2 # 1) ^ (-19)) * h <= float_value (nth d p S754_nan) /\
      float_value (nth d p S754_nan) <= (inject_Z (nth d bi 0%Z) + 1 - (2 # 1) ^ (-19)) * h)%Q) ->
  double_bundle_index resolution p = Ok bi.
Proof.
  intros Hr Hp. revert bi. unfold double_bundle_index. pose proof (good_pos _ Hr) as Pr. pose proof (good_range _ Hr) as Rr.
  destruct Hr as [[Vr Fr] _].
  induction Hp as [|x p [Vx Fx] Hp IH]; intros [|k bi] HL HB H; try discriminate HL; [reflexivity|].
  cbn [omap]. rewrite (inside_R resolution x Vr Vx Fr Fx Rr k).
  - cbn [obind]. inversion HB as [|? ? _ HB']; subst. rewrite (IH bi); [reflexivity|injection HL; auto|exact HB'|].
    intros d Hd. apply (H (S d)). cbn [length]. lia.
  - inversion HB; assumption.
  - destruct (H 0%nat) as [A B]; [cbn [length]; lia|]. cbn [nth] in A, B. apply Qle_Rle in A, B.
    rewrite !Q2R_mult, Q2R_minus, Q2R_plus, Q2R_inject, Q2R_1', pow_bpow, value_val, value_val, Q2R_half in B.
    rewrite !Q2R_mult, Q2R_plus, Q2R_inject, pow_bpow, value_val, value_val, Q2R_half in A.
    apply scaled_le in A; [|exact Pr]. apply scaled_ge in B; [|exact Pr]. split; assumption.
Qed.

Lemma neighbour (resolution : double) (p : list double) (bi exact : list Z) :
  good_resolution resolution -> Forall good_double p ->
  double_bundle_index resolution p = Ok bi ->
  toBundleIndex (/ (float_value resolution * (1 # 2))) (map float_value p) = Ok exact ->
  Forall2 (fun k k' => Z.abs (k - k') <= 1) bi exact.
Proof.
  intros Hr Hp. revert bi exact. unfold double_bundle_index, toBundleIndex. pose proof (good_pos _ Hr) as Pr. pose proof (good_range _ Hr) as Rr.
  destruct Hr as [[Vr Fr] _].
  induction Hp as [|x p [Vx Fx] Hp IH]; intros bi exact E1 E2; cbn [omap map] in *.
  - injection E1 as <-. injection E2 as <-. constructor.
  - destruct (double_index (bundle_resolution_inv resolution) x) as [k| |] eqn:Ek; try discriminate E1. cbn [obind] in E1.
    destruct (omap _ p) as [bi'| |] eqn:Eb; try discriminate E1. cbn [obind] in E1. injection E1 as <-.
    set (f := Qfloor (float_value x * / (float_value resolution * (1 # 2)))) in E2.
    destruct (to_int f) as [k'| |] eqn:Et; try discriminate E2. cbn [obind] in E2.
    destruct (omap _ (map float_value p)) as [ex| |] eqn:Ex; try discriminate E2. cbn [obind] in E2. injection E2 as <-.
    constructor; [|apply IH; reflexivity].
    unfold to_int in Et. destruct ((INT_MIN <=? f) && (f <=? INT_MAX)) eqn:B; [|discriminate Et]. injection Et as <-.
    apply andb_prop in B. destruct B as [B1 B2]. apply Z.leb_le in B1, B2.
    apply (neighbour_R resolution x Vr Vx Fr Fx Rr k f); [lia| |exact Ek].
    assert (Eq : (val x / (val resolution / 2))%R = Q2R (float_value x * / (float_value resolution * (1 # 2)))).
    { rewrite Q2R_mult, Q2R_inv, Q2R_mult, !value_val, Q2R_half; [reflexivity|].
      intros Z0. apply Qeq_eqR in Z0. rewrite Q2R_mult, value_val, Q2R_half, Q2R_0' in Z0. lra. }
    rewrite Eq. unfold f. rewrite <- Q2R_inject. split.
    + apply Qle_Rle, Qfloor_le.
    + rewrite Q2R_inject. rewrite <- plus_IZR, <- Q2R_inject. apply Qlt_Rlt, Qlt_floor.
Qed.

(** The index of a point for either precision. *)
From Coq Require Import QArith Qabs Qround Reals Lra Qreals Floats.SpecFloat.
From Flocq Require Import Core Relative Mult_error BinarySingleNaN.
From Verif Require Import Base ExtentModel ResidualModel RoundModel RoundFacts FloatModel FloatFacts FloatScoreFacts FloatBoundFacts.
Open Scope R_scope.

#[local] Instance q53 : Prec_gt_0 53. Proof. reflexivity. Qed.
#[local] Instance q1024 : Prec_lt_emax 53 1024. Proof. reflexivity. Qed.

(** Resolutions that neither overflow nor underflow in either precision. *)
Definition float_good_resolution (prec emax : Z) (r : spec_float) : Prop :=
  good_float prec emax r /\ ((2 # 1) ^ (-100) <= float_value r <= (2 # 1) ^ 100)%Q.

Section Index.
Variables prec emax : Z.
Hypothesis Hf : standard_format prec emax.
#[local] Instance Hp : Prec_gt_0 prec.
Proof. destruct Hf as [[-> ->]|[-> ->]]; reflexivity. Qed.
#[local] Instance He : Prec_lt_emax prec emax.
Proof. destruct Hf as [[-> ->]|[-> ->]]; reflexivity. Qed.
Notation emin := (3 - emax - prec)%Z.
Notation rnd := (round radix2 (FLT_exp emin prec) ZnearestE).
Notation good := (good_float prec emax).
Notation format := (generic_format radix2 (FLT_exp emin prec)).
Notation u := (bpow radix2 (- prec)).

Lemma facts : (24 <= prec <= 53)%Z /\ (-1074 <= emin <= -149)%Z /\ (128 <= emax)%Z /\ (emin + prec <= -125)%Z.
Proof. destruct Hf as [[-> ->]|[-> ->]]; lia. Qed.

(** A number of the format is one of the format of double. *)
Lemma format_double (x : R) : format x -> generic_format radix2 (FLT_exp (-1074) 53) x.
Proof.
  intros F. apply generic_inclusion_mag with (2 := F). intros _. unfold FLT_exp. pose proof facts. lia.
Qed.
Lemma widen_exact (x : spec_float) : good x -> Rabs (val x) < bpow radix2 1024 -> val (widen x) = val x /\ good_float 53 1024 (widen x).
Proof.
  intros G B. pose proof (format_double _ (good_format prec emax x G)) as F.
  destruct (convert_round 53 1024 q53 q1024 x (proj2 G)) as [A C].
  - rewrite rnd_id by exact F. exact B.
  - split; [|exact C]. unfold widen. rewrite A. apply rnd_id. exact F.
Qed.

Lemma near_relative (x : R) : bpow radix2 (-124) <= Rabs x -> Rabs (rnd x - x) <= u * Rabs x.
Proof.
  intros B. pose proof (relative_error_N_FLT radix2 emin prec Hp (fun x => negb (Z.even x)) x) as K.
  assert (B' : bpow radix2 (emin + prec - 1) <= Rabs x).
  { eapply Rle_trans; [apply bpow_le|exact B]. pose proof facts. lia. }
  specialize (K B'). change (/ 2) with (bpow radix2 (-1)) in K. rewrite <- bpow_plus in K.
  replace (-1 + (- prec + 1))%Z with (- prec)%Z in K by lia. exact K.
Qed.
Lemma near_error (x : R) : Rabs (rnd x - x) <= u * Rabs x + bpow radix2 (emin - 1).
Proof.
  destruct (Rle_or_lt (bpow radix2 (emin + prec - 1)) (Rabs x)) as [B|B].
  - pose proof (relative_error_N_FLT radix2 emin prec Hp (fun x => negb (Z.even x)) x B) as K.
    change (/ 2) with (bpow radix2 (-1)) in K. rewrite <- bpow_plus in K.
    replace (-1 + (- prec + 1))%Z with (- prec)%Z in K by lia. pose proof (bpow_ge_0 radix2 (emin - 1)). lra.
  - assert (K : Rabs (rnd x - x) <= / 2 * ulp radix2 (FLT_exp emin prec) x) by (apply error_le_half_ulp; auto with typeclass_instances).
    rewrite ulp_FLT_small in K.
    + change (/ 2) with (bpow radix2 (-1)) in K. rewrite <- bpow_plus in K. replace (-1 + emin)%Z with (emin - 1)%Z in K by lia.
      assert (0 <= u * Rabs x) by (apply Rmult_le_pos; [apply bpow_ge_0|apply Rabs_pos]). lra.
    + exact Hp.
    + eapply Rlt_le_trans; [exact B|]. apply bpow_le. lia.
Qed.

Variable resolution x : spec_float.
Hypothesis Gr : good resolution.
Hypothesis Gx : good x.
Hypothesis Hr : bpow radix2 (-100) <= val resolution <= bpow radix2 100.
Notation h := (val resolution / 2).
Notation q := (val x / h).

Lemma res_pos : 0 < val resolution.
Proof. pose proof (bpow_gt_0 radix2 (-100)). lra. Qed.
Lemma below_1024 (y : R) : 0 <= y <= bpow radix2 100 -> Rabs y < bpow radix2 1024.
Proof. intros H. rewrite Rabs_pos_eq by lra. eapply Rle_lt_trans; [apply H|]. apply bpow_lt. reflexivity. Qed.
Lemma below_emax (y : R) : Rabs y <= bpow radix2 110 -> Rabs y < bpow radix2 emax.
Proof. intros H. eapply Rle_lt_trans; [exact H|]. apply bpow_lt. pose proof facts. lia. Qed.

Lemma half_exact : val (float_resolution prec emax resolution) = h /\ good (float_resolution prec emax resolution).
Proof.
  pose proof res_pos as R0.
  destruct (widen_exact resolution Gr) as [W [V F]]; [apply below_1024; lra|].
  assert (Hw : bpow radix2 (-1000) <= val (widen resolution) <= bpow radix2 1000).
  { rewrite W. split; [eapply Rle_trans; [|apply Hr]|eapply Rle_trans; [apply Hr|]]; apply bpow_le; discriminate. }
  destruct (halved (widen resolution) V F Hw) as [A [B C]].
  rewrite W in A. unfold float_resolution, narrow. fold (bundle_resolution (widen resolution)).
  assert (Fh : format h).
  { replace h with (val resolution * bpow radix2 (-1)) by (cbn; lra).
    apply mult_bpow_exact_FLT; [apply (good_format prec emax); exact Gr|].
    assert ((-100 + 1 <= mag radix2 (val resolution))%Z).
    { apply mag_ge_bpow. replace (-100 + 1 - 1)%Z with (-100)%Z by lia. rewrite Rabs_pos_eq by lra. apply Hr. }
    pose proof facts. lia. }
  destruct (convert_round prec emax Hp He (bundle_resolution (widen resolution)) C) as [D E].
  - rewrite A, rnd_id by exact Fh. apply below_emax. rewrite Rabs_pos_eq by lra.
    assert (bpow radix2 100 <= bpow radix2 110) by (apply bpow_le; discriminate). lra.
  - split; [|exact E]. rewrite D, A. apply rnd_id. exact Fh.
Qed.

Lemma u_range : 0 < bpow radix2 (-53) <= u /\ u <= / 16.
Proof.
  pose proof facts as FF. split; [split; [apply bpow_gt_0|apply bpow_le; lia]|].
  change (/ 16) with (bpow radix2 (-4)). apply bpow_le. lia.
Qed.
Lemma inverse_near : exists e, Rabs e <= 2 * u + u * u /\ val (float_resolution_inv prec emax resolution) = / h * (1 + e) /\
  good (float_resolution_inv prec emax resolution).
Proof.
  destruct half_exact as [H1 H2]. pose proof res_pos as R0. pose proof u_range as [[U0 U1] U2].
  assert (H100 : bpow radix2 100 <= bpow radix2 110) by (apply bpow_le; discriminate).
  destruct (widen_exact _ H2) as [W [V F]].
  { rewrite H1. apply below_1024. lra. }
  rewrite H1 in W.
  assert (B1 : bpow radix2 (-100) <= / h <= bpow radix2 101).
  { split.
    - apply Rle_trans with (/ (bpow radix2 100)).
      + rewrite <- bpow_opp. apply bpow_le. discriminate.
      + apply Rinv_le; lra.
    - replace (bpow radix2 101) with (/ (bpow radix2 (-100) / 2)).
      + apply Rinv_le; [pose proof (bpow_gt_0 radix2 (-100)); lra|lra].
      + change (bpow radix2 101) with (bpow radix2 (1 + 100)). rewrite bpow_plus. change (bpow radix2 1) with 2.
        change (-100)%Z with (Z.opp 100). rewrite bpow_opp. unfold Rdiv. rewrite Rinv_mult, !Rinv_inv. lra. }
  assert (P0 : 0 < / h) by (apply Rinv_0_lt_compat; lra).
  set (d := round radix2 (FLT_exp (-1074) 53) ZnearestE (/ h)).
  assert (K : Rabs (d - / h) <= bpow radix2 (-53) * / h).
  { pose proof (rnd_relative (/ h)) as K. rewrite (Rabs_pos_eq (/ h)) in K by lra. apply K.
    eapply Rle_trans; [|apply B1]. apply bpow_le. discriminate. }
  assert (Kd : bpow radix2 (-53) * / h <= / 16 * / h) by (apply Rmult_le_compat_r; lra).
  assert (Bd : / 2 * / h <= d <= 2 * / h) by (apply Rabs_le_inv in K; lra).
  assert (E1 : 1 / h = / h) by (unfold Rdiv; apply Rmult_1_l).
  assert (Big : bpow radix2 102 = 2 * bpow radix2 101) by (change 102%Z with (1 + 101)%Z; rewrite bpow_plus; reflexivity).
  assert (Big2 : 2 * bpow radix2 102 <= bpow radix2 110).
  { change (bpow radix2 110) with (bpow radix2 (8 + 102)). rewrite bpow_plus. change (bpow radix2 8) with 256. pose proof (bpow_gt_0 radix2 102). lra. }
  destruct (div_round double_one (widen (float_resolution prec emax resolution))) as [D1 [D2 D3]]; try assumption; try reflexivity.
  - rewrite W. lra.
  - rewrite one_val, W, E1. fold d. rewrite Rabs_pos_eq by lra. apply Rle_lt_trans with (bpow radix2 110); [lra|]. apply bpow_lt. reflexivity.
  - rewrite one_val, W, E1 in D1. fold d in D1.
    assert (Rd : Rabs (rnd d - d) <= u * d).
    { pose proof (near_relative d) as N. rewrite (Rabs_pos_eq d) in N by lra. apply N.
      apply Rle_trans with (/ 2 * bpow radix2 (-100)); [|lra]. change (/ 2) with (bpow radix2 (-1)). rewrite <- bpow_plus. apply bpow_le. discriminate. }
    assert (ud : u * d <= / 16 * d) by (apply Rmult_le_compat_r; lra).
    destruct (convert_round prec emax Hp He _ D3) as [C1 C2].
    + rewrite D1. apply below_emax. apply Rabs_le_inv in Rd. rewrite Rabs_pos_eq by lra. lra.
    + rewrite D1 in C1. unfold float_resolution_inv, narrow. rewrite C1.
      exists ((rnd d - / h) * h). split; [|split; [|exact C2]].
      * rewrite Rabs_mult, (Rabs_pos_eq h) by lra.
        assert (T : Rabs (rnd d - / h) <= (2 * u + u * u) * / h).
        { replace (rnd d - / h) with ((rnd d - d) + (d - / h)) by ring. eapply Rle_trans; [apply Rabs_triang|].
          assert (bpow radix2 (-53) * / h <= u * / h) by (apply Rmult_le_compat_r; lra).
          assert (u * d <= u * (/ h + u * / h)) by (apply Rmult_le_compat_l; [lra|]; apply Rabs_le_inv in K; lra).
          lra. }
        apply Rle_trans with ((2 * u + u * u) * / h * h); [apply Rmult_le_compat_r; lra|].
        rewrite Rmult_assoc, Rinv_l by lra. lra.
      * field. lra.
Qed.

Variable M : R.
Hypothesis HM : 0 <= M <= bpow radix2 100.
Hypothesis Hq : Rabs q <= M.

Lemma product_near : float_finite (fmul prec emax x (float_resolution_inv prec emax resolution)) = true /\
  Rabs (val (fmul prec emax x (float_resolution_inv prec emax resolution)) - q) <= M * bpow radix2 (2 - prec) + bpow radix2 (emin - 1).
Proof.
  pose proof res_pos as R0. destruct inverse_near as [e [Hee [I1 I2]]]. pose proof u_range as [[U0 U1] U2].
  set (t := val x * val (float_resolution_inv prec emax resolution)).
  assert (T : t = q * (1 + e)) by (unfold t; rewrite I1; field; lra).
  assert (uu : u * u <= u * / 16) by (apply Rmult_le_compat_l; lra).
  assert (A : Rabs (t - q) <= (2 * u + u * u) * M).
  { rewrite T. replace (q * (1 + e) - q) with (e * q) by ring. rewrite Rabs_mult.
    apply Rmult_le_compat; try apply Rabs_pos; assumption. }
  assert (uM0 : 0 <= u * M) by (apply Rmult_le_pos; lra).
  assert (uM1 : u * M <= / 16 * M) by (apply Rmult_le_compat_r; lra).
  assert (uuM : u * u * M <= / 16 * (u * M)) by (rewrite Rmult_assoc; apply Rmult_le_compat_r; lra).
  assert (At : Rabs t <= M + (2 * u + u * u) * M).
  { replace t with (t - q + q) by ring. eapply Rle_trans; [apply Rabs_triang|]. lra. }
  pose proof (near_error t) as B.
  assert (E2 : bpow radix2 (2 - prec) = 4 * u).
  { unfold Z.sub. rewrite bpow_plus. reflexivity. }
  assert (ut : u * Rabs t <= u * (M + (2 * u + u * u) * M)) by (apply Rmult_le_compat_l; lra).
  assert (C : Rabs (rnd t - q) <= M * bpow radix2 (2 - prec) + bpow radix2 (emin - 1)).
  { replace (rnd t - q) with ((rnd t - t) + (t - q)) by ring. eapply Rle_trans; [apply Rabs_triang|]. rewrite E2.
    assert (u * ((2 * u + u * u) * M) <= / 2 * (u * M)).
    { replace (u * ((2 * u + u * u) * M)) with ((2 * u + u * u) * (u * M)) by ring. apply Rmult_le_compat_r; lra. }
    lra. }
  assert (Sm : bpow radix2 (emin - 1) <= bpow radix2 100) by (apply bpow_le; pose proof facts; lia).
  destruct (fmul_round prec emax Hp He x (float_resolution_inv prec emax resolution) Gx I2) as [D1 D2].
  - fold t. apply below_emax. replace (rnd t) with (rnd t - q + q) by ring. eapply Rle_trans; [apply Rabs_triang|].
    rewrite E2 in C. change (bpow radix2 110) with (bpow radix2 (10 + 100)). rewrite bpow_plus. change (bpow radix2 10) with 1024. lra.
  - split; [apply D2|]. rewrite D1. fold t. exact C.
Qed.
End Index.

Lemma float_near (prec emax : Z) (resolution x : spec_float) (M : Q) : standard_format prec emax ->
  float_good_resolution prec emax resolution -> good_float prec emax x -> (0 <= M <= (2 # 1) ^ 100)%Q ->
  let h := (float_value resolution * (1 # 2))%Q in
  (- M * h <= float_value x <= M * h)%Q ->
  let tol := (M * (2 # 1) ^ (2 - prec) + (2 # 1) ^ (2 - emax - prec))%Q in
  match float_index prec emax (float_resolution_inv prec emax resolution) x with
  | Ok k => ((inject_Z k - tol) * h <= float_value x /\ float_value x < (inject_Z k + 1 + tol) * h)%Q /\
            (INT_MIN <= k <= INT_MAX)%Z
  | UB => (float_value x < (inject_Z INT_MIN + tol) * h \/ (inject_Z INT_MAX + 1 - tol) * h <= float_value x)%Q
  | Throw => False
  end.
Proof.
  intros Hf [Gr [Hr1 Hr2]] Gx [HM1 HM2] h [Hx1 Hx2] tol. apply Qle_Rle in Hr1, Hr2, HM1, HM2, Hx1, Hx2.
  unfold h in *. q2r_in Hr1. q2r_in Hr2. q2r_in HM1. q2r_in HM2. q2r_in Hx1. q2r_in Hx2.
  assert (P : 0 < val resolution) by (pose proof (bpow_gt_0 radix2 (-100)); lra).
  set (q := val x / (val resolution / 2)).
  assert (Eq : val x = q * (val resolution * / 2)) by (unfold q; field; lra).
  assert (Hq : Rabs q <= Q2R M).
  { apply Rabs_le. split; apply Rmult_le_reg_r with (val resolution * / 2); lra. }
  destruct (product_near prec emax Hf resolution x Gr Gx (conj Hr1 Hr2) (Q2R M) (conj HM1 HM2) Hq) as [Fp Hpr].
  fold q in Hpr. replace (3 - emax - prec - 1)%Z with (2 - emax - prec)%Z in Hpr by lia.
  set (t := Q2R M * bpow radix2 (2 - prec) + bpow radix2 (2 - emax - prec)) in *.
  assert (Et : Q2R tol = t) by (unfold tol, t; q2r; reflexivity).
  unfold float_index, int_floor. rewrite Fp, floor_val. set (v := val (fmul prec emax x (float_resolution_inv prec emax resolution))) in *.
  pose proof (Zfloor_lb v) as L. pose proof (Zfloor_ub v) as U. apply Rabs_le_inv in Hpr.
  assert (M2 : forall a b, a <= b -> a * (val resolution * / 2) <= b * (val resolution * / 2)) by (intros; apply Rmult_le_compat_r; lra).
  assert (M3 : forall a b, a < b -> a * (val resolution * / 2) < b * (val resolution * / 2)) by (intros; apply Rmult_lt_compat_r; lra).
  unfold to_int. destruct ((INT_MIN <=? Zfloor v) && (Zfloor v <=? INT_MAX))%Z eqn:B.
  - apply andb_prop in B. destruct B as [B1 B2]. apply Z.leb_le in B1, B2. split; [|split; assumption]. split.
    + apply Rle_Qle. q2r. rewrite Et, Eq. apply M2. lra.
    + apply Rlt_Qlt. q2r. rewrite Et, Eq. apply M3. lra.
  - apply andb_false_iff in B. destruct B as [B|B]; apply Z.leb_gt in B.
    + left. apply Rlt_Qlt. q2r. rewrite Et, Eq. apply M3.
      assert (IZR (Zfloor v) + 1 <= IZR INT_MIN) by (rewrite <- plus_IZR; apply IZR_le; lia). lra.
    + right. apply Rle_Qle. q2r. rewrite Et, Eq. apply M2.
      assert (IZR INT_MAX + 1 <= IZR (Zfloor v)) by (rewrite <- plus_IZR; apply IZR_le; lia). lra.
Qed.

Lemma Qmult_lt_reg (a b h : Q) : (0 < h)%Q -> (a * h < b * h)%Q -> (a < b)%Q.
Proof. intros Hh H. apply Qmult_lt_r in H; assumption. Qed.
Lemma pow2_pos (e : Z) : (0 < (2 # 1) ^ e)%Q.
Proof. apply Rlt_Qlt. rewrite pow_bpow, Q2R_0'. apply bpow_gt_0. Qed.
Lemma float_inside (prec emax : Z) (resolution : spec_float) (p : list spec_float) (bi : list Z) (M : Q) : standard_format prec emax ->
  float_good_resolution prec emax resolution -> Forall (good_float prec emax) p -> length bi = length p ->
  Forall (fun z => (INT_MIN <= z <= INT_MAX)%Z) bi -> (0 <= M <= (2 # 1) ^ 100)%Q ->
  let h := (float_value resolution * (1 # 2))%Q in
  let tol := (M * (2 # 1) ^ (2 - prec) + (2 # 1) ^ (2 - emax - prec))%Q in
  (forall d, (d < length p)%nat ->
     (- M * h <= float_value (nth d p S754_nan) <= M * h /\
      (inject_Z (nth d bi 0%Z) + tol) * h <= float_value (nth d p S754_nan) /\
      float_value (nth d p S754_nan) < (inject_Z (nth d bi 0%Z) + 1 - tol) * h)%Q) ->
  float_bundle_index prec emax (float_resolution_inv prec emax resolution) p = Ok bi.
Proof.
  intros Hf Hr Gp HL HB HM h tol. unfold float_bundle_index. revert bi HL HB.
  assert (Hh : (0 < h)%Q).
  { destruct Hr as [_ [Hr _]]. pose proof (pow2_pos (-100)). unfold h.
    assert (0 < float_value resolution)%Q by (eapply Qlt_le_trans; eassumption).
    rewrite <- (Qmult_0_l (1 # 2)). apply Qmult_lt_r; [reflexivity|assumption]. }
  induction p as [|x p IH]; intros bi HL HB H.
  - destruct bi; [reflexivity|discriminate].
  - destruct bi as [|k bi]; [discriminate|]. cbn [omap]. inversion Gp as [|? ? Gx Gp']; subst. inversion HB as [|? ? Bk HB']; subst.
    destruct (H 0%nat ltac:(cbn; lia)) as [Hx [H1 H2]]. cbn [nth] in *.
    pose proof (float_near prec emax resolution x M Hf Hr Gx HM Hx) as K. fold h tol in K.
    assert (E : float_index prec emax (float_resolution_inv prec emax resolution) x = Ok k).
    { destruct (float_index prec emax (float_resolution_inv prec emax resolution) x) as [k'| |]; [| |destruct K].
      - destruct K as [[K1 K2] _].
        assert (A : (inject_Z k' < inject_Z k + 1)%Q).
        { assert ((inject_Z k' - tol) * h < (inject_Z k + 1 - tol) * h)%Q by (eapply Qle_lt_trans; eassumption).
          apply Qmult_lt_reg in H0; [|exact Hh]. apply Rlt_Qlt. apply Qlt_Rlt in H0. revert H0. q2r. lra. }
        assert (B : (inject_Z k < inject_Z k' + 1)%Q).
        { assert ((inject_Z k + tol) * h < (inject_Z k' + 1 + tol) * h)%Q by (eapply Qle_lt_trans; eassumption).
          apply Qmult_lt_reg in H0; [|exact Hh]. apply Rlt_Qlt. apply Qlt_Rlt in H0. revert H0. q2r. lra. }
        change 1%Q with (inject_Z 1) in A, B. rewrite <- inject_Z_plus in A, B. rewrite <- Zlt_Qlt in A, B. f_equal. lia.
      - exfalso. destruct K as [K|K].
        + assert (A : ((inject_Z k + tol) * h < (inject_Z INT_MIN + tol) * h)%Q) by (eapply Qle_lt_trans; eassumption).
          apply Qmult_lt_reg in A; [|exact Hh]. assert (A' : (inject_Z k < inject_Z INT_MIN)%Q) by (apply Rlt_Qlt; apply Qlt_Rlt in A; revert A; q2r; lra).
          rewrite <- Zlt_Qlt in A'. lia.
        + assert (A : ((inject_Z INT_MAX + 1 - tol) * h < (inject_Z k + 1 - tol) * h)%Q) by (eapply Qle_lt_trans; eassumption).
          apply Qmult_lt_reg in A; [|exact Hh]. assert (A' : (inject_Z INT_MAX < inject_Z k)%Q) by (apply Rlt_Qlt; apply Qlt_Rlt in A; revert A; q2r; lra).
          rewrite <- Zlt_Qlt in A'. lia. }
    rewrite E. cbn [obind]. rewrite (IH Gp' bi); [reflexivity|cbn in HL; lia|exact HB'|].
    intros d Hd. apply (H (S d)). cbn. lia.
Qed.

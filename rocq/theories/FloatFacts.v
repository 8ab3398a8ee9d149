(** Rounding of the operations of a floating-point format. *)
From Coq Require Import QArith Qpower Qround Reals Lra Qreals Floats.SpecFloat.
From Flocq Require Import Core Relative Mult_error BinarySingleNaN.
From Verif Require Import Base ExtentModel ResidualModel RoundModel RoundFacts FloatModel.
Open Scope R_scope.

Notation val := (SF2R radix2).

(** The two formats of C++. *)
Definition standard_format (prec emax : Z) : Prop :=
  (prec = 24 /\ emax = 128)%Z \/ (prec = 53 /\ emax = 1024)%Z.
(** A finite number of the format. *)
Definition good_float (prec emax : Z) (x : spec_float) : Prop := valid_binary prec emax x = true /\ float_finite x = true.

Section Format.
Variables prec emax : Z.
Context (Hp : Prec_gt_0 prec) (He : Prec_lt_emax prec emax).
Notation emin := (3 - emax - prec)%Z.
Notation rnd := (round radix2 (FLT_exp emin prec) ZnearestE).
Notation good := (good_float prec emax).

Lemma is_finite_good (x : spec_float) : float_finite x = is_finite_SF x.
Proof. destruct x; reflexivity. Qed.
Lemma normalize_equiv (m e : Z) (s : bool) :
  SpecFloat.binary_normalize prec emax m e s = B2SF (BinarySingleNaN.binary_normalize prec emax Hp He mode_NE m e s).
Proof.
  assert (R : forall s p, SpecFloat.binary_round prec emax s p e = BinarySingleNaN.binary_round prec emax mode_NE s p e).
  { intros s0 p. unfold SpecFloat.binary_round, BinarySingleNaN.binary_round, shl_align_fexp. destruct (shl_align _ _ _). apply round_aux. }
  destruct m; [reflexivity|cbn; rewrite B2SF_SF2B; apply R..].
Qed.
Lemma val_B (x : spec_float) (V : valid_binary prec emax x = true) : B2R (SF2B x V) = val x.
Proof. apply B2R_SF2B. Qed.

Lemma fmul_round (x y : spec_float) : good x -> good y -> Rabs (rnd (val x * val y)) < bpow radix2 emax ->
  val (fmul prec emax x y) = rnd (val x * val y) /\ good (fmul prec emax x y).
Proof.
  intros [Vx Fx] [Vy Fy] H.
  pose proof (Bmult_correct prec emax _ _ mode_NE (SF2B x Vx) (SF2B y Vy)) as K.
  rewrite !B2R_SF2B in K. unfold round_mode in K.
  rewrite Rlt_bool_true in K by exact H. destruct K as [K1 [K2 _]].
  assert (E : B2SF (Bmult mode_NE (SF2B x Vx) (SF2B y Vy)) = fmul prec emax x y).
  { destruct x as [sx|sx| |sx mx ex]; destruct y as [sy|sy| |sy my ey]; try reflexivity; try discriminate.
    cbn [SF2B Bmult]. rewrite B2SF_SF2B. unfold fmul. cbn [SFmul]. symmetry. apply round_aux. }
  rewrite <- E. rewrite SF2R_B2SF. split; [exact K1|]. split; [apply valid_binary_B2SF|].
  rewrite is_finite_good, is_finite_SF_B2SF, K2, <- !is_finite_SF_B2SF, !B2SF_SF2B. rewrite is_finite_good in Fx, Fy. rewrite Fx, Fy. reflexivity.
Qed.
Lemma fadd_round (x y : spec_float) : good x -> good y -> Rabs (rnd (val x + val y)) < bpow radix2 emax ->
  val (fadd prec emax x y) = rnd (val x + val y) /\ good (fadd prec emax x y).
Proof.
  intros [Vx Fx] [Vy Fy] H.
  pose proof (Bplus_correct prec emax _ _ mode_NE (SF2B x Vx) (SF2B y Vy)) as K.
  rewrite !B2R_SF2B in K. unfold round_mode in K.
  rewrite Rlt_bool_true in K by exact H.
  destruct K as [K1 [K2 _]]; [rewrite <- is_finite_SF_B2SF, B2SF_SF2B, <- is_finite_good; assumption..|].
  assert (E : B2SF (Bplus mode_NE (SF2B x Vx) (SF2B y Vy)) = fadd prec emax x y).
  { destruct x as [sx|sx| |sx mx ex]; destruct y as [sy|sy| |sy my ey]; try reflexivity; try discriminate.
    - unfold fadd. cbn [SF2B Bplus SFadd]. destruct (Bool.eqb sx sy); reflexivity.
    - unfold fadd. cbn [SF2B Bplus SFadd]. unfold Fplus_naive. symmetry. apply normalize_equiv. }
  rewrite <- E. rewrite SF2R_B2SF. split; [exact K1|]. split; [apply valid_binary_B2SF|].
  rewrite is_finite_good, is_finite_SF_B2SF. exact K2.
Qed.
Lemma fsub_round (x y : spec_float) : good x -> good y -> Rabs (rnd (val x - val y)) < bpow radix2 emax ->
  val (fsub prec emax x y) = rnd (val x - val y) /\ good (fsub prec emax x y).
Proof.
  intros [Vx Fx] [Vy Fy] H.
  pose proof (Bminus_correct prec emax _ _ mode_NE (SF2B x Vx) (SF2B y Vy)) as K.
  rewrite !B2R_SF2B in K. unfold round_mode in K.
  rewrite Rlt_bool_true in K by exact H.
  destruct K as [K1 [K2 _]]; [rewrite <- is_finite_SF_B2SF, B2SF_SF2B, <- is_finite_good; assumption..|].
  assert (E : B2SF (Bminus mode_NE (SF2B x Vx) (SF2B y Vy)) = fsub prec emax x y).
  { destruct x as [sx|sx| |sx mx ex]; destruct y as [sy|sy| |sy my ey]; try reflexivity; try discriminate.
    - unfold fsub. cbn [SF2B Bminus SFsub]. destruct (Bool.eqb sx (negb sy)); reflexivity.
    - unfold fsub. cbn [SF2B Bminus SFsub]. unfold Fplus_naive. rewrite normalize_equiv. f_equal. f_equal.
      destruct sy; cbn [negb cond_Zopp]; ring. }
  rewrite <- E. rewrite SF2R_B2SF. split; [exact K1|]. split; [apply valid_binary_B2SF|].
  rewrite is_finite_good, is_finite_SF_B2SF. exact K2.
Qed.
Lemma normalize_round (m e : Z) (s : bool) : Rabs (rnd (F2R (Float radix2 m e))) < bpow radix2 emax ->
  val (SpecFloat.binary_normalize prec emax m e s) = rnd (F2R (Float radix2 m e)) /\
  good (SpecFloat.binary_normalize prec emax m e s).
Proof.
  intros H. pose proof (binary_normalize_correct prec emax _ _ mode_NE m e s) as K. cbn zeta in K. unfold round_mode in K.
  rewrite Rlt_bool_true in K by exact H. destruct K as [K1 [K2 _]].
  rewrite normalize_equiv, SF2R_B2SF. split; [exact K1|]. split; [apply valid_binary_B2SF|].
  rewrite is_finite_good, is_finite_SF_B2SF. exact K2.
Qed.
Lemma convert_round (x : spec_float) : float_finite x = true -> Rabs (rnd (val x)) < bpow radix2 emax ->
  val (float_convert prec emax x) = rnd (val x) /\ good (float_convert prec emax x).
Proof.
  intros F H. destruct x as [s|s| |s m e]; try discriminate.
  - cbn [float_convert]. cbn. rewrite round_0 by auto with typeclass_instances. split; [reflexivity|split; reflexivity].
  - cbn [float_convert]. cbn [SF2R] in *. unfold cond_Zopp in *.
    replace (if s then (- Z.pos m)%Z else Z.pos m) with (if s then Z.neg m else Z.pos m) in * by (destruct s; reflexivity).
    apply normalize_round. exact H.
Qed.
Lemma good_format (x : spec_float) : good x -> generic_format radix2 (FLT_exp emin prec) (val x).
Proof. intros [V _]. rewrite <- (B2R_SF2B prec emax x V). apply (generic_format_B2R prec emax). Qed.
Lemma good_bound (x : spec_float) : good x -> Rabs (val x) < bpow radix2 emax.
Proof.
  intros [V F]. rewrite <- (B2R_SF2B prec emax x V). apply abs_B2R_lt_emax.
Qed.

(** Powers of two and small integers are representable. *)
Lemma format_bpow (e : Z) : (emin <= e)%Z -> generic_format radix2 (FLT_exp emin prec) (bpow radix2 e).
Proof. intros H. apply generic_format_FLT_bpow; [exact Hp|exact H]. Qed.
Lemma format_dyadic (k e : Z) : (emin <= e)%Z -> (Z.abs k <= 2 ^ prec)%Z ->
  generic_format radix2 (FLT_exp emin prec) (IZR k * bpow radix2 e).
Proof.
  intros E K. destruct (Z.eq_dec (Z.abs k) (2 ^ prec)) as [Q|Q].
  - assert (P : IZR (2 ^ prec) = bpow radix2 prec) by (rewrite <- IZR_Zpower; [reflexivity|exact (Z.lt_le_incl _ _ Hp)]).
    assert (X : generic_format radix2 (FLT_exp emin prec) (bpow radix2 (prec + e))) by (apply format_bpow; pose proof Hp; unfold Prec_gt_0 in *; lia).
    rewrite bpow_plus in X. destruct (Z.abs_eq_or_opp k) as [A|A]; rewrite A in Q.
    + rewrite Q, P. exact X.
    + assert (k = - 2 ^ prec)%Z by lia. subst k. rewrite opp_IZR, P, Ropp_mult_distr_l_reverse. apply generic_format_opp. exact X.
  - apply generic_format_FLT. exists (Float radix2 k e); [reflexivity|cbn [Fnum]; change (radix_val radix2) with 2%Z; lia|exact E].
Qed.
Lemma format_int (k : Z) : (emin <= 0)%Z -> (Z.abs k <= 2 ^ prec)%Z -> generic_format radix2 (FLT_exp emin prec) (IZR k).
Proof. intros E K. rewrite <- (Rmult_1_r (IZR k)). exact (format_dyadic k 0 E K). Qed.

(** Rounding a number below 2 changes it by at most 2^-prec. *)
Lemma rnd_small (x : R) : (emin <= 1 - prec)%Z -> Rabs x <= 2 -> Rabs (rnd x - x) <= bpow radix2 (- prec).
Proof.
  intros E H. destruct (Req_dec (Rabs x) 2) as [Q|Q].
  - rewrite round_generic; [rewrite Rminus_diag_eq by reflexivity; rewrite Rabs_R0; apply bpow_ge_0|auto with typeclass_instances|].
    pose proof Hp as Hp'. unfold Prec_gt_0 in Hp'.
    assert (X : generic_format radix2 (FLT_exp emin prec) (bpow radix2 1)) by (apply format_bpow; lia).
    change (bpow radix2 1) with 2 in X. unfold Rabs in Q. destruct (Rcase_abs x); [|rewrite Q; exact X].
    replace x with (-2) by lra. apply generic_format_opp. exact X.
  - eapply Rle_trans; [apply error_le_half_ulp; auto with typeclass_instances|].
    assert (U : ulp radix2 (FLT_exp emin prec) x <= bpow radix2 (1 - prec)).
    { destruct (Req_dec x 0) as [Z|Z].
      - subst x. rewrite ulp_FLT_0 by exact Hp. apply bpow_le. exact E.
      - rewrite ulp_neq_0 by exact Z. apply bpow_le. unfold cexp, FLT_exp.
        assert (M : (mag radix2 x <= 1)%Z) by (apply mag_le_bpow; [exact Z|change (bpow radix2 1) with 2; lra]). lia. }
    replace (bpow radix2 (1 - prec)) with (2 * bpow radix2 (- prec)) in U
      by (unfold Z.sub; rewrite bpow_plus; reflexivity). lra.
Qed.
Lemma rnd_mono (x y : R) : x <= y -> rnd x <= rnd y.
Proof. apply round_le; auto with typeclass_instances. Qed.
Lemma rnd_id (x : R) : generic_format radix2 (FLT_exp emin prec) x -> rnd x = x.
Proof. apply round_generic; auto with typeclass_instances. Qed.
Lemma rnd_0 : rnd 0 = 0.
Proof. apply round_0; auto with typeclass_instances. Qed.

(** The greatest integer below a number of the format belongs to the format. *)
Lemma format_floor (v : R) : (emin <= 0)%Z -> generic_format radix2 (FLT_exp emin prec) v ->
  generic_format radix2 (FLT_exp emin prec) (IZR (Zfloor v)).
Proof.
  intros E G. destruct (Rle_or_lt (bpow radix2 prec) (Rabs v)) as [H|H].
  - assert (X : exists k, v = IZR k).
    { assert (C : (0 <= cexp radix2 (FLT_exp emin prec) v)%Z).
      { unfold cexp, FLT_exp. assert (prec + 1 <= mag radix2 v)%Z by (apply mag_ge_bpow; replace (prec + 1 - 1)%Z with prec by lia; exact H). lia. }
      unfold generic_format in G. exists (Ztrunc (scaled_mantissa radix2 (FLT_exp emin prec) v) * 2 ^ cexp radix2 (FLT_exp emin prec) v)%Z.
      rewrite mult_IZR. change 2%Z with (radix_val radix2). rewrite IZR_Zpower by exact C. exact G. }
    destruct X as [k ->]. rewrite Zfloor_IZR. exact G.
  - apply format_int; [exact E|].
    assert (P : bpow radix2 prec = IZR (2 ^ prec)) by (rewrite <- IZR_Zpower; [reflexivity|exact (Z.lt_le_incl _ _ Hp)]).
    rewrite P in H. apply Rabs_def2 in H. destruct H as [H1 H2].
    assert (A : (Zfloor v < 2 ^ prec)%Z) by (apply lt_IZR; eapply Rle_lt_trans; [apply Zfloor_lb|exact H1]).
    assert (B : (- 2 ^ prec <= Zfloor v)%Z) by (apply Zfloor_lub; rewrite opp_IZR; lra). lia.
Qed.
End Format.

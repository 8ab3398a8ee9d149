(** Derivatives of the rotation prior. *)
From Coq Require Import Reals Lra List Lia FunctionalExtensionality.
From Verif Require Import Base MatchModel MatchSpec MatchFacts JetModel JetSpec JetFacts.
Open Scope R_scope.

Section Prior.
Variable atan2 : R -> R -> R.
Hypothesis Hf : atan2_ok atan2.

Lemma jnorm_spec (r d : R) : jnorm atan2 (J r d) = J (norm atan2 r) d.
Proof.
  unfold jnorm, jatan2, norm. cbn [nsin ncos jet_number jre jde]. f_equal.
  pose proof (sin2_cos2 r) as H. unfold Rsqr in H.
  replace (cos r * cos r + sin r * sin r) with 1 by lra.
  replace (1 / 1 * (- sin r * (- sin r * d) + cos r * (cos r * d))) with ((sin r * sin r + cos r * cos r) * d) by field.
  rewrite H. ring.
Qed.

Lemma prior_value (w r0 r d : R) :
  rotation_residual_rjet atan2 w r0 (J r d) = J (rotation_residual_2d atan2 w r0 r) (- w * d).
Proof.
  unfold rotation_residual_rjet, rotation_residual_2d, angle_difference_rjet, angle_difference.
  rewrite !jnorm_spec. set (a := norm atan2 r0). set (b := norm atan2 r). cbn [nsub jet_number jre jde].
  assert (A : jre (jabs (J (a - b) (0 - d))) = Rabs (a - b)).
  { unfold jabs, Rabs. cbn [jre jde]. destruct (Rlt_dec (a - b) 0), (Rcase_abs (a - b)); cbn [jre]; lra. }
  rewrite A.
  set (d2 := (2 * PI - Rabs (a - b)) * (if Rlt_dec 0 (a - b) then -1 else 1)).
  assert (B : nmul jet_number
                (J (2 * PI - jre (jabs (J (a - b) (0 - d)))) (0 - jde (jabs (J (a - b) (0 - d)))))
                (if Rlt_dec 0 (a - b) then J (-1) 0 else J 1 0) = J d2 (0 - d) \/
              (a - b = 0 /\ nmul jet_number
                (J (2 * PI - jre (jabs (J (a - b) (0 - d)))) (0 - jde (jabs (J (a - b) (0 - d)))))
                (if Rlt_dec 0 (a - b) then J (-1) 0 else J 1 0) = J d2 d)).
  { rewrite A. unfold d2, jabs. cbn [jre jde]. destruct (Rlt_dec 0 (a - b)), (Rlt_dec (a - b) 0); cbn [nmul jet_number jre jde].
    - lra.
    - left. f_equal; ring.
    - left. f_equal; ring.
    - right. split; [lra|]. f_equal; ring. }
  assert (C : forall j, jre (jabs j) = Rabs (jre j)).
  { intros j. unfold jabs, Rabs. destruct (Rlt_dec (jre j) 0), (Rcase_abs (jre j)); cbn [jre]; lra. }
  rewrite A in B. destruct B as [B|[Z B]].
  - cbn [nmul jet_number jre jde] in *. rewrite B, C. cbn [jre].
    destruct (Rlt_dec (Rabs (a - b)) (Rabs d2)); cbn [scale jet_number jre jde]; f_equal; ring.
  - cbn [nmul jet_number jre jde] in *. rewrite B, C. cbn [jre].
    destruct (Rlt_dec (Rabs (a - b)) (Rabs d2)) as [K|K]; cbn [scale jet_number jre jde]; [f_equal; ring|].
    exfalso. apply K. unfold d2. rewrite Z. rewrite Rabs_R0. destruct (Rlt_dec 0 0); [lra|].
    generalize PI_RGT_0; intros Hp. rewrite Rabs_pos_eq; lra.
Qed.

Lemma close_representative (a b : R) : congruent a b -> Rabs (a - b) < 2 * PI -> a = b.
Proof.
  intros [k E] H. generalize PI_RGT_0; intros Hp.
  assert (K : k = 0%Z).
  { destruct (Z_lt_le_dec 0 k) as [Hk|Hk].
    - exfalso. assert (1 <= IZR k) by (apply IZR_le; lia). apply Rabs_def2 in H. nra.
    - destruct (Z_lt_le_dec k 0) as [Hk'|Hk']; [|lia].
      exfalso. assert (IZR k <= -1) by (apply IZR_le; lia). apply Rabs_def2 in H. nra. }
  subst k. lra.
Qed.

Lemma prior_derives (w r0 r v : R) : ~ congruent (r0 - r) PI ->
  has_derivative (fun s => Ok (rotation_residual_2d atan2 w r0 (r + s * v))) 0 (- w * v).
Proof.
  intros Hn. generalize PI_RGT_0; intros Hp.
  destruct (angle_difference_spec atan2 r0 r Hf) as [C B]. set (d := angle_difference atan2 r0 r) in *.
  assert (Hd : Rabs d < PI).
  { destruct B as [B|B]; [exact B|]. exfalso. apply Hn.
    destruct (Rcase_abs d) as [L|L]; [rewrite Rabs_left in B by exact L|rewrite Rabs_right in B by exact L].
    - replace d with (- PI) in C by lra. apply congruent_sym in C. eapply congruent_trans; [exact C|]. exists (-1)%Z. lra.
    - rewrite B in C. apply congruent_sym. exact C. }
  set (e := (PI - Rabs d) / (Rabs v + 1)).
  assert (Hv : 0 < Rabs v + 1) by (pose proof (Rabs_pos v); lra).
  assert (He : 0 < e) by (unfold e; apply Rdiv_lt_0_compat; lra).
  exists (fun s => rotation_residual_2d atan2 w r0 (r + s * v)), e. split; [exact He|]. split; [reflexivity|].
  assert (L : forall s, Rabs s < e -> rotation_residual_2d atan2 w r0 (r + s * v) = w * (d - s * v)).
  { intros s Hs. unfold rotation_residual_2d. f_equal.
    destruct (angle_difference_spec atan2 r0 (r + s * v) Hf) as [C' B'].
    assert (Hsv : Rabs (s * v) < PI - Rabs d).
    { rewrite Rabs_mult. pose proof (Rabs_pos s). pose proof (Rabs_pos v).
      assert (Rabs s * (Rabs v + 1) < PI - Rabs d).
      { replace (PI - Rabs d) with (e * (Rabs v + 1)) by (unfold e; field; lra). apply Rmult_lt_compat_r; assumption. }
      nra. }
    apply close_representative.
    - eapply congruent_trans; [exact C'|]. destruct C as [k Ek]. exists (- k)%Z. rewrite opp_IZR. lra.
    - pose proof (Rabs_triang (angle_difference atan2 r0 (r + s * v)) (- (d - s * v))) as T1.
      pose proof (Rabs_triang d (- (s * v))) as T2. rewrite Rabs_Ropp in T1, T2.
      replace (d + - (s * v)) with (d - s * v) in T2 by ring.
      replace (angle_difference atan2 r0 (r + s * v) + - (d - s * v)) with
        (angle_difference atan2 r0 (r + s * v) - (d - s * v)) in T1 by ring. lra. }
  assert (D : derivable_pt_lim (fun s => w * (d - s * v)) 0 (- w * v)).
  { intros eps Heps. exists (mkposreal 1 Rlt_0_1). intros h H0 _.
    replace ((w * (d - (0 + h) * v) - w * (d - 0 * v)) / h - - w * v) with 0 by (field; exact H0). rewrite Rabs_R0. exact Heps. }
  intros eps Heps. destruct (D eps Heps) as [del K].
  exists (mkposreal (Rmin del e) (Rmin_stable_in_posreal del (mkposreal e He))).
  intros h H0 Hh. cbn in Hh. rewrite !L.
  - apply K; [exact H0|]. eapply Rlt_le_trans; [exact Hh|apply Rmin_l].
  - rewrite Rabs_R0. exact He.
  - rewrite Rplus_0_l. eapply Rlt_le_trans; [exact Hh|apply Rmin_r].
Qed.

Lemma prior_jumps (w : R) : w <> 0 ->
  forall d, ~ has_derivative (fun s => Ok (rotation_residual_2d atan2 w PI (0 + s * 1))) 0 d.
Proof.
  intros Hw d [f [eps [He [E Hd]]]]. generalize PI_RGT_0; intros Hp.
  assert (Hw' : 0 < Rabs w) by (apply Rabs_pos_lt; exact Hw).
  destruct (lim_continuous f 0 d (Rabs w * (PI / 2)) Hd) as [del [Hdel K]]; [nra|].
  set (h := Rmin (PI / 4) (Rmin (eps / 2) (del / 2))).
  assert (Hh : 0 < h /\ h <= PI / 4 /\ h < eps /\ h < del).
  { unfold h. pose proof (Rmin_l (PI / 4) (Rmin (eps / 2) (del / 2))). pose proof (Rmin_r (PI / 4) (Rmin (eps / 2) (del / 2))).
    pose proof (Rmin_l (eps / 2) (del / 2)). pose proof (Rmin_r (eps / 2) (del / 2)).
    split; [repeat apply Rmin_case; lra|lra]. }
  assert (A1 : Rabs (h - 0) = h) by (rewrite Rminus_0_r; apply Rabs_pos_eq; lra).
  assert (A2 : Rabs (- h - 0) = h) by (rewrite Rminus_0_r, Rabs_Ropp; apply Rabs_pos_eq; lra).
  pose proof (E h ltac:(rewrite A1; lra)) as E1. injection E1 as E1.
  pose proof (E (- h) ltac:(rewrite A2; lra)) as E2. injection E2 as E2.
  pose proof (K h ltac:(rewrite A1; lra)) as K1. pose proof (K (- h) ltac:(rewrite A2; lra)) as K2.
  assert (V1 : f h = w * (PI - h)).
  { rewrite <- E1. unfold rotation_residual_2d. f_equal.
    destruct (angle_difference_spec atan2 PI (0 + h * 1) Hf) as [C B].
    apply close_representative; [eapply congruent_trans; [exact C|exists 0%Z; lra]|].
    revert B. unfold Rabs. repeat destruct Rcase_abs; lra. }
  assert (V2 : f (- h) = w * (- PI + h)).
  { rewrite <- E2. unfold rotation_residual_2d. f_equal.
    destruct (angle_difference_spec atan2 PI (0 + - h * 1) Hf) as [C B].
    apply close_representative; [eapply congruent_trans; [exact C|exists 1%Z; lra]|].
    revert B. unfold Rabs. repeat destruct Rcase_abs; lra. }
  pose proof (Rabs_triang (f h - f 0) (- (f (- h) - f 0))) as T. rewrite Rabs_Ropp in T.
  replace (f h - f 0 + - (f (- h) - f 0)) with (w * (2 * PI - 2 * h)) in T by (rewrite V1, V2; ring).
  rewrite Rabs_mult in T. rewrite (Rabs_pos_eq (2 * PI - 2 * h)) in T by lra. nra.
Qed.
End Prior.

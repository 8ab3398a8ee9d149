(** Conversion to grids in floating-point arithmetic. *)
From Coq Require Import QArith Qabs Qround Reals Lra Qreals Floats.SpecFloat.
From Flocq Require Import Core Relative BinarySingleNaN.
From Verif Require Import Base SeqModel SeqFacts IndexModel IndexFacts OctreeSpec MapModel MapFacts MapHist BackendModel SysModel SysSpec SysFacts
  ExtentModel SampleModel SampleSpec SampleFacts ResidualModel RoundModel RoundFacts FloatModel FloatFacts FloatScoreFacts FloatBoundFacts FloatIndexFacts
  OddsFloatFacts ExtentFacts GridModel GridFacts GridFloatModel GridFloatSpec.
Open Scope R_scope.

(** ** The numbers *)
Section Numbers.
Variables prec emax : Z.
Hypothesis Hf : standard_format prec emax.
#[local] Instance Hp : Prec_gt_0 prec.
Proof. destruct Hf as [[-> ->]|[-> ->]]; reflexivity. Qed.
#[local] Instance He : Prec_lt_emax prec emax.
Proof. destruct Hf as [[-> ->]|[-> ->]]; reflexivity. Qed.
Notation emin := (3 - emax - prec)%Z.
Notation rnd := (round radix2 (FLT_exp emin prec) ZnearestE).
Notation good := (good_float prec emax).
Notation u := (bpow radix2 (- prec)).
Notation eta := (bpow radix2 (2 - emax - prec)).
Notation limit := (IZR (pixel_limit prec)).

Lemma sizes : (24 <= prec <= 53 /\ 128 <= emax /\ emin <= -149 /\ 2 - emax - prec <= -150 /\ prec + 64 <= emax)%Z.
Proof. destruct Hf as [[-> ->]|[-> ->]]; lia. Qed.
Lemma ops : (2 <= prec /\ 24 <= prec /\ prec + 64 <= emax)%Z.
Proof. pose proof sizes. lia. Qed.
Lemma u_bounds : 0 < u <= / 16777216.
Proof.
  split; [apply bpow_gt_0|]. change (/ 16777216) with (bpow radix2 (-24)). apply bpow_le. pose proof sizes. lia.
Qed.
Lemma eta_u : eta <= u.
Proof. apply bpow_le. pose proof sizes. lia. Qed.
Lemma eta_bounds : 0 < eta <= bpow radix2 (-150).
Proof. split; [apply bpow_gt_0|]. apply bpow_le. pose proof sizes. lia. Qed.
Lemma limit_bounds : 1 <= limit <= bpow radix2 30 /\ limit * u <= / 4 /\ limit * 4 <= bpow radix2 prec.
Proof.
  unfold pixel_limit. destruct Hf as [[-> ->]|[-> ->]].
  - change (Z.min (2 ^ 30) (2 ^ (24 - 2))) with (2 ^ 22)%Z. change (IZR (2 ^ 22)) with (bpow radix2 22). rewrite <- bpow_plus.
    change (bpow radix2 (22 + - (24))) with (/ 4). change (bpow radix2 24) with (IZR 16777216). change (bpow radix2 22) with (IZR 4194304).
    change (bpow radix2 30) with (IZR 1073741824). repeat split; lra.
  - change (Z.min (2 ^ 30) (2 ^ (53 - 2))) with (2 ^ 30)%Z. change (IZR (2 ^ 30)) with (bpow radix2 30). rewrite <- bpow_plus.
    assert (bpow radix2 (30 + - (53)) <= bpow radix2 (-2)) by (apply bpow_le; discriminate). change (bpow radix2 (-2)) with (/ 4) in H.
    assert (bpow radix2 32 <= bpow radix2 53) by (apply bpow_le; discriminate).
    change (bpow radix2 32) with (IZR 4294967296) in H0. change (bpow radix2 30) with (IZR 1073741824). repeat split; lra.
Qed.

Lemma rel (x : R) : bpow radix2 (-124) <= x -> x * (1 - u) <= rnd x <= x * (1 + u).
Proof.
  intros H. pose proof (bpow_gt_0 radix2 (-124)). pose proof (near_relative prec emax Hf x) as K.
  rewrite Rabs_pos_eq in K by lra. specialize (K H). apply Rabs_le_inv in K. lra.
Qed.
Lemma rel_any (x : R) : 0 <= x -> x * (1 - u) - eta <= rnd x <= x * (1 + u) + eta.
Proof.
  intros H. pose proof (near_error prec emax Hf x) as K. replace (emin - 1)%Z with (2 - emax - prec)%Z in K by lia.
  rewrite (Rabs_pos_eq x) in K by lra. apply Rabs_le_inv in K. lra.
Qed.
Lemma fits_emax (x : R) (k : Z) : (0 <= k < 128)%Z -> 0 <= x <= bpow radix2 k -> Rabs (rnd x) < bpow radix2 emax.
Proof.
  intros Hk H. apply (rnd_fits prec emax Hp ops x k); [pose proof sizes; lia|]. rewrite Rabs_pos_eq; lra.
Qed.

Variables b s : spec_float.
Hypothesis Gb : good b.
Hypothesis Gs : good s.
Hypothesis Hb : bpow radix2 (-101) <= val b <= bpow radix2 100.
Hypothesis Hs : bpow radix2 (-100) <= val s <= bpow radix2 100.
Notation q0 := (val b / val s).

Lemma b_pos : 0 < val b. Proof. pose proof (bpow_gt_0 radix2 (-101)). lra. Qed.
Lemma s_pos : 0 < val s. Proof. pose proof (bpow_gt_0 radix2 (-100)). lra. Qed.

Lemma ceil_val (x : spec_float) : val x <= IZR (Qceiling (float_value x)) < val x + 1.
Proof.
  rewrite <- value_val, <- Q2R_inject. split; [apply Qle_Rle, Qle_ceiling|].
  pose proof (Qceiling_lt (float_value x)) as K. apply Qlt_Rlt in K. rewrite Q2R_inject in *. rewrite minus_IZR in K. lra.
Qed.

Section Axis.
Variable n : Z.
Hypothesis Hn : (1 <= n <= INT_MAX)%Z.
Hypothesis Hl : IZR n * val b <= limit * val s.

Lemma n_pos : 1 <= IZR n. Proof. apply IZR_le. lia. Qed.
Lemma ratio_bounds : 0 < q0 /\ IZR n * q0 <= limit /\ q0 <= limit.
Proof.
  pose proof b_pos as B. pose proof s_pos as S. pose proof n_pos as N.
  assert (Q : 0 < q0) by (apply Rdiv_lt_0_compat; assumption).
  assert (T : IZR n * q0 <= limit).
  { apply Rmult_le_reg_r with (val s); [exact S|]. unfold Rdiv. rewrite !Rmult_assoc, Rinv_l, Rmult_1_r by lra. exact Hl. }
  split; [exact Q|]. split; [exact T|]. nra.
Qed.
Lemma ratio : val (SFdiv prec emax b s) = rnd q0 /\ good (SFdiv prec emax b s).
Proof.
  destruct ratio_bounds as [Q [_ T]]. destruct limit_bounds as [[L0 L1] _]. pose proof s_pos as S.
  apply (fdiv_round prec emax Hp He); [exact Gb|exact Gs|lra|]. apply (fits_emax _ 30); [lia|lra].
Qed.
(** The chunk width. *)
Lemma step : let cs := Zfloor (rnd q0) in
  float_chunk_step prec emax b s = Ok cs /\ (0 <= cs)%Z /\ IZR cs <= q0 * (1 + u) + eta /\ q0 * (1 - u) - eta < IZR cs + 1 /\
  (n * cs <= INT_MAX)%Z.
Proof.
  intros cs. destruct ratio as [V G]. destruct ratio_bounds as [Q [T1 T]]. destruct limit_bounds as [[L0 L1] [L2 _]].
  pose proof u_bounds as U. pose proof eta_bounds as [E0 E1]. pose proof n_pos as N.
  destruct (rel_any q0 ltac:(lra)) as [R1 R2]. pose proof (Zfloor_lb (rnd q0)) as F1. pose proof (Zfloor_ub (rnd q0)) as F2. fold cs in F1, F2.
  assert (R0 : 0 <= rnd q0) by (rewrite <- (rnd_0 prec emax); apply rnd_mono; [exact Hp|lra]).
  assert (C0 : (0 <= cs)%Z) by (apply Zfloor_lub; exact R0).
  assert (NI : IZR n <= IZR INT_MAX) by (apply IZR_le; lia).
  assert (C1 : (n * cs <= INT_MAX)%Z).
  { apply le_IZR. rewrite mult_IZR.
    assert (A : IZR n * IZR cs <= IZR n * (q0 * (1 + u) + eta)) by (apply Rmult_le_compat_l; lra).
    assert (B : IZR n * eta <= 1).
    { apply Rle_trans with (IZR INT_MAX * bpow radix2 (-150)); [apply Rmult_le_compat; lra|].
      apply Rle_trans with (bpow radix2 31 * bpow radix2 (-150)); [apply Rmult_le_compat_r; [apply bpow_ge_0|]; change (bpow radix2 31) with (IZR 2147483648); apply IZR_le; discriminate|].
      rewrite <- bpow_plus. change 1 with (bpow radix2 0). apply bpow_le. discriminate. }
    assert (C : IZR n * q0 * u <= / 4) by (eapply Rle_trans; [|exact L2]; apply Rmult_le_compat_r; lra).
    change (bpow radix2 30) with (IZR 1073741824) in L1. unfold INT_MAX. change (2 ^ 31 - 1)%Z with 2147483647%Z. nra. }
  split; [|split; [exact C0|split; [lra|split; [lra|exact C1]]]].
  unfold float_chunk_step. rewrite (proj2 G). unfold qtrunc.
  assert (K : (0 <= float_value (SFdiv prec emax b s))%Q) by (apply Rle_Qle; rewrite Q2R_0', value_val, V; exact R0).
  rewrite (proj2 (Qle_bool_iff _ _) K), floor_val, V. fold cs. apply to_int_ok. unfold INT_MIN in *. nia.
Qed.

(** The extent. *)
Notation w := (fmul prec emax (float_of_int prec emax n) b).
Lemma of_count : val (float_of_int prec emax n) = rnd (IZR n) /\ good (float_of_int prec emax n) /\
  IZR n * (1 - u) <= rnd (IZR n) <= IZR n * (1 + u) /\ 1 <= rnd (IZR n).
Proof.
  pose proof n_pos as N. pose proof (normalize_round prec emax Hp He n 0 false) as K.
  assert (E : F2R (Float radix2 n 0) = IZR n) by (unfold F2R; cbn; ring). rewrite E in K.
  destruct K as [A B].
  { apply (fits_emax _ 31); [lia|]. split; [lra|]. change (bpow radix2 31) with (IZR 2147483648). apply IZR_le. unfold INT_MAX in Hn. lia. }
  split; [exact A|]. split; [exact B|]. split.
  - apply rel. apply Rle_trans with 1; [|lra]. change 1 with (bpow radix2 0). apply bpow_le. discriminate.
  - rewrite <- (rnd_id prec emax 1) at 1; [apply rnd_mono; [exact Hp|exact N]|]. change 1 with (bpow radix2 0).
    apply (format_bpow prec emax Hp). pose proof sizes. lia.
Qed.
Lemma no_overflow (x : R) : 0 <= x <= 2 * (limit * val s) -> Rabs (rnd x) < bpow radix2 emax.
Proof.
  intros [X0 X1].
  assert (K : exists k, (0 <= k < emax)%Z /\ x <= bpow radix2 k).
  { destruct Hf as [[E1 E2]|[E1 E2]].
    - exists 123%Z. split; [lia|]. assert (E : limit = bpow radix2 22) by (rewrite E1; reflexivity). rewrite E in X1.
      assert (bpow radix2 22 * val s <= bpow radix2 22 * bpow radix2 100) by (apply Rmult_le_compat_l; [apply bpow_ge_0|apply Hs]).
      rewrite <- bpow_plus in H. change 123%Z with (1 + (22 + 100))%Z. rewrite bpow_plus. change (bpow radix2 1) with 2. lra.
    - exists 131%Z. split; [lia|]. assert (E : limit = bpow radix2 30) by (rewrite E1; reflexivity). rewrite E in X1.
      assert (bpow radix2 30 * val s <= bpow radix2 30 * bpow radix2 100) by (apply Rmult_le_compat_l; [apply bpow_ge_0|apply Hs]).
      rewrite <- bpow_plus in H. change 131%Z with (1 + (30 + 100))%Z. rewrite bpow_plus. change (bpow radix2 1) with 2. lra. }
  destruct K as [k [Hk K]]. apply (rnd_fits prec emax Hp ops x k Hk). rewrite Rabs_pos_eq; lra.
Qed.
Lemma extent_near : good w /\ IZR n * val b * (1 - 3 * u) <= val w <= IZR n * val b * (1 + 3 * u) /\
  (IZR n <= bpow radix2 prec -> IZR n * val b * (1 - u) <= val w).
Proof.
  destruct of_count as [V [G [[A B] C]]]. pose proof b_pos as P. pose proof u_bounds as [U0 U1]. pose proof n_pos as N.
  set (x := rnd (IZR n)) in *.
  assert (X : bpow radix2 (-124) <= x * val b).
  { apply Rle_trans with (1 * bpow radix2 (-101)); [rewrite Rmult_1_l; apply bpow_le; discriminate|].
    apply Rmult_le_compat; [lra|apply bpow_ge_0|exact C|apply Hb]. }
  assert (NB : 0 < IZR n * val b) by (apply Rmult_lt_0_compat; lra).
  assert (XA : IZR n * val b * (1 - u) <= x * val b) by (replace (IZR n * val b * (1 - u)) with (IZR n * (1 - u) * val b) by ring; apply Rmult_le_compat_r; lra).
  assert (XB : x * val b <= IZR n * val b * (1 + u)) by (replace (IZR n * val b * (1 + u)) with (IZR n * (1 + u) * val b) by ring; apply Rmult_le_compat_r; lra).
  destruct (fmul_round prec emax Hp He _ _ G Gb) as [W1 W2].
  { rewrite V. apply no_overflow. split; [nra|]. assert (IZR n * val b * (1 + u) <= IZR n * val b * 2) by (apply Rmult_le_compat_l; lra). lra. }
  rewrite V in W1. destruct (rel _ X) as [R1 R2]. split; [exact W2|]. rewrite W1.
  assert (Z : IZR n <= bpow radix2 prec -> x * val b = IZR n * val b).
  { intros Hx. f_equal. unfold x. apply (rnd_id prec emax). rewrite <- (Rmult_1_r (IZR n)). change 1 with (bpow radix2 0).
    apply (format_dyadic prec emax Hp); [pose proof sizes; lia|]. rewrite Z.abs_eq by lia. apply le_IZR.
    change 2%Z with (radix_val radix2). rewrite IZR_Zpower by (pose proof sizes; lia). exact Hx. }
  set (y := IZR n * val b) in *. set (z := x * val b) in *. set (r := rnd z) in *. clearbody y z r.
  split; [split|].
  - apply Rle_trans with (y * (1 - u) * (1 - u)); [nra|]. apply Rle_trans with (z * (1 - u)); [apply Rmult_le_compat_r; lra|exact R1].
  - apply Rle_trans with (z * (1 + u)); [exact R2|]. apply Rle_trans with (y * (1 + u) * (1 + u)); [apply Rmult_le_compat_r; lra|nra].
  - intros Hx. rewrite <- (Z Hx). exact R1.
Qed.
(** The number of pixels. *)
Lemma pixels : let cs := Zfloor (rnd q0) in exists W, float_pixels prec emax w s = Ok W /\ (0 <= W)%Z /\
  IZR n * q0 * (1 - 4 * u) - eta <= IZR W < IZR n * q0 * (1 + 5 * u) + eta + 1 /\ (n * cs <= W)%Z.
Proof.
  intros cs. destruct extent_near as [Gw [[W1 W2] W3]]. destruct ratio_bounds as [Q [T1 T]]. destruct limit_bounds as [[L0 L1] [L2 L3]].
  pose proof u_bounds as [U0 U1]. pose proof eta_bounds as [E0 E1]. pose proof n_pos as N. pose proof b_pos as PB. pose proof s_pos as PS.
  destruct step as [_ [C0 [C1 [C2 C3]]]]. fold cs in C0, C1, C2, C3.
  assert (E2 : eta <= / 16777216) by (eapply Rle_trans; [exact E1|]; change (/ 16777216) with (bpow radix2 (-24)); apply bpow_le; discriminate).
  assert (NQ : IZR n * q0 = IZR n * val b * / val s) by (unfold Rdiv; ring).
  assert (IS : 0 < / val s) by (apply Rinv_0_lt_compat; exact PS).
  assert (X1 : IZR n * q0 * (1 - 3 * u) <= val w / val s).
  { rewrite NQ. unfold Rdiv. replace (IZR n * val b * / val s * (1 - 3 * u)) with (IZR n * val b * (1 - 3 * u) * / val s) by ring. apply Rmult_le_compat_r; lra. }
  assert (X2 : val w / val s <= IZR n * q0 * (1 + 3 * u)).
  { rewrite NQ. unfold Rdiv. replace (IZR n * val b * / val s * (1 + 3 * u)) with (IZR n * val b * (1 + 3 * u) * / val s) by ring. apply Rmult_le_compat_r; lra. }
  assert (X3 : IZR n <= bpow radix2 prec -> IZR n * q0 * (1 - u) <= val w / val s).
  { intros H. specialize (W3 H). rewrite NQ. unfold Rdiv. replace (IZR n * val b * / val s * (1 - u)) with (IZR n * val b * (1 - u) * / val s) by ring. apply Rmult_le_compat_r; lra. }
  set (y := IZR n * q0) in *. assert (Y0 : 0 < y) by (apply Rmult_lt_0_compat; lra).
  set (x := val w / val s) in *.
  assert (X0 : 0 <= x) by nra. assert (X4 : x <= bpow radix2 31).
  { change (bpow radix2 31) with (2 * bpow radix2 30). nra. }
  destruct (fdiv_round prec emax Hp He w s Gw Gs) as [V G]; [lra|apply (fits_emax _ 31); [lia|split; assumption]|].
  fold x in V. destruct (rel_any x X0) as [R1 R2]. destruct (ceil_val (SFdiv prec emax w s)) as [K1 K2]. rewrite V in K1, K2.
  set (W := Qceiling (float_value (SFdiv prec emax w s))) in *.
  assert (R0 : 0 <= rnd x) by (rewrite <- (rnd_0 prec emax); apply rnd_mono; [exact Hp|exact X0]).
  assert (W0 : (0 <= W)%Z) by (apply le_IZR; lra).
  exists W. split; [|split; [exact W0|split; [split|]]].
  - unfold float_pixels. rewrite (proj2 G). fold W. unfold to_size. rewrite (proj2 (Z.leb_le _ _) W0). cbn [andb].
    assert (H : (W < 2 ^ 64)%Z).
    { apply lt_IZR. change (IZR (2 ^ 64)) with (bpow radix2 64). apply Rlt_le_trans with (4 * bpow radix2 31); [|change (4 * bpow radix2 31) with (bpow radix2 2 * bpow radix2 31); rewrite <- bpow_plus; apply bpow_le; discriminate].
      assert (1 <= bpow radix2 31) by (change 1 with (bpow radix2 0); apply bpow_le; discriminate).
      assert (x * u <= x * / 16777216) by (apply Rmult_le_compat_l; lra). lra. }
    rewrite (proj2 (Z.ltb_lt _ _) H). reflexivity.
  - assert (y * (1 - 3 * u) * (1 - u) <= x * (1 - u)) by (apply Rmult_le_compat_r; lra).
    assert (0 <= y * (u * u)) by (apply Rmult_le_pos; [lra|apply Rmult_le_pos; lra]). lra.
  - assert (x * (1 + u) <= y * (1 + 3 * u) * (1 + u)) by (apply Rmult_le_compat_r; lra).
    assert (y * (u * (3 * u)) <= y * (u * 1)) by (apply Rmult_le_compat_l; [lra|apply Rmult_le_compat_l; lra]). lra.
  - destruct (Z.eq_dec cs 0) as [->|Hne]; [lia|]. assert (C4 : (1 <= cs)%Z) by lia. apply IZR_le in C4.
    (* the quotient is about 1 at least *)
    pose proof eta_u as EU. assert (Q1 : 1 - 2 * u <= q0).
    { apply Rnot_lt_le. intros H. assert (q0 * (1 + u) <= (1 - 2 * u) * (1 + u)) by (apply Rmult_le_compat_r; lra).
      assert (0 < u * u) by (apply Rmult_lt_0_compat; lra). lra. }
    assert (NP : IZR n <= bpow radix2 prec).
    { apply Rle_trans with (limit * 4); [|exact L3]. assert (IZR n * (1 - 2 * u) <= y) by (unfold y; apply Rmult_le_compat_l; lra).
      assert (IZR n * (2 * u) <= IZR n * / 2) by (apply Rmult_le_compat_l; lra). lra. }
    specialize (X3 NP).
    (* N cs (1-3u) - tiny *)
    assert (NE : IZR n * eta <= / 1024).
    { apply Rle_trans with (bpow radix2 prec * bpow radix2 (-150)); [apply Rmult_le_compat; lra|]. rewrite <- bpow_plus.
      change (/ 1024) with (bpow radix2 (-10)). apply bpow_le. pose proof sizes. lia. }
    assert (M1 : IZR n * IZR cs <= y * (1 + u) + / 1024).
    { assert (IZR n * IZR cs <= IZR n * (q0 * (1 + u) + eta)) by (apply Rmult_le_compat_l; lra). unfold y. lra. }
    set (M := IZR n * IZR cs) in *.
    assert (YU : y * u <= / 4) by (eapply Rle_trans; [apply Rmult_le_compat_r; [lra|exact T1]|exact L2]).
    assert (F : M - 1 < rnd x).
    { assert (y * (1 - u) * (1 - u) <= x * (1 - u)) by (apply Rmult_le_compat_r; lra).
      assert (0 <= y * (u * u)) by (apply Rmult_le_pos; [lra|apply Rmult_le_pos; lra]). lra. }
    apply Z.lt_pred_le. apply lt_IZR. unfold Z.pred. rewrite plus_IZR, mult_IZR. fold M. change (IZR (-1)) with (- (1)). lra.
Qed.
End Axis.

(** ** Positions *)
Lemma int_rounded (i : Z) : (Z.abs i <= 2 ^ 31)%Z -> val (float_of_int prec emax i) = rnd (IZR i) /\ good (float_of_int prec emax i) /\
  Rabs (rnd (IZR i) - IZR i) <= u * Rabs (IZR i).
Proof.
  intros Hi. pose proof (normalize_round prec emax Hp He i 0 false) as K.
  assert (E : F2R (Float radix2 i 0) = IZR i) by (unfold F2R; cbn; ring). rewrite E in K.
  destruct K as [A B].
  { apply (rnd_fits prec emax Hp ops _ 31); [pose proof sizes; lia|]. rewrite <- abs_IZR. apply IZR_le in Hi. exact Hi. }
  split; [exact A|]. split; [exact B|]. destruct (Z.eq_dec i 0) as [->|Hne].
  - rewrite (rnd_0 prec emax), Rminus_0_r, Rabs_R0. lra.
  - apply (near_relative prec emax Hf). rewrite <- abs_IZR. apply Rle_trans with 1; [change 1 with (bpow radix2 0); apply bpow_le; discriminate|].
    apply IZR_le. lia.
Qed.
Lemma scaled (i : Z) (r : spec_float) : good r -> bpow radix2 (-101) <= val r -> (Z.abs i <= 2 ^ 31)%Z ->
  Rabs (IZR i) * val r <= bpow radix2 110 ->
  let y := fmul prec emax (float_of_int prec emax i) r in
  good y /\ Rabs (val y - IZR i * val r) <= (2 * u + u * u) * (Rabs (IZR i) * val r).
Proof.
  intros Gr Hr Hi Hbig y. destruct (int_rounded i Hi) as [V [G N]]. pose proof u_bounds as [U0 U1].
  assert (R0 : 0 < val r) by (pose proof (bpow_gt_0 radix2 (-101)); lra).
  set (x := rnd (IZR i)) in *. pose proof (Rabs_pos (IZR i)) as P0.
  assert (X1 : Rabs (x * val r - IZR i * val r) <= u * (Rabs (IZR i) * val r)).
  { rewrite <- Rmult_minus_distr_r, Rabs_mult, (Rabs_pos_eq (val r)) by lra. rewrite <- Rmult_assoc. apply Rmult_le_compat_r; lra. }
  assert (X2 : Rabs (x * val r) <= (1 + u) * (Rabs (IZR i) * val r)).
  { replace (x * val r) with ((x * val r - IZR i * val r) + IZR i * val r) by ring. eapply Rle_trans; [apply Rabs_triang|].
    rewrite (Rabs_mult (IZR i)), (Rabs_pos_eq (val r)) by lra. lra. }
  set (z := Rabs (IZR i) * val r) in *. assert (Z0 : 0 <= z) by (apply Rmult_le_pos; lra).
  destruct (fmul_round prec emax Hp He _ _ G Gr) as [W1 W2].
  { rewrite V. fold x. apply (rnd_fits prec emax Hp ops _ 111); [pose proof sizes; lia|]. eapply Rle_trans; [exact X2|].
    change 111%Z with (1 + 110)%Z. rewrite bpow_plus. change (bpow radix2 1) with 2. apply Rmult_le_compat; lra. }
  split; [exact W2|]. unfold y. rewrite W1, V. fold x.
  assert (X3 : Rabs (rnd (x * val r) - x * val r) <= u * Rabs (x * val r)).
  { destruct (Z.eq_dec i 0) as [E|Hne].
    - unfold x. rewrite E, (rnd_0 prec emax), Rmult_0_l, (rnd_0 prec emax), Rminus_0_r, Rabs_R0. lra.
    - apply (near_relative prec emax Hf). rewrite Rabs_mult, (Rabs_pos_eq (val r)) by lra.
      assert (I1 : 1 <= Rabs (IZR i)) by (rewrite <- abs_IZR; apply IZR_le; lia).
      assert (x1 : / 2 <= Rabs x).
      { pose proof (Rabs_triang (IZR i - x) x) as K. replace (IZR i - x + x) with (IZR i) in K by ring. rewrite Rabs_minus_sym in N.
        assert (u * Rabs (IZR i) <= / 2 * Rabs (IZR i)) by (apply Rmult_le_compat_r; lra). lra. }
      apply Rle_trans with (/ 2 * bpow radix2 (-101)); [change (/ 2) with (bpow radix2 (-1)); rewrite <- bpow_plus; apply bpow_le; discriminate|].
      apply Rmult_le_compat; [lra|apply bpow_ge_0|exact x1|exact Hr]. }
  replace (rnd (x * val r) - IZR i * val r) with ((rnd (x * val r) - x * val r) + (x * val r - IZR i * val r)) by ring.
  eapply Rle_trans; [apply Rabs_triang|]. assert (u * Rabs (x * val r) <= u * ((1 + u) * z)) by (apply Rmult_le_compat_l; lra). lra.
Qed.
Lemma coordinate (i k : Z) : (Z.abs i <= 2 ^ 31)%Z -> (0 <= k <= 2 ^ 31)%Z ->
  Rabs (IZR i) * val b <= bpow radix2 110 -> IZR k * val s <= bpow radix2 110 ->
  let x := float_chunk_coordinate prec emax b s i k in
  good x /\ Rabs (val x - (IZR i * val b + IZR k * val s)) <= 4 * u * (Rabs (IZR i) * val b + IZR k * val s) + eta.
Proof.
  intros Hi Hk Bi Bk x. pose proof u_bounds as [U0 U1]. assert (K0 : 0 <= IZR k) by (apply IZR_le; lia).
  assert (AK : Rabs (IZR k) = IZR k) by (apply Rabs_pos_eq; exact K0).
  destruct (scaled i b Gb (proj1 Hb) Hi Bi) as [G1 N1].
  destruct (scaled k s Gs) as [G2 N2]; [eapply Rle_trans; [|apply Hs]; apply bpow_le; discriminate|lia|rewrite AK; exact Bk|].
  rewrite AK in N2. unfold x, float_chunk_coordinate.
  set (y1 := fmul prec emax (float_of_int prec emax i) b) in *. set (y2 := fmul prec emax (float_of_int prec emax k) s) in *.
  set (a := Rabs (IZR i) * val b) in *. set (d := IZR k * val s) in *. pose proof b_pos as PB. pose proof s_pos as PS.
  assert (A0 : 0 <= a) by (apply Rmult_le_pos; [apply Rabs_pos|lra]). assert (D0 : 0 <= d) by (apply Rmult_le_pos; lra).
  set (t := IZR i * val b) in *.
  assert (AT : Rabs t = a) by (unfold t, a; rewrite Rabs_mult, (Rabs_pos_eq (val b)) by lra; reflexivity).
  assert (S1 : Rabs (val y1 + val y2 - (t + d)) <= (2 * u + u * u) * (a + d)).
  { replace (val y1 + val y2 - (t + d)) with ((val y1 - t) + (val y2 - d)) by ring. eapply Rle_trans; [apply Rabs_triang|]. lra. }
  assert (UU : 0 < u * u <= u * / 16777216) by (split; [apply Rmult_lt_0_compat; lra|apply Rmult_le_compat_l; lra]).
  assert (S2 : Rabs (val y1 + val y2) <= (1 + 3 * u) * (a + d)).
  { replace (val y1 + val y2) with ((val y1 + val y2 - (t + d)) + (t + d)) by ring. eapply Rle_trans; [apply Rabs_triang|].
    assert (Rabs (t + d) <= a + d) by (eapply Rle_trans; [apply Rabs_triang|]; rewrite AT, (Rabs_pos_eq d) by lra; lra).
    assert ((2 * u + u * u) * (a + d) <= (3 * u) * (a + d)) by (apply Rmult_le_compat_r; lra). lra. }
  destruct (fadd_round prec emax Hp He y1 y2 G1 G2) as [V G].
  { apply (rnd_fits prec emax Hp ops _ 112); [pose proof sizes; lia|]. eapply Rle_trans; [exact S2|].
    change 112%Z with (2 + 110)%Z. rewrite bpow_plus. change (bpow radix2 2) with 4.
    apply Rle_trans with (2 * (a + d)); [apply Rmult_le_compat_r; lra|lra]. }
  split; [exact G|]. rewrite V. pose proof (near_error prec emax Hf (val y1 + val y2)) as K.
  replace (emin - 1)%Z with (2 - emax - prec)%Z in K by lia.
  replace (rnd (val y1 + val y2) - (t + d)) with ((rnd (val y1 + val y2) - (val y1 + val y2)) + (val y1 + val y2 - (t + d))) by ring.
  eapply Rle_trans; [apply Rabs_triang|].
  assert (u * Rabs (val y1 + val y2) <= u * ((1 + 3 * u) * (a + d))) by (apply Rmult_le_compat_l; lra).
  assert ((u * u) * (a + d) <= (u * / 16777216) * (a + d)) by (apply Rmult_le_compat_r; lra).
  assert (0 <= u * (a + d)) by (apply Rmult_le_pos; lra). lra.
Qed.

(** ** Weights *)
Definition exact_weight (i k cs : Z) : R := if Z.odd i then IZR k / IZR cs else 1 - IZR k / IZR cs.
Lemma chunk_weight_near (i k cs : Z) : (0 <= k < cs)%Z -> (cs <= 2 ^ prec)%Z ->
  unit_val prec emax (float_chunk_weight prec emax i k cs) /\
  Rabs (val (float_chunk_weight prec emax i k cs) - exact_weight i k cs) <= 2 * u.
Proof.
  intros Hk Hcs. pose proof u_bounds as [U0 U1].
  assert (O : forall z, (0 <= z <= cs)%Z -> val (float_of_int prec emax z) = IZR z /\ good (float_of_int prec emax z)).
  { intros z Hz. apply (of_int prec emax Hf).
    - rewrite <- (Rmult_1_r (IZR z)). change 1 with (bpow radix2 0). apply (format_dyadic prec emax Hp); [pose proof sizes; lia|].
      rewrite Z.abs_eq by lia. lia.
    - rewrite Rabs_pos_eq by (apply IZR_le; lia). apply Rle_lt_trans with (bpow radix2 prec); [|apply bpow_lt; pose proof sizes; lia].
      rewrite <- IZR_Zpower by (pose proof sizes; lia). apply IZR_le. change (radix_val radix2) with 2%Z. lia. }
  destruct (O k ltac:(lia)) as [Vk Gk]. destruct (O cs ltac:(lia)) as [Vc Gc].
  assert (C0 : 0 < IZR cs) by (apply IZR_lt; lia). assert (K0 : 0 <= IZR k < IZR cs) by (split; [apply IZR_le|apply IZR_lt]; lia).
  assert (Q : 0 <= IZR k / IZR cs <= 1).
  { split; [apply Rmult_le_pos; [lra|apply Rlt_le, Rinv_0_lt_compat; exact C0]|]. apply Rmult_le_reg_r with (IZR cs); [exact C0|].
    unfold Rdiv. rewrite Rmult_assoc, Rinv_l by lra. lra. }
  destruct (fdiv_round prec emax Hp He _ _ Gk Gc) as [V G]; [rewrite Vc; lra|rewrite Vk, Vc; apply (fits_emax _ 0); [lia|exact Q]|].
  rewrite Vk, Vc in V. pose proof (OddsFloatFacts.rnd_unit prec emax Hp ops _ Q) as RU. pose proof (OddsFloatFacts.rnd_near prec emax Hp ops _ Q) as RN.
  unfold float_chunk_weight, exact_weight. set (r := SFdiv prec emax (float_of_int prec emax k) (float_of_int prec emax cs)) in *.
  assert (Ur : unit_val prec emax r) by (split; [exact G|rewrite V; exact RU]).
  destruct (Z.odd i); [split; [exact Ur|rewrite V; lra]|].
  destruct (one_spec prec emax Hf) as [E1 G1].
  destruct (sub_unit prec emax Hf (float_one prec emax) r G1 G) as [A B]; [rewrite E1, V; lra|].
  split; [exact A|]. rewrite E1, V in B.
  replace (val (fsub prec emax (float_one prec emax) r) - (1 - IZR k / IZR cs))
    with ((val (fsub prec emax (float_one prec emax) r) - (1 - rnd (IZR k / IZR cs))) - (rnd (IZR k / IZR cs) - IZR k / IZR cs)) by ring.
  eapply Rle_trans; [apply Rabs_triang|]. rewrite Rabs_Ropp. lra.
Qed.
End Numbers.

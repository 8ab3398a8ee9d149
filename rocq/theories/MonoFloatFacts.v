(** Conversion of the grid map with one distribution per cell in floating-point arithmetic. *)
From Coq Require Import QArith Qabs Qround Reals Lra Qreals Floats.SpecFloat.
From Flocq Require Import Core Relative BinarySingleNaN.
From Verif Require Import Base SeqModel SeqFacts IndexModel IndexFacts OctreeSpec MapModel MapFacts BackendModel SysModel SysSpec
  ExtentModel ExtentFacts SampleModel ResidualModel RoundModel RoundFacts FloatModel FloatFacts FloatScoreFacts FloatBoundFacts FloatIndexFacts
  OddsFloatFacts ConvFacts GridModel GridFacts MonoModel MonoSpec MonoFacts GridFloatModel GridFloatSpec GridFloatFacts GridFloatMap MonoFloatModel MonoFloatSpec.
Open Scope R_scope.

(** ** The numbers *)
Section Numbers.
Variables prec emax : Z.
Hypothesis Hf : standard_format prec emax.
#[local] Instance Hp : Prec_gt_0 prec.
Proof. destruct Hf as [[-> ->]|[-> ->]]; reflexivity. Qed.
#[local] Instance He : Prec_lt_emax prec emax.
Proof. destruct Hf as [[-> ->]|[-> ->]]; reflexivity. Qed.
Notation emin := (3 - emax - prec)%Z.
Notation rnd := (round radix2 (FLT_exp emin prec) ZnearestE).
Notation good := (good_float prec emax).
Notation u := (bpow radix2 (- prec)).
Notation eta := (bpow radix2 (2 - emax - prec)).
Notation limit := (IZR (pixel_limit prec)).

Variables b s : spec_float.
Hypothesis Gb : good b.
Hypothesis Gs : good s.
Hypothesis Hb : bpow radix2 (-100) <= val b <= bpow radix2 100.
Hypothesis Hs : bpow radix2 (-100) <= val s <= bpow radix2 100.
Hypothesis Hsb : val s <= val b.

Lemma mb_pos : 0 < val b. Proof. pose proof (bpow_gt_0 radix2 (-100)). lra. Qed.
Lemma ms_pos : 0 < val s. Proof. pose proof (bpow_gt_0 radix2 (-100)). lra. Qed.
Lemma Hb' : bpow radix2 (-101) <= val b <= bpow radix2 100.
Proof. split; [|apply Hb]. eapply Rle_trans; [|apply Hb]. apply bpow_le. discriminate. Qed.

(** The cell of a pixel before the conversion to [int]. *)
Definition cell_real (i : Z) : R := rnd (rnd (IZR i * val s) / val b).
Lemma cell_real_mono (i j : Z) : (i <= j)%Z -> cell_real i <= cell_real j.
Proof.
  intros H. pose proof mb_pos as B. pose proof ms_pos as S. apply rnd_mono; [exact Hp|].
  apply Rmult_le_compat_r; [apply Rlt_le, Rinv_0_lt_compat; exact B|]. apply rnd_mono; [exact Hp|].
  apply Rmult_le_compat_r; [lra|apply IZR_le; exact H].
Qed.
Lemma cell_real_0 : cell_real 0 = 0.
Proof. unfold cell_real. rewrite Rmult_0_l, (rnd_0 prec emax). unfold Rdiv. rewrite Rmult_0_l. apply (rnd_0 prec emax). Qed.

Lemma ratio_le (i : Z) : (0 <= i)%Z -> 0 <= IZR i * val s / val b <= IZR i.
Proof.
  intros Hi. apply IZR_le in Hi. pose proof mb_pos as B. pose proof ms_pos as S. split.
  - apply Rmult_le_pos; [apply Rmult_le_pos; lra|apply Rlt_le, Rinv_0_lt_compat; exact B].
  - apply Rmult_le_reg_r with (val b); [exact B|]. unfold Rdiv. rewrite Rmult_assoc, Rinv_l, Rmult_1_r by lra.
    apply Rmult_le_compat_l; lra.
Qed.
Lemma cell_real_near (i : Z) : (0 <= i)%Z ->
  Rabs (cell_real i - IZR i * val s / val b) <= 3 * u * (IZR i * val s / val b) + eta.
Proof.
  intros Hi. pose proof (u_bounds prec emax Hf) as [U0 U1]. pose proof (eta_bounds prec emax Hf) as [E0 E1].
  pose proof mb_pos as B. pose proof ms_pos as S. destruct (ratio_le i Hi) as [T0 _].
  set (t := IZR i * val s / val b) in *.
  destruct (Z.eq_dec i 0) as [->|Hne].
  - rewrite cell_real_0. unfold t. rewrite Rmult_0_l. unfold Rdiv. rewrite Rmult_0_l, Rminus_0_r, Rabs_R0. lra.
  - assert (I1 : 1 <= IZR i) by (apply IZR_le; lia).
    destruct (rel prec emax Hf (IZR i * val s)) as [R1 R2].
    { apply Rle_trans with (1 * bpow radix2 (-100)); [rewrite Rmult_1_l; apply bpow_le; discriminate|].
      apply Rmult_le_compat; [lra|apply bpow_ge_0|exact I1|apply Hs]. }
    assert (IB : 0 < / val b) by (apply Rinv_0_lt_compat; exact B).
    assert (A1 : t * (1 - u) <= rnd (IZR i * val s) / val b).
    { unfold t, Rdiv. replace (IZR i * val s * / val b * (1 - u)) with (IZR i * val s * (1 - u) * / val b) by ring. apply Rmult_le_compat_r; lra. }
    assert (A2 : rnd (IZR i * val s) / val b <= t * (1 + u)).
    { unfold t, Rdiv. replace (IZR i * val s * / val b * (1 + u)) with (IZR i * val s * (1 + u) * / val b) by ring. apply Rmult_le_compat_r; lra. }
    unfold cell_real. set (y := rnd (IZR i * val s) / val b) in *.
    assert (T1 : 0 <= t * (1 - u)) by (apply Rmult_le_pos; lra).
    destruct (rel_any prec emax Hf y ltac:(lra)) as [Y1 Y2].
    assert (B1 : t * (1 - u) * (1 - u) <= y * (1 - u)) by (apply Rmult_le_compat_r; lra).
    assert (B2 : y * (1 + u) <= t * (1 + u) * (1 + u)) by (apply Rmult_le_compat_r; lra).
    assert (UU : 0 <= t * (u * u) <= t * (u * 1)).
    { split; [apply Rmult_le_pos; [lra|apply Rmult_le_pos; lra]|]. apply Rmult_le_compat_l; [lra|]. apply Rmult_le_compat_l; lra. }
    apply Rabs_le. lra.
Qed.

(** The computed cell. *)
Lemma mono_cell (i : Z) : (0 <= i)%Z -> IZR i <= limit + 4 ->
  float_mono_cell prec emax b s i = Ok (Zfloor (cell_real i)) /\ (0 <= Zfloor (cell_real i))%Z.
Proof.
  intros Hi Hl. pose proof (u_bounds prec emax Hf) as [U0 U1]. pose proof (eta_bounds prec emax Hf) as [E0 E1].
  pose proof mb_pos as B. pose proof ms_pos as S. destruct (limit_bounds prec emax Hf) as [[L0 L1] [L2 L3]].
  assert (L4 : 4 <= limit) by (destruct Hf as [[-> ->]|[-> ->]]; apply IZR_le; vm_compute; discriminate).
  assert (I0 : 0 <= IZR i) by (apply IZR_le; exact Hi).
  change (bpow radix2 30) with 1073741824 in L1.
  assert (Hi31 : (Z.abs i <= 2 ^ 31)%Z) by (rewrite Z.abs_eq by exact Hi; apply le_IZR; change (IZR (2 ^ 31)) with 2147483648; lra).
  assert (Hex : rnd (IZR i) = IZR i).
  { apply (rnd_id prec emax). rewrite <- (Rmult_1_r (IZR i)). change 1 with (bpow radix2 0).
    apply (format_dyadic prec emax Hp); [pose proof (sizes prec emax Hf); lia|]. rewrite Z.abs_eq by exact Hi. apply le_IZR.
    change 2%Z with (radix_val radix2). rewrite IZR_Zpower by (pose proof (sizes prec emax Hf); lia). lra. }
  destruct (int_rounded prec emax Hf i Hi31) as [V [G _]]. rewrite Hex in V.
  assert (P : 0 <= IZR i * val s <= 2 * (limit * val s)).
  { split; [apply Rmult_le_pos; lra|]. rewrite <- Rmult_assoc. apply Rmult_le_compat_r; lra. }
  destruct (fmul_round prec emax Hp He _ _ G Gs) as [W1 W2].
  { rewrite V. apply (no_overflow prec emax Hf s Hs). exact P. }
  rewrite V in W1. set (y := fmul prec emax (float_of_int prec emax i) s) in *.
  destruct (ratio_le i Hi) as [T0 T1]. pose proof (cell_real_near i Hi) as N. set (t := IZR i * val s / val b) in *.
  assert (E2 : eta <= 1) by (eapply Rle_trans; [exact E1|]; change 1 with (bpow radix2 0); apply bpow_le; discriminate).
  assert (T2 : 3 * u * t <= 3 * / 16777216 * 1073741828) by (apply Rmult_le_compat; lra).
  apply Rabs_le_inv in N.
  assert (Y0 : 0 <= rnd (IZR i * val s)) by (rewrite <- (rnd_0 prec emax); apply rnd_mono; [exact Hp|apply P]).
  assert (Y1 : rnd (IZR i * val s) / val b <= bpow radix2 32).
  { destruct (rel_any prec emax Hf (IZR i * val s) (proj1 P)) as [_ R2].
    apply Rmult_le_reg_r with (val b); [exact B|]. unfold Rdiv. rewrite Rmult_assoc, Rinv_l, Rmult_1_r by lra.
    assert (eta <= val b) by (eapply Rle_trans; [exact E1|]; eapply Rle_trans; [|apply Hb]; apply bpow_le; discriminate).
    assert (A : IZR i * val s <= 1073741828 * val b) by (apply Rmult_le_compat; lra).
    assert (IZR i * val s * u <= IZR i * val s * 1) by (apply Rmult_le_compat_l; lra).
    change (bpow radix2 32) with 4294967296. lra. }
  assert (Y2 : 0 <= rnd (IZR i * val s) / val b) by (apply Rmult_le_pos; [exact Y0|apply Rlt_le, Rinv_0_lt_compat; exact B]).
  destruct (fdiv_round prec emax Hp He y b W2 Gb) as [D1 D2]; [lra|rewrite W1; apply (fits_emax prec emax Hf _ 32); [lia|split; assumption]|].
  rewrite W1 in D1. fold (cell_real i) in D1.
  assert (C0 : 0 <= cell_real i) by (unfold cell_real; rewrite <- (rnd_0 prec emax); apply rnd_mono; [exact Hp|exact Y2]).
  assert (F0 : (0 <= Zfloor (cell_real i))%Z) by (apply Zfloor_lub; exact C0).
  split; [|exact F0]. unfold float_mono_cell. fold y. rewrite (proj2 D2). unfold qtrunc.
  assert (K : (0 <= float_value (SFdiv prec emax y b))%Q) by (apply Rle_Qle; rewrite Q2R_0', value_val, D1; exact C0).
  rewrite (proj2 (Qle_bool_iff _ _) K), floor_val, D1. apply to_int_ok. split; [unfold INT_MIN; lia|].
  apply le_IZR. pose proof (Zfloor_lb (cell_real i)). unfold INT_MAX. change (2 ^ 31 - 1)%Z with 2147483647%Z. lra.
Qed.

(** The exact cell away from borders. *)
Lemma mono_cell_exact (i : Z) : (0 <= i)%Z ->
  (forall k, (1 <= k)%Z -> 3 * u * (IZR i * val s / val b) + eta < Rabs (IZR k - IZR i * val s / val b)) ->
  Zfloor (cell_real i) = Zfloor (IZR i * val s / val b).
Proof.
  intros Hi Hk. pose proof (cell_real_near i Hi) as N. destruct (ratio_le i Hi) as [T0 _].
  set (t := IZR i * val s / val b) in *. pose proof (Zfloor_lb t) as F1. pose proof (Zfloor_ub t) as F2.
  assert (F0 : (0 <= Zfloor t)%Z) by (apply Zfloor_lub; exact T0).
  apply Rabs_le_inv in N. apply Zfloor_imp. rewrite plus_IZR. split.
  - destruct (Z.eq_dec (Zfloor t) 0) as [->|Hne].
    + rewrite <- cell_real_0. apply cell_real_mono. exact Hi.
    + pose proof (Hk (Zfloor t) ltac:(lia)) as K. rewrite Rabs_minus_sym, Rabs_pos_eq in K by lra. lra.
  - pose proof (Hk (Zfloor t + 1)%Z ltac:(lia)) as K. rewrite plus_IZR, Rabs_pos_eq in K by lra. lra.
Qed.

(** The last pixel. *)
Section Axis.
Variable n : Z.
Hypothesis Hn : (1 <= n <= INT_MAX)%Z.
Hypothesis Hl : IZR n * val b <= limit * val s.
Notation T := (IZR n * (val b / val s)).

Lemma total_ge : 1 <= T.
Proof.
  pose proof mb_pos as B. pose proof ms_pos as S. assert (N : 1 <= IZR n) by (apply IZR_le; lia).
  assert (Q : 1 <= val b / val s).
  { apply Rmult_le_reg_r with (val s); [exact S|]. unfold Rdiv. rewrite Rmult_assoc, Rinv_l by lra. lra. }
  apply Rle_trans with (1 * 1); [lra|]. apply Rmult_le_compat; lra.
Qed.
Lemma mono_pixels : exists W, float_pixels prec emax (float_mono_extent prec emax b n) s = Ok W /\ (1 <= W)%Z /\ IZR W <= limit + 4 /\
  T * (1 - 4 * u) - eta <= IZR W < T * (1 + 5 * u) + eta + 1.
Proof.
  destruct (pixels prec emax Hf b s Gb Gs Hb' Hs n Hn Hl) as [W [E [W0 [WB _]]]].
  pose proof (u_bounds prec emax Hf) as [U0 U1]. pose proof (eta_bounds prec emax Hf) as [E0 E1].
  destruct (limit_bounds prec emax Hf) as [_ [L2 _]].
  destruct (ratio_bounds prec b s Hb' Hs n Hn Hl) as [_ [TL _]]. pose proof total_ge as T1. set (t := T) in *.
  assert (E2 : eta <= / 16777216) by (eapply Rle_trans; [exact E1|]; change (/ 16777216) with (bpow radix2 (-24)); apply bpow_le; discriminate).
  exists W. split; [exact E|]. split.
  - apply le_IZR. assert (H : (0 < W)%Z); [|apply IZR_le; lia]. apply lt_IZR.
    assert (t * (4 * u) <= t * (4 * / 16777216)) by (apply Rmult_le_compat_l; lra). lra.
  - split; [|exact WB]. assert (t * u <= / 4) by (eapply Rle_trans; [apply Rmult_le_compat_r; [lra|exact TL]|exact L2]). lra.
Qed.

Lemma last_cell_inside (W : Z) : (1 <= W)%Z -> IZR W < T * (1 + 5 * u) + eta + 1 ->
  (forall k, 8 * u * T < Rabs (IZR k - T)) -> (Zfloor (cell_real (W - 1)) < n)%Z.
Proof.
  intros W1 WB Hk. pose proof (u_bounds prec emax Hf) as [U0 U1]. pose proof (eta_bounds prec emax Hf) as [E0 E1].
  pose proof (eta_u prec emax Hf) as EU. pose proof total_ge as T1. pose proof mb_pos as B. pose proof ms_pos as S.
  pose proof (Hk (W - 1)%Z) as K. rewrite minus_IZR in K.
  assert (N : 1 <= IZR n) by (apply IZR_le; lia).
  assert (L : IZR W - 1 < T * (1 - 8 * u)).
  { apply Rnot_le_lt. intros H. assert (T * (5 * u) + eta <= T * (8 * u)).
    { assert (1 * u <= T * u) by (apply Rmult_le_compat_r; lra). lra. }
    assert (Rabs (IZR W - 1 - T) <= 8 * u * T) by (apply Rabs_le; lra). lra. }
  apply lt_IZR. eapply Rle_lt_trans; [apply Zfloor_lb|].
  pose proof (cell_real_near (W - 1)%Z ltac:(lia)) as C. rewrite minus_IZR in C. apply Rabs_le_inv in C.
  assert (X : (IZR W - 1) * val s / val b <= IZR n * (1 - 8 * u)).
  { apply Rmult_le_reg_r with (val b); [exact B|]. unfold Rdiv. rewrite Rmult_assoc, Rinv_l, Rmult_1_r by lra.
    apply Rle_trans with (T * (1 - 8 * u) * val s); [apply Rmult_le_compat_r; lra|]. right. field. lra. }
  set (t := (IZR W - 1) * val s / val b) in *.
  assert (X2 : 3 * u * t <= 3 * u * IZR n).
  { apply Rmult_le_compat_l; [lra|]. eapply Rle_trans; [exact X|]. rewrite <- (Rmult_1_r (IZR n)) at 2. apply Rmult_le_compat_l; lra. }
  assert (1 * u <= IZR n * u) by (apply Rmult_le_compat_r; lra). lra.
Qed.
End Axis.
End Numbers.

(** ** The grid *)
Open Scope Z_scope.
Lemma fofold_optional {B : Type} (F : B -> option (Z * Z * spec_float)) (l : list B) : forall g,
  ofold (fun g x => match F x with Some w => fset3 g w | None => Ok g end) l g =
  ofold fset3 (flat_map (fun x => match F x with Some w => [w] | None => [] end) l) g.
Proof.
  induction l as [|x l IH]; intros g; [reflexivity|]. cbn [ofold flat_map]. destruct (F x) as [w|]; cbn [app obind ofold].
  - destruct (fset3 g w); cbn [obind]; [apply IH|reflexivity|reflexivity].
  - apply IH.
Qed.
Lemma ofold_no_throw {A B : Type} (f : A -> B -> outcome A) (l : list B) : (forall a x, f a x <> Throw) -> forall a, ofold f l a <> Throw.
Proof.
  intros H. induction l as [|x l IH]; intros a; cbn [ofold]; [discriminate|]. pose proof (H a x). destruct (f a x); cbn [obind]; [apply IH|discriminate|congruence].
Qed.

Section ToGrid.
Variables prec emax : Z.
Context {V W : Type}.
Variable merge : V -> V -> V.
Variable dsample : V -> W -> spec_float.
Variable from_grid : list spec_float -> W.
Variables res sres : spec_float.
Variable r : Q.
Variable size : list Z.
Variable mn : idx.
Hypothesis Hargs : mono_args r size mn.
Variable cell : Z -> Z.
Variables W0 W1 : Z.
Hypothesis HW0 : float_pixels prec emax (float_mono_extent prec emax res (nth 0 size 0)) sres = Ok W0.
Hypothesis HW1 : float_pixels prec emax (float_mono_extent prec emax res (nth 1 size 0)) sres = Ok W1.
Hypothesis P0 : 1 <= W0.
Hypothesis P1 : 1 <= W1.
Hypothesis Hcell : forall u, 0 <= u -> u < W0 \/ u < W1 -> float_mono_cell prec emax res sres u = Ok (cell u) /\ 0 <= cell u.
Hypothesis Hmono : forall u v, u <= v -> cell u <= cell v.

Definition fgrid_cell (u v : Z) : idx := [nth 0 mn 0 + cell u; nth 1 mn 0 + cell v].
Definition fgrid_point (u v : Z) : list spec_float :=
  [fmul prec emax (float_of_int prec emax u) sres; fmul prec emax (float_of_int prec emax v) sres].
Definition fgrid_score (m : mono V) (u v : Z) : spec_float :=
  match mcell m (fgrid_cell u v) with Some d => dsample d (from_grid (fgrid_point u v)) | None => float_zero end.

Lemma shown (x : spec_float) : (if Qle_bool 0 (float_value (float_validate prec x)) then float_validate prec x else float_zero) = float_probability prec x.
Proof.
  unfold float_validate, float_probability, normal_number. destruct x as [sg|sg| |sg m e]; try reflexivity.
  destruct (Z.pos (digits2_pos m) =? prec); cbn [andb]; [|reflexivity].
  destruct (Qle_bool (float_value (S754_finite sg m e)) 1); [|rewrite andb_false_r; reflexivity]. rewrite andb_true_r. reflexivity.
Qed.

Lemma mono_float_inside (m : mono V) : mono_ok r size mn m -> cell (W0 - 1) < nth 0 size 0 -> cell (W1 - 1) < nth 1 size 0 ->
  exists g, float_mono_to_grid prec emax merge dsample from_grid res sres m = Ok g /\ fg_width g = W0 /\ fg_height g = W1 /\
    forall u v, 0 <= u < W0 -> 0 <= v < W1 ->
      in_cells size mn (fgrid_cell u v) /\ fg_at g u v = float_probability prec (fgrid_score m u v).
Proof.
  intros Hm C0 C1. pose proof Hargs as [Hr [L1 [L2 Hi]]].
  pose proof (Hi 0%nat ltac:(lia)) as I0. pose proof (Hi 1%nat ltac:(lia)) as I1.
  assert (Hin : forall u v, 0 <= u < W0 -> 0 <= v < W1 -> 0 <= cell u < nth 0 size 0 /\ 0 <= cell v < nth 1 size 0 /\ in_cells size mn (fgrid_cell u v)).
  { intros u v Hu Hv. pose proof (Hmono u (W0 - 1) ltac:(lia)). pose proof (Hmono v (W1 - 1) ltac:(lia)).
    destruct (Hcell u ltac:(lia) ltac:(lia)) as [_ A]. destruct (Hcell v ltac:(lia) ltac:(lia)) as [_ B]. split; [lia|]. split; [lia|].
    split; [reflexivity|]. intros [|[|d]] Hd; unfold fgrid_cell; cbn [nth]; lia. }
  unfold float_mono_to_grid. rewrite (mk_size _ _ _ _ Hm), HW1. cbn [obind]. rewrite HW0. cbn [obind].
  set (F := fun w : Z * Z => let y := float_validate prec (fgrid_score m (fst w) (snd w)) in
              if Qle_bool 0 (float_value y) then Some (fst w, snd w, y) else None).
  set (g0 := {| fg_width := W0; fg_height := W1; fg_at := fun _ _ => float_zero |}).
  set (ws := flat_map (fun x => match F x with Some w => [w] | None => [] end)
               (flat_map (fun v => map (fun u => (u, v)) (int_range W0)) (int_range W1))).
  match goal with |- exists g, ofold ?f ?l ?a = _ /\ _ => assert (EQ : ofold f l a = ofold fset3 ws g0) end.
  { unfold ws. rewrite <- fofold_optional, <- ofold_concat. apply ofold_ext. intros g v Hv. apply int_range_in in Hv.
    rewrite <- (ofold_map_in (fun g x => match F x with Some w => fset3 g w | None => Ok g end) (fun u => (u, v))).
    apply ofold_ext. clear g. intros g u Hu. apply int_range_in in Hu.
    destruct (Hin u v Hu Hv) as [A [B C]]. unfold float_mono_pixel.
    rewrite (proj1 (Hcell u ltac:(lia) ltac:(lia))). cbn [obind]. rewrite (proj1 (Hcell v ltac:(lia) ltac:(lia))). cbn [obind].
    rewrite (mk_min _ _ _ _ Hm). rewrite to_int_ok by (unfold INT_MIN, INT_MAX in *; lia). cbn [obind].
    rewrite to_int_ok by (unfold INT_MIN, INT_MAX in *; lia). cbn [obind].
    unfold float_mono_sample_at. fold (fgrid_cell u v). rewrite (get_ok merge r size mn Hargs m _ Hm C). cbn [obind].
    fold (fgrid_point u v). fold (fgrid_score m u v). unfold F. cbn [fst snd].
    destruct (Qle_bool 0 (float_value (float_validate prec (fgrid_score m u v)))); reflexivity. }
  rewrite EQ.
  assert (Hmem : forall u v x, In (u, v, x) ws <-> (0 <= u < W0 /\ 0 <= v < W1 /\
      x = float_validate prec (fgrid_score m u v) /\ Qle_bool 0 (float_value x) = true)).
  { intros u v x. unfold ws. rewrite in_flat_map. split.
    - intros [[u' v'] [A B]]. apply in_flat_map in A. destruct A as [v1 [A1 A2]]. apply in_map_iff in A2.
      destruct A2 as [u1 [A2 A3]]. injection A2 as -> ->. apply int_range_in in A1. apply int_range_in in A3.
      unfold F in B. cbn [fst snd] in B. destruct (Qle_bool 0 (float_value (float_validate prec (fgrid_score m u' v')))) eqn:E; [|destruct B].
      destruct B as [B|[]]. injection B as <- <- <-. auto.
    - intros [A [B [-> E]]]. exists (u, v). split.
      + apply in_flat_map. exists v. split; [apply int_range_in; exact B|]. apply in_map_iff. exists u.
        split; [reflexivity|apply int_range_in; exact A].
      + unfold F. cbn [fst snd]. rewrite E. left; reflexivity. }
  destruct (fwrites_spec ws g0) as [g [E [Wd [Hh [A B]]]]].
  { intros u v x Hx. apply Hmem in Hx. destruct Hx as [A [B _]]. split; assumption. }
  exists g. split; [exact E|]. split; [exact Wd|]. split; [exact Hh|].
  intros u v Hu Hv. split; [apply Hin; assumption|]. rewrite <- shown.
  destruct (Qle_bool 0 (float_value (float_validate prec (fgrid_score m u v)))) eqn:E0.
  - apply B; [apply Hmem; auto|]. intros y Hy. apply Hmem in Hy. apply Hy.
  - rewrite A; [reflexivity|]. intros x Hx. apply Hmem in Hx. destruct Hx as [_ [_ [-> X]]]. congruence.
Qed.

Lemma pixel_no_throw (m : mono V) (v : Z) (g : float_grid) (u : Z) :
  float_mono_pixel prec emax merge dsample from_grid res sres m v g u <> Throw.
Proof.
  assert (T : forall z, to_int z <> Throw) by (intros z; unfold to_int; destruct (_ && _); discriminate).
  assert (K : forall z, float_mono_cell prec emax res sres z <> Throw) by (intros z; unfold float_mono_cell; cbv zeta; destruct (float_finite _); [apply T|discriminate]).
  unfold float_mono_pixel. pose proof (K u). destruct (float_mono_cell prec emax res sres u) as [a| |]; cbn [obind]; [|discriminate|congruence].
  pose proof (K v). destruct (float_mono_cell prec emax res sres v) as [b| |]; cbn [obind]; [|discriminate|congruence].
  pose proof (T (nth 0 (mo_min m) 0 + a)). destruct (to_int (nth 0 (mo_min m) 0 + a)) as [i| |]; cbn [obind]; [|discriminate|congruence].
  pose proof (T (nth 1 (mo_min m) 0 + b)). destruct (to_int (nth 1 (mo_min m) 0 + b)) as [j| |]; cbn [obind]; [|discriminate|congruence].
  unfold float_mono_sample_at. cbn [bget array_backend]. destruct (arr_inside _ _ _); cbn [obind]; [|discriminate].
  destruct (Qle_bool _ _); [|discriminate]. unfold float_grid_set. destruct (_ && _); discriminate.
Qed.

Lemma mono_float_outside (m : mono V) : mono_ok r size mn m -> ~ (cell (W0 - 1) < nth 0 size 0 /\ cell (W1 - 1) < nth 1 size 0) ->
  float_mono_to_grid prec emax merge dsample from_grid res sres m = UB.
Proof.
  intros Hm Hout. destruct (float_mono_to_grid prec emax merge dsample from_grid res sres m) as [g| |] eqn:E; [exfalso|reflexivity|exfalso].
  - unfold float_mono_to_grid in E. rewrite (mk_size _ _ _ _ Hm), HW1 in E. cbn [obind] in E. rewrite HW0 in E. cbn [obind] in E.
    destruct (ofold_each _ (fun _ => True) (int_range W1) ltac:(auto) _ _ I E) as [_ K].
    destruct (K (W1 - 1)) as [g1 [g2 [_ E1]]]; [apply int_range_in; lia|].
    destruct (ofold_each _ (fun _ => True) (int_range W0) ltac:(auto) _ _ I E1) as [_ K1].
    destruct (K1 (W0 - 1)) as [g3 [g4 [_ E2]]]; [apply int_range_in; lia|].
    unfold float_mono_pixel in E2. rewrite (proj1 (Hcell (W0 - 1) ltac:(lia) ltac:(lia))) in E2. cbn [obind] in E2.
    rewrite (proj1 (Hcell (W1 - 1) ltac:(lia) ltac:(lia))) in E2. cbn [obind] in E2. rewrite (mk_min _ _ _ _ Hm) in E2.
    unfold to_int at 1 in E2. destruct (_ && _) in E2; cbn [obind] in E2; [|discriminate E2].
    unfold to_int at 1 in E2. destruct (_ && _) in E2; cbn [obind] in E2; [|discriminate E2].
    unfold float_mono_sample_at in E2. rewrite (get_ub merge r size mn Hargs m _ Hm) in E2; [discriminate E2|].
    intros [_ H]. apply Hout. pose proof (H 0%nat ltac:(lia)) as A. pose proof (H 1%nat ltac:(lia)) as B. cbn [nth] in A, B. lia.
  - unfold float_mono_to_grid in E. rewrite (mk_size _ _ _ _ Hm), HW1 in E. cbn [obind] in E. rewrite HW0 in E. cbn [obind] in E.
    revert E. apply ofold_no_throw. intros g v. apply ofold_no_throw. intros g' u. apply pixel_no_throw.
Qed.
End ToGrid.

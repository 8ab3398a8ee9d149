(** Conversion of the grid map with one distribution per cell in floating-point arithmetic: whole histories. *)
From Coq Require Import QArith Qabs Qround Reals Lra Qreals Floats.SpecFloat.
From Flocq Require Import Core Relative BinarySingleNaN.
From Verif Require Import Base SeqModel IndexModel OctreeSpec MapModel BackendModel SysModel
  ExtentModel RoundModel RoundFacts FloatModel FloatFacts FloatScoreFacts FloatBoundFacts FloatIndexFacts
  GridModel MonoModel MonoSpec MonoFacts GridFloatModel GridFloatSpec GridFloatFacts MonoFloatModel MonoFloatSpec MonoFloatFacts.
Open Scope Z_scope.

Lemma Q2R_Qabs (x : Q) : Q2R (Qabs x) = Rabs (Q2R x).
Proof.
  apply Qabs_case; intros H; apply Qle_Rle in H; rewrite Q2R_0' in H.
  - rewrite Rabs_pos_eq; [reflexivity|exact H].
  - rewrite Q2R_opp, Rabs_left1; [reflexivity|exact H].
Qed.

Section History.
Variables prec emax : Z.
Hypothesis Hf : standard_format prec emax.
Context {V W : Type}.
Variable default : V.
Variable merge : V -> V -> V.
Variable to_m : W -> list Q.
Variable add : V -> W -> V.
Variable dsample : V -> W -> spec_float.
Variable from_grid : list spec_float -> W.
Variables res sres : spec_float.
Hypothesis Hr : float_good_resolution prec emax res.
Hypothesis Hs : float_good_resolution prec emax sres.
Hypothesis Hsr : (float_value sres <= float_value res)%Q.
Notation r := (float_value res).
Notation s := (float_value sres).
Notation tiny := ((2 # 1) ^ (2 - emax - prec))%Q.

Lemma res_bounds (x : spec_float) : float_good_resolution prec emax x ->
  good_float prec emax x /\ (bpow radix2 (-100) <= SF2R radix2 x <= bpow radix2 100)%R /\ (0 < float_value x)%Q.
Proof.
  intros [G [A B]]. split; [exact G|]. pose proof A as A'. apply Qle_Rle in A, B. rewrite pow_bpow, value_val in A, B. split; [split; assumption|].
  eapply Qlt_le_trans; [|exact A']. reflexivity.
Qed.
Lemma sres_le : (SF2R radix2 sres <= SF2R radix2 res)%R.
Proof. pose proof (Qle_Rle _ _ Hsr) as H. rewrite !value_val in H. exact H. Qed.
Lemma nonzero (x : Q) : (0 < x)%Q -> ~ (x == 0)%Q.
Proof. intros H E. rewrite E in H. discriminate H. Qed.

Variable size : list Z.
Variable mn : idx.
Hypothesis Hargs : mono_args r size mn.
Hypothesis Hfit : forall d, (d < 2)%nat -> fits_pixels prec (nth d size 0) r s.

Definition mcell_of (u : Z) : Z := Zfloor (cell_real prec emax res sres u).

Lemma mcell_mono (u v : Z) : u <= v -> mcell_of u <= mcell_of v.
Proof.
  intros H. destruct (res_bounds res Hr) as [_ [Hb _]]. destruct (res_bounds sres Hs) as [_ [Hs' _]].
  apply Zfloor_le. apply (cell_real_mono prec emax Hf res sres Hb Hs'). exact H.
Qed.
Lemma mcell_near (u : Z) : 0 <= u -> let t := (inject_Z u * s / r)%Q in
  (inject_Z (mcell_of u) <= t * (1 + (2 # 1) ^ (2 - prec)) + tiny)%Q /\
  (t * (1 - (2 # 1) ^ (2 - prec)) - tiny < inject_Z (mcell_of u) + 1)%Q /\
  ((forall k, 1 <= k -> (t * (2 # 1) ^ (2 - prec) + tiny < Qabs (inject_Z k - t))%Q) -> mcell_of u = Qfloor t).
Proof.
  intros Hu t. destruct (res_bounds res Hr) as [Gb [Hb Pr]]. destruct (res_bounds sres Hs) as [Gs [Hs' Ps]].
  pose proof (cell_real_near prec emax Hf res sres Hb Hs' sres_le u Hu) as N.
  pose proof (mono_cell_exact prec emax Hf res sres Hb Hs' sres_le u Hu) as X.
  destruct (ratio_le res sres Hb Hs' sres_le u Hu) as [T0 _].
  set (tr := (IZR u * SF2R radix2 sres / SF2R radix2 res)%R) in *.
  assert (Et : Q2R t = tr) by (unfold t; rewrite Q2R_div by (apply nonzero; exact Pr); rewrite Q2R_mult, Q2R_inject, !value_val; reflexivity).
  assert (E2 : bpow radix2 (2 - prec) = (4 * bpow radix2 (- prec))%R) by (change (2 - prec) with (2 + - prec); rewrite bpow_plus; reflexivity).
  pose proof (bpow_gt_0 radix2 (- prec)) as U0.
  assert (UT : (0 <= bpow radix2 (- prec) * tr)%R) by (apply Rmult_le_pos; lra).
  apply Rabs_le_inv in N. pose proof (Zfloor_lb (cell_real prec emax res sres u)) as F1. pose proof (Zfloor_ub (cell_real prec emax res sres u)) as F2.
  unfold mcell_of. split; [|split].
  - apply Rle_Qle. rewrite Q2R_plus, Q2R_mult, Q2R_plus, Q2R_inject, Q2R_1', !pow_bpow, Et, E2. lra.
  - apply Rlt_Qlt. rewrite Q2R_minus, Q2R_mult, Q2R_minus, Q2R_plus, Q2R_inject, Q2R_1', !pow_bpow, Et, E2. lra.
  - intros H. rewrite X.
    + pose proof (Qfloor_le t) as A. pose proof (Qlt_floor t) as B. apply Qle_Rle in A. apply Qlt_Rlt in B.
      rewrite Q2R_inject, Et in A. rewrite Q2R_inject, Et in B. apply Zfloor_imp. split; assumption.
    + intros k Hk. specialize (H k Hk). apply Qlt_Rlt in H.
      rewrite Q2R_plus, Q2R_mult, !pow_bpow, Et, E2 in H. rewrite Q2R_Qabs, Q2R_minus, Q2R_inject, Et in H. lra.
Qed.

Definition margin (d : nat) : Prop :=
  forall k, let total := (inject_Z (nth d size 0%Z) * r / s)%Q in (total * (2 # 1) ^ (3 - prec) < Qabs (inject_Z k - total))%Q.

Lemma axis (d : nat) : (d < 2)%nat -> let total := (inject_Z (nth d size 0%Z) * r / s)%Q in
  exists w, float_pixels prec emax (float_mono_extent prec emax res (nth d size 0)) sres = Ok w /\ 1 <= w /\
    (forall u, 0 <= u < w -> float_mono_cell prec emax res sres u = Ok (mcell_of u) /\ 0 <= mcell_of u) /\
    (total * (1 - (2 # 1) ^ (3 - prec)) - tiny <= inject_Z w)%Q /\ (inject_Z w - 1 < total * (1 + (2 # 1) ^ (3 - prec)) + tiny)%Q /\
    (margin d -> mcell_of (w - 1) < nth d size 0).
Proof.
  intros Hd total. destruct (res_bounds res Hr) as [Gb [Hb Pr]]. destruct (res_bounds sres Hs) as [Gs [Hs' Ps]].
  destruct (Hfit d Hd) as [N0 L]. destruct Hargs as [_ [_ [_ Hi]]]. pose proof (Hi d Hd) as [Hi1 _].
  assert (Hn : 1 <= nth d size 0 <= INT_MAX) by lia. apply Qle_Rle in L. rewrite !Q2R_mult, !Q2R_inject, !value_val in L.
  destruct (mono_pixels prec emax Hf res sres Gb Gs Hb Hs' sres_le (nth d size 0) Hn L) as [w [E [W1 [W2 [W3 W4]]]]].
  pose proof (last_cell_inside prec emax Hf res sres Hb Hs' sres_le (nth d size 0) Hn w W1 W4) as X.
  pose proof (total_ge res sres Hb Hs' sres_le (nth d size 0) Hn) as T1 || pose proof (total_ge prec res sres Hb Hs' sres_le (nth d size 0) Hn) as T1.
  set (tr := (IZR (nth d size 0%Z) * (SF2R radix2 res / SF2R radix2 sres))%R) in *.
  assert (Et : Q2R total = tr).
  { unfold total. rewrite Q2R_div by (apply nonzero; exact Ps). rewrite Q2R_mult, Q2R_inject, !value_val. unfold tr, Rdiv. ring. }
  assert (E3 : bpow radix2 (3 - prec) = (8 * bpow radix2 (- prec))%R) by (change (3 - prec) with (3 + - prec); rewrite bpow_plus; reflexivity).
  pose proof (bpow_gt_0 radix2 (- prec)) as U0.
  assert (UT : (0 <= bpow radix2 (- prec) * tr)%R) by (apply Rmult_le_pos; lra).
  exists w. split; [exact E|]. split; [exact W1|]. split; [|split; [|split]].
  - intros u Hu. apply (mono_cell prec emax Hf res sres Gb Gs Hb Hs' sres_le); [lia|]. eapply Rle_trans; [|exact W2]. apply IZR_le. lia.
  - apply Rle_Qle. rewrite Q2R_minus, Q2R_mult, Q2R_minus, Q2R_inject, Q2R_1', !pow_bpow, Et, E3. lra.
  - apply Rlt_Qlt. rewrite Q2R_minus, Q2R_plus, Q2R_mult, Q2R_plus, Q2R_inject, Q2R_1', !pow_bpow, Et, E3. lra.
  - intros M. apply X. intros k. specialize (M k). cbn zeta in M. fold total in M. apply Qlt_Rlt in M.
    rewrite Q2R_mult, pow_bpow, Et, E3, Q2R_Qabs, Q2R_minus, Q2R_inject, Et in M. lra.
Qed.

Lemma mono_float_history (ops : list (mono_op (V:=V) (W:=W))) : off_border to_m r size mn ops ->
  exists m0 m (w : nat -> Z) (cell : Z -> Z),
    mono_new r size mn = Ok m0 /\ mono_run default merge to_m add ops m0 = Ok m /\
    (forall d, (d < 2)%nat -> let total := (inject_Z (nth d size 0%Z) * r / s)%Q in
       float_pixels prec emax (float_mono_extent prec emax res (nth d size 0)) sres = Ok (w d) /\ 1 <= w d /\
       (total * (1 - (2 # 1) ^ (3 - prec)) - tiny <= inject_Z (w d))%Q /\ (inject_Z (w d) - 1 < total * (1 + (2 # 1) ^ (3 - prec)) + tiny)%Q) /\
    (forall u, 0 <= u -> u < w 0%nat \/ u < w 1%nat -> let t := (inject_Z u * s / r)%Q in
       float_mono_cell prec emax res sres u = Ok (cell u) /\ 0 <= cell u /\
       (inject_Z (cell u) <= t * (1 + (2 # 1) ^ (2 - prec)) + tiny)%Q /\ (t * (1 - (2 # 1) ^ (2 - prec)) - tiny < inject_Z (cell u) + 1)%Q /\
       ((forall k, 1 <= k -> (t * (2 # 1) ^ (2 - prec) + tiny < Qabs (inject_Z k - t))%Q) -> cell u = Qfloor t)) /\
    (forall u v, u <= v -> cell u <= cell v) /\
    ((forall d, (d < 2)%nat -> cell (w d - 1) < nth d size 0) ->
       exists g, float_mono_to_grid prec emax merge dsample from_grid res sres m = Ok g /\ fg_width g = w 0%nat /\ fg_height g = w 1%nat /\
         forall u v, 0 <= u < w 0%nat -> 0 <= v < w 1%nat ->
           let i := [nth 0 mn 0 + cell u; nth 1 mn 0 + cell v] in
           let p := [fmul prec emax (float_of_int prec emax u) sres; fmul prec emax (float_of_int prec emax v) sres] in
           in_cells size mn i /\
           fg_at g u v = float_probability prec
             (match cell_history default to_m add r ops i with Some x => dsample x (from_grid p) | None => float_zero end)) /\
    (~ (forall d, (d < 2)%nat -> cell (w d - 1) < nth d size 0) ->
       float_mono_to_grid prec emax merge dsample from_grid res sres m = UB) /\
    (forall d, (d < 2)%nat -> margin d -> cell (w d - 1) < nth d size 0).
Proof.
  intros Hoff. destruct (mono_history default merge to_m add (fun _ _ => 0%Q) r size mn Hargs ops Hoff) as [m0 [m [E0 [E [O C]]]]].
  destruct (axis 0%nat ltac:(lia)) as [w0 [P0 [A0 [B0 [C0 [D0 M0]]]]]]. destruct (axis 1%nat ltac:(lia)) as [w1 [P1 [A1 [B1 [C1 [D1 M1]]]]]].
  set (w := fun d => if Nat.eqb d 0 then w0 else w1).
  assert (Hcell : forall u, 0 <= u -> u < w0 \/ u < w1 -> float_mono_cell prec emax res sres u = Ok (mcell_of u) /\ 0 <= mcell_of u).
  { intros u Hu [K|K]; [apply B0|apply B1]; lia. }
  exists m0, m, w, mcell_of. split; [exact E0|]. split; [exact E|]. split; [|split; [|split; [exact mcell_mono|split; [|split]]]].
  - intros [|[|d]] Hd; [| |lia]; cbn [w Nat.eqb]; auto.
  - intros u Hu K t. destruct (Hcell u Hu K) as [K1 K2]. split; [exact K1|]. split; [exact K2|]. apply (mcell_near u Hu).
  - intros H. destruct (mono_float_inside prec emax merge dsample from_grid res sres r size mn Hargs mcell_of w0 w1 P0 P1 Hcell mcell_mono m O
      (H 0%nat ltac:(lia)) (H 1%nat ltac:(lia))) as [g [Eg [Gw [Gh G]]]].
    exists g. split; [exact Eg|]. split; [exact Gw|]. split; [exact Gh|]. intros u v Hu Hv i p. destruct (G u v Hu Hv) as [G1 G2].
    split; [exact G1|]. rewrite G2. unfold fgrid_score. fold i in G1. change (fgrid_cell mn mcell_of u v) with i in *. rewrite (C i G1). reflexivity.
  - intros H. apply (mono_float_outside prec emax merge dsample from_grid res sres r size mn Hargs mcell_of w0 w1 P0 P1 A0 A1 Hcell m O).
    intros [H0 H1]. apply H. intros [|[|d]] Hd; [exact H0|exact H1|lia].
  - intros [|[|d]] Hd; [exact M0|exact M1|lia].
Qed.

Lemma mono_float_margin (ops : list (mono_op (V:=V) (W:=W))) : off_border to_m r size mn ops -> (forall d, (d < 2)%nat -> margin d) ->
  exists m0 m g, mono_new r size mn = Ok m0 /\ mono_run default merge to_m add ops m0 = Ok m /\
    float_mono_to_grid prec emax merge dsample from_grid res sres m = Ok g.
Proof.
  intros Hoff HM. destruct (mono_float_history ops Hoff) as [m0 [m [w [cell [E0 [E [_ [_ [_ [A [_ M]]]]]]]]]]].
  destruct A as [g [Eg _]]; [intros d Hd; apply M; auto|]. exists m0, m, g. auto.
Qed.
End History.

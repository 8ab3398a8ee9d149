(** Points in the grid map with one distribution per cell in floating-point arithmetic. *)
From Coq Require Import QArith Qabs Qround Reals Lra Qreals Floats.SpecFloat.
From Flocq Require Import Core Relative BinarySingleNaN.
From Verif Require Import Base SeqModel IndexModel OctreeSpec MapModel BackendModel SysModel ExtentModel ExtentFacts ResidualModel RoundModel RoundFacts
  FloatModel FloatFacts FloatScoreFacts FloatBoundFacts FloatIndexFacts MonoModel MonoSpec MonoFacts MonoFloatModel MonoPointModel MonoPointSpec.
Open Scope R_scope.

#[local] Instance q53 : Prec_gt_0 53. Proof. reflexivity. Qed.
#[local] Instance q1024 : Prec_lt_emax 53 1024. Proof. reflexivity. Qed.

Section Index.
Variables prec emax : Z.
Hypothesis Hf : standard_format prec emax.
#[local] Instance Hp : Prec_gt_0 prec.
Proof. destruct Hf as [[-> ->]|[-> ->]]; reflexivity. Qed.
#[local] Instance He : Prec_lt_emax prec emax.
Proof. destruct Hf as [[-> ->]|[-> ->]]; reflexivity. Qed.
Notation emin := (3 - emax - prec)%Z.
Notation rnd := (round radix2 (FLT_exp emin prec) ZnearestE).
Notation good := (good_float prec emax).
Notation u := (bpow radix2 (- prec)).
Variable res x : spec_float.
Hypothesis Gr : good res.
Hypothesis Gx : good x.
Hypothesis Hr : bpow radix2 (-100) <= val res <= bpow radix2 100.
Notation h := (val res).
Notation q := (val x / h).
Lemma mres_pos : 0 < h.
Proof. pose proof (bpow_gt_0 radix2 (-100)). lra. Qed.
Lemma mono_inverse_near : exists e, Rabs e <= 2 * u + u * u /\ val (float_mono_inv prec emax res) = / h * (1 + e) /\
  good (float_mono_inv prec emax res).
Proof.
  pose proof mres_pos as R0. pose proof (u_range prec emax Hf) as [[U0 U1] U2].
  assert (H100 : bpow radix2 100 <= bpow radix2 110) by (apply bpow_le; discriminate).
  destruct (widen_exact prec emax Hf res Gr) as [W [V F]]; [apply below_1024; lra|].
  assert (B1 : bpow radix2 (-100) <= / h <= bpow radix2 101).
  { split.
    - change (-100)%Z with (- (100))%Z. rewrite bpow_opp. apply Rinv_le; lra.
    - apply Rle_trans with (bpow radix2 100); [|apply bpow_le; discriminate].
      change 100%Z with (- (-100))%Z. rewrite bpow_opp. apply Rinv_le; [apply bpow_gt_0|lra]. }
  assert (P0 : 0 < / h) by (apply Rinv_0_lt_compat; lra).
  set (d := round radix2 (FLT_exp (-1074) 53) ZnearestE (/ h)).
  assert (K : Rabs (d - / h) <= bpow radix2 (-53) * / h).
  { pose proof (rnd_relative (/ h)) as K. rewrite (Rabs_pos_eq (/ h)) in K by lra. apply K.
    eapply Rle_trans; [|apply B1]. apply bpow_le. discriminate. }
  assert (Kd : bpow radix2 (-53) * / h <= / 16 * / h) by (apply Rmult_le_compat_r; lra).
  assert (Bd : / 2 * / h <= d <= 2 * / h) by (apply Rabs_le_inv in K; lra).
  assert (E1 : 1 / h = / h) by (unfold Rdiv; apply Rmult_1_l).
  assert (Big : bpow radix2 102 = 2 * bpow radix2 101) by (change 102%Z with (1 + 101)%Z; rewrite bpow_plus; reflexivity).
  assert (Big2 : 2 * bpow radix2 102 <= bpow radix2 110).
  { change (bpow radix2 110) with (bpow radix2 (8 + 102)). rewrite bpow_plus. change (bpow radix2 8) with 256. pose proof (bpow_gt_0 radix2 102). lra. }
  destruct (div_round double_one (widen res)) as [D1 [D2 D3]]; try assumption; try reflexivity.
  - rewrite W. lra.
  - rewrite one_val, W, E1. fold d. rewrite Rabs_pos_eq by lra. apply Rle_lt_trans with (bpow radix2 110); [lra|]. apply bpow_lt. reflexivity.
  - rewrite one_val, W, E1 in D1. fold d in D1.
    assert (Rd : Rabs (rnd d - d) <= u * d).
    { pose proof (near_relative prec emax Hf d) as N. rewrite (Rabs_pos_eq d) in N by lra. apply N.
      apply Rle_trans with (/ 2 * bpow radix2 (-100)); [|lra]. change (/ 2) with (bpow radix2 (-1)). rewrite <- bpow_plus. apply bpow_le. discriminate. }
    assert (ud : u * d <= / 16 * d) by (apply Rmult_le_compat_r; lra).
    destruct (convert_round prec emax Hp He _ D3) as [C1 C2].
    + rewrite D1. apply (below_emax prec emax Hf). apply Rabs_le_inv in Rd. rewrite Rabs_pos_eq by lra. lra.
    + rewrite D1 in C1. unfold float_mono_inv, narrow. rewrite C1.
      exists ((rnd d - / h) * h). split; [|split; [|exact C2]].
      * rewrite Rabs_mult, (Rabs_pos_eq h) by lra.
        assert (T : Rabs (rnd d - / h) <= (2 * u + u * u) * / h).
        { replace (rnd d - / h) with ((rnd d - d) + (d - / h)) by ring. eapply Rle_trans; [apply Rabs_triang|].
          assert (bpow radix2 (-53) * / h <= u * / h) by (apply Rmult_le_compat_r; lra).
          assert (u * d <= u * (/ h + u * / h)) by (apply Rmult_le_compat_l; [lra|]; apply Rabs_le_inv in K; lra).
          lra. }
        apply Rle_trans with ((2 * u + u * u) * / h * h); [apply Rmult_le_compat_r; lra|].
        rewrite Rmult_assoc, Rinv_l by lra. lra.
      * field. lra.
Qed.

Variable M : R.
Hypothesis HM : 0 <= M <= bpow radix2 100.
Hypothesis Hq : Rabs q <= M.
Lemma mono_product_near : float_finite (fmul prec emax x (float_mono_inv prec emax res)) = true /\
  Rabs (val (fmul prec emax x (float_mono_inv prec emax res)) - q) <= M * bpow radix2 (2 - prec) + bpow radix2 (emin - 1).
Proof.
  pose proof mres_pos as R0. destruct mono_inverse_near as [e [Hee [I1 I2]]]. pose proof (u_range prec emax Hf) as [[U0 U1] U2].
  set (t := val x * val (float_mono_inv prec emax res)).
  assert (T : t = q * (1 + e)) by (unfold t; rewrite I1; field; lra).
  assert (uu : u * u <= u * / 16) by (apply Rmult_le_compat_l; lra).
  assert (A : Rabs (t - q) <= (2 * u + u * u) * M).
  { rewrite T. replace (q * (1 + e) - q) with (e * q) by ring. rewrite Rabs_mult.
    apply Rmult_le_compat; try apply Rabs_pos; assumption. }
  assert (uM0 : 0 <= u * M) by (apply Rmult_le_pos; lra).
  assert (uM1 : u * M <= / 16 * M) by (apply Rmult_le_compat_r; lra).
  assert (uuM : u * u * M <= / 16 * (u * M)) by (rewrite Rmult_assoc; apply Rmult_le_compat_r; lra).
  assert (At : Rabs t <= M + (2 * u + u * u) * M).
  { replace t with (t - q + q) by ring. eapply Rle_trans; [apply Rabs_triang|]. lra. }
  pose proof (near_error prec emax Hf t) as B.
  assert (E2 : bpow radix2 (2 - prec) = 4 * u).
  { unfold Z.sub. rewrite bpow_plus. reflexivity. }
  assert (ut : u * Rabs t <= u * (M + (2 * u + u * u) * M)) by (apply Rmult_le_compat_l; lra).
  assert (C : Rabs (rnd t - q) <= M * bpow radix2 (2 - prec) + bpow radix2 (emin - 1)).
  { replace (rnd t - q) with ((rnd t - t) + (t - q)) by ring. eapply Rle_trans; [apply Rabs_triang|]. rewrite E2.
    assert (u * ((2 * u + u * u) * M) <= / 2 * (u * M)).
    { replace (u * ((2 * u + u * u) * M)) with ((2 * u + u * u) * (u * M)) by ring. apply Rmult_le_compat_r; lra. }
    lra. }
  assert (Sm : bpow radix2 (emin - 1) <= bpow radix2 100) by (apply bpow_le; pose proof (facts prec emax Hf); lia).
  destruct (fmul_round prec emax Hp He x (float_mono_inv prec emax res) Gx I2) as [D1 D2].
  - fold t. apply (below_emax prec emax Hf). replace (rnd t) with (rnd t - q + q) by ring. eapply Rle_trans; [apply Rabs_triang|].
    rewrite E2 in C. change (bpow radix2 110) with (bpow radix2 (10 + 100)). rewrite bpow_plus. change (bpow radix2 10) with 1024. lra.
  - split; [apply D2|]. rewrite D1. fold t. exact C.
Qed.
End Index.

(** The interval of one coordinate. *)
Lemma mono_coordinate (prec emax : Z) (res x : spec_float) : standard_format prec emax -> float_good_resolution prec emax res ->
  good_float prec emax x -> let r := float_value res in
  (- inject_Z (2 ^ 30) * r <= float_value x <= inject_Z (2 ^ 30) * r)%Q ->
  exists k, float_index prec emax (float_mono_inv prec emax res) x = Ok k /\ (INT_MIN <= k <= INT_MAX)%Z /\
    forall M, (0 <= M <= inject_Z (2 ^ 30))%Q -> (- M * r <= float_value x <= M * r)%Q ->
      near_interval r (M * (2 # 1) ^ (2 - prec) + (2 # 1) ^ (2 - emax - prec)) (float_value x) k.
Proof.
  intros Hf [Gr [Hr1 Hr2]] Gx r Hx. apply Qle_Rle in Hr1, Hr2. rewrite pow_bpow, value_val in Hr1, Hr2.
  assert (P : 0 < val res) by (pose proof (bpow_gt_0 radix2 (-100)); lra).
  set (q := val x / val res). assert (Eq : val x = q * val res) by (unfold q; field; lra).
  set (v := val (fmul prec emax x (float_mono_inv prec emax res))).
  assert (N : forall M, (0 <= M <= inject_Z (2 ^ 30))%Q -> (- M * r <= float_value x <= M * r)%Q ->
    float_finite (fmul prec emax x (float_mono_inv prec emax res)) = true /\
    Rabs (v - q) <= Q2R M * bpow radix2 (2 - prec) + bpow radix2 (2 - emax - prec)).
  { intros M [M1 M2] [X1 X2]. apply Qle_Rle in M1, M2, X1, X2. rewrite Q2R_0' in M1. rewrite Q2R_inject in M2.
    unfold r in X1, X2. rewrite Q2R_mult, Q2R_opp, !value_val in X1. rewrite Q2R_mult, !value_val in X2.
    assert (Hq : Rabs q <= Q2R M) by (apply Rabs_le; split; apply Rmult_le_reg_r with (val res); lra).
    assert (MB : 0 <= Q2R M <= bpow radix2 100).
    { split; [exact M1|]. eapply Rle_trans; [exact M2|]. change (IZR (2 ^ 30)) with (bpow radix2 30). apply bpow_le. discriminate. }
    pose proof (mono_product_near prec emax Hf res x Gr Gx (conj Hr1 Hr2) (Q2R M) MB Hq) as K.
    replace (3 - emax - prec - 1)%Z with (2 - emax - prec)%Z in K by lia. exact K. }
  pose proof (Zfloor_lb v) as L. pose proof (Zfloor_ub v) as U.
  assert (Big : (0 <= inject_Z (2 ^ 30) <= inject_Z (2 ^ 30))%Q) by (split; [vm_compute; discriminate|apply Qle_refl]).
  destruct (N _ Big Hx) as [Fp NB].
  assert (R : (INT_MIN <= Zfloor v <= INT_MAX)%Z).
  { assert (Hq : Rabs q <= IZR (2 ^ 30)).
    { destruct Hx as [X1 X2]. apply Qle_Rle in X1, X2. unfold r in X1, X2. rewrite Q2R_mult, Q2R_opp, Q2R_inject, !value_val in X1. rewrite Q2R_mult, Q2R_inject, !value_val in X2.
      apply Rabs_le; split; apply Rmult_le_reg_r with (val res); lra. }
    change (IZR (2 ^ 30)) with 1073741824 in Hq. rewrite Q2R_inject in NB. change (IZR (2 ^ 30)) with 1073741824 in NB.
    assert (T1 : bpow radix2 (2 - prec) <= / 4194304).
    { change (/ 4194304) with (bpow radix2 (-22)). apply bpow_le. pose proof (facts prec emax Hf). lia. }
    assert (T2 : bpow radix2 (2 - emax - prec) <= 1).
    { change 1 with (bpow radix2 0). apply bpow_le. pose proof (facts prec emax Hf). lia. }
    apply Rabs_le_inv in NB, Hq. unfold INT_MIN, INT_MAX. split.
    - apply Zfloor_lub. change (IZR (- 2 ^ 31)) with (-2147483648). lra.
    - apply le_IZR. change (IZR (2 ^ 31 - 1)) with 2147483647. lra. }
  exists (Zfloor v). split; [|split; [exact R|]].
  - unfold float_index, int_floor. rewrite Fp, floor_val. fold v. apply to_int_ok. exact R.
  - intros M HM HX. destruct (N M HM HX) as [_ K]. apply Rabs_le_inv in K.
    set (tol := (M * (2 # 1) ^ (2 - prec) + (2 # 1) ^ (2 - emax - prec))%Q).
    assert (Et : Q2R tol = Q2R M * bpow radix2 (2 - prec) + bpow radix2 (2 - emax - prec)) by (unfold tol; rewrite Q2R_plus, Q2R_mult, !pow_bpow; reflexivity).
    split; [apply Rle_Qle|apply Rlt_Qlt]; rewrite Q2R_mult; unfold r; rewrite !value_val, Eq; [apply Rmult_le_compat_r; [lra|]|apply Rmult_lt_compat_r; [lra|]];
      [rewrite Q2R_minus|rewrite !Q2R_plus]; rewrite Q2R_inject, Et; [lra|]. rewrite Q2R_1'. lra.
Qed.
(** Away from the ends of an interval it is the interval of the coordinate. *)
Lemma near_exact (r tol x : Q) (k j : Z) : (0 < r)%Q -> near_interval r tol x k ->
  ((inject_Z j + tol) * r <= x)%Q -> (x < (inject_Z j + 1 - tol) * r)%Q -> k = j.
Proof.
  intros Hr [K1 K2] H1 H2.
  assert (A : (inject_Z k < inject_Z j + 1)%Q).
  { assert (A : ((inject_Z k - tol) * r < (inject_Z j + 1 - tol) * r)%Q) by (eapply Qle_lt_trans; eassumption).
    apply Qmult_lt_reg in A; [|exact Hr]. apply Rlt_Qlt. apply Qlt_Rlt in A. revert A. q2r. lra. }
  assert (B : (inject_Z j < inject_Z k + 1)%Q).
  { assert (B : ((inject_Z j + tol) * r < (inject_Z k + 1 + tol) * r)%Q) by (eapply Qle_lt_trans; eassumption).
    apply Qmult_lt_reg in B; [|exact Hr]. apply Rlt_Qlt. apply Qlt_Rlt in B. revert B. q2r. lra. }
  change 1%Q with (inject_Z 1) in A, B. rewrite <- inject_Z_plus in A, B. rewrite <- Zlt_Qlt in A, B. lia.
Qed.

(** ** Histories *)
Open Scope Z_scope.
Section History.
Variables prec emax : Z.
Hypothesis Hf : standard_format prec emax.
Context {V W : Type}.
Variable default : V.
Variable merge : V -> V -> V.
Variable to_m : W -> list spec_float.
Variable add : V -> W -> V.
Variable dsample : V -> W -> spec_float.
Variable res : spec_float.
Hypothesis Hr : float_good_resolution prec emax res.
Notation r := (float_value res).
Notation inv := (float_mono_inv prec emax res).
Variable size : list Z.
Variable mn : idx.
Hypothesis Hargs : mono_args r size mn.
Notation usable := (fun p => float_point prec emax r (to_m p)).

Definition pcell (p : W) : idx := match float_bundle_index prec emax inv (to_m p) with Ok i => i | _ => [] end.
(** The corner of the cell, a point that exact arithmetic puts in the same cell. *)
Definition corner (p : W) : list Q := map (fun k => inject_Z k * r)%Q (pcell p).

Lemma pcell_spec (p : W) : usable p -> float_bundle_index prec emax inv (to_m p) = Ok (pcell p) /\ length (pcell p) = 2%nat /\
  Forall (fun z => INT_MIN <= z <= INT_MAX) (pcell p) /\
  forall d M, (d < 2)%nat -> (0 <= M <= inject_Z (2 ^ 30))%Q ->
    let x := float_value (nth d (to_m p) S754_nan) in (- M * r <= x <= M * r)%Q ->
    near_interval r (M * (2 # 1) ^ (2 - prec) + (2 # 1) ^ (2 - emax - prec)) x (nth d (pcell p) 0).
Proof.
  intros [L G]. unfold pcell. destruct (to_m p) as [|x [|y [|? ?]]]; try discriminate L.
  inversion G as [|? ? [Gx Hx] G']; subst. inversion G' as [|? ? [Gy Hy] _]; subst.
  destruct (mono_coordinate prec emax res x Hf Hr Gx Hx) as [k [Ek [Rk Nk]]]. destruct (mono_coordinate prec emax res y Hf Hr Gy Hy) as [j [Ej [Rj Nj]]].
  unfold float_bundle_index. cbn [omap]. rewrite Ek. cbn [obind]. rewrite Ej. cbn [obind].
  split; [reflexivity|]. split; [reflexivity|]. split; [repeat constructor; lia|].
  intros [|[|d]] M Hd HM; cbn [nth]; [apply Nk; exact HM|apply Nj; exact HM|lia].
Qed.

Lemma corner_cell (p : W) : cell_of r (corner p) = pcell p.
Proof.
  unfold cell_of, corner. rewrite map_map. rewrite <- (map_id (pcell p)) at 2. apply map_ext. intros k. rewrite <- (Qfloor_Z k) at 2.
  apply Qfloor_comp. field. pose proof Hargs as [H _]. intros E. rewrite E in H. discriminate H.
Qed.
Lemma corner_has (p : W) : usable p -> has_cell r (corner p).
Proof.
  intros H. destruct (pcell_spec p H) as [_ [L [R _]]]. split; [unfold corner; rewrite map_length; exact L|rewrite corner_cell; exact R].
Qed.

Lemma toIndex_same (m : mono V) (p : W) : mono_ok r size mn m -> usable p ->
  float_mono_toIndex prec emax to_m inv m p = mono_toIndex corner m p.
Proof.
  intros Hm H. destruct (pcell_spec p H) as [E _]. unfold float_mono_toIndex, mono_toIndex. rewrite E, (mk_res _ _ _ _ Hm).
  rewrite (index_value r _ (corner_has p H)), corner_cell. reflexivity.
Qed.
Lemma insert_same (m : mono V) (p : W) : mono_ok r size mn m -> usable p ->
  float_mono_insert prec emax default merge to_m add inv m p = mono_insert default merge corner add m p.
Proof. intros Hm H. unfold float_mono_insert, mono_insert. rewrite (toIndex_same m p Hm H). reflexivity. Qed.
Lemma get_same (m : mono V) (p : W) : mono_ok r size mn m -> usable p ->
  float_mono_get prec emax merge to_m inv m p = mono_get merge corner m p.
Proof. intros Hm H. unfold float_mono_get, mono_get. rewrite (toIndex_same m p Hm H). reflexivity. Qed.

Lemma off_border_same (ops : list (mono_op (V:=V) (W:=W))) : points_off_border usable pcell size mn ops -> off_border corner r size mn ops.
Proof.
  unfold points_off_border, off_border. apply Forall_impl. intros [p|i f]; [|auto]. intros [A B]. rewrite corner_cell. split; [apply corner_has; exact A|exact B].
Qed.
Lemma run_same (ops : list (mono_op (V:=V) (W:=W))) : points_off_border usable pcell size mn ops -> forall m, mono_ok r size mn m ->
  float_mono_run prec emax default merge to_m add inv ops m = mono_run default merge corner add ops m.
Proof.
  induction ops as [|op ops IH]; intros H m Hm; [reflexivity|]. inversion H as [|? ? Hop H']; subst.
  cbn [float_mono_run mono_run ofold]. fold (float_mono_run prec emax default merge to_m add inv). fold (mono_run default merge corner add).
  assert (E : float_mono_step prec emax default merge to_m add inv m op = mono_step default merge corner add m op).
  { destruct op as [p|i f]; [|reflexivity]. apply insert_same; [exact Hm|apply Hop]. }
  rewrite E.
  destruct (run_ok default merge r size mn Hargs corner add (fun _ _ => 0%Q) [op] m Hm) as [m1 [E1 [O1 _]]].
  { apply off_border_same. constructor; [exact Hop|constructor]. }
  cbn [mono_run ofold] in E1. destruct (mono_step default merge corner add m op) as [m2| |]; cbn [obind] in *; try discriminate E1.
  injection E1 as ->. apply IH; assumption.
Qed.

Lemma history_same (ops : list (mono_op (V:=V) (W:=W))) (i : idx) :
  cell_history default corner add r ops i = point_history default add pcell ops i.
Proof.
  unfold cell_history, point_history. generalize (@None V). induction ops as [|op ops IH]; intros o; [reflexivity|].
  cbn [fold_left]. rewrite IH. f_equal. destruct op as [p|j f]; [rewrite corner_cell|]; reflexivity.
Qed.

Lemma mono_points_float (ops : list (mono_op (V:=V) (W:=W))) : points_off_border usable pcell size mn ops ->
  exists m0 m, mono_new r size mn = Ok m0 /\ float_mono_run prec emax default merge to_m add inv ops m0 = Ok m /\
    mono_run default merge corner add ops m0 = Ok m /\
    forall p, usable p -> let i := pcell p in
      (in_cells size mn i ->
         float_mono_get prec emax merge to_m inv m p = Ok (point_history default add pcell ops i) /\
         float_mono_sample prec emax merge to_m dsample inv m p =
           Ok (match point_history default add pcell ops i with Some d => dsample d p | None => float_zero end) /\
         exists m', float_mono_insert prec emax default merge to_m add inv m p = Ok m') /\
      (on_border size mn i ->
         float_mono_get prec emax merge to_m inv m p = UB /\ float_mono_sample prec emax merge to_m dsample inv m p = UB /\
         float_mono_insert prec emax default merge to_m add inv m p = UB) /\
      (~ in_cells size mn i -> ~ on_border size mn i ->
         float_mono_get prec emax merge to_m inv m p = Ok None /\ float_mono_sample prec emax merge to_m dsample inv m p = Ok float_zero /\
         float_mono_insert prec emax default merge to_m add inv m p = Ok m).
Proof.
  intros H. destruct (mono_history default merge corner add (fun _ _ => 0%Q) r size mn Hargs ops (off_border_same ops H)) as [m0 [m [E0 [E [O C]]]]].
  destruct (new_ok (V:=V) r size mn Hargs) as [m0' [E0' [O0 _]]]. assert (m0' = m0) by congruence. subst m0'.
  exists m0, m. split; [exact E0|]. split; [rewrite (run_same ops H m0 O0); exact E|]. split; [exact E|].
  intros p Hu i. destruct (access_spec default merge r size mn Hargs corner add (fun _ _ => 0%Q) m p O (corner_has p Hu)) as [X [Y Z]].
  rewrite corner_cell in X, Y, Z. fold i in X, Y, Z.
  rewrite (insert_same m p O Hu), (get_same m p O Hu). unfold float_mono_sample. rewrite (toIndex_same m p O Hu).
  split; [|split].
  - intros Hi. destruct (X Hi) as [X1 [X2 [_ [m' [X3 _]]]]]. rewrite X1, X2. cbn [obind]. unfold float_mono_sample_at.
    rewrite (get_ok merge r size mn Hargs m i O Hi), (C i Hi), history_same. cbn [obind]. split; [reflexivity|]. split; [reflexivity|]. exists m'. exact X3.
  - intros Hi. destruct (Y Hi) as [Y1 [Y2 [_ Y3]]]. rewrite Y1, Y2, Y3. cbn [obind]. unfold float_mono_sample_at. rewrite (get_ub merge r size mn Hargs m i O); [auto|].
    intros [_ K]. destruct Hi as [_ [d [Hd K']]]. specialize (K d Hd). lia.
  - intros Hi Hb. destruct (Z Hi Hb) as [Z1 [Z2 [_ Z3]]]. rewrite Z1, Z2, Z3. auto.
Qed.
End History.

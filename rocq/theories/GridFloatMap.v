(** Conversion to grids in floating-point arithmetic, the writes. *)
From Coq Require Import QArith Qabs Qround Reals Lra Qreals Floats.SpecFloat.
From Flocq Require Import Core BinarySingleNaN.
From Verif Require Import Base SeqModel SeqFacts IndexModel IndexFacts OctreeSpec MapModel MapFacts MapHist BackendModel SysModel SysSpec SysFacts
  ExtentModel ExtentFacts SampleModel SampleSpec InterpFacts SampleFacts ResidualModel RoundModel RoundFacts FloatModel FloatFacts FloatScoreFacts FloatBoundFacts FloatIndexFacts
  OddsFloatFacts ConvFacts GridModel GridFacts GridFloatModel GridFloatSpec GridFloatFacts.
Open Scope Z_scope.

(** A sequence of writes. *)
Definition fset3 (g : float_grid) (w : Z * Z * spec_float) : outcome float_grid := float_grid_set g (fst (fst w)) (snd (fst w)) (snd w).
Definition in_fgrid (g : float_grid) (u v : Z) : Prop := 0 <= u < fg_width g /\ 0 <= v < fg_height g.

Lemma float_grid_set_ok (g : float_grid) (u v : Z) (x : spec_float) : in_fgrid g u v ->
  float_grid_set g u v x = Ok {| fg_width := fg_width g; fg_height := fg_height g;
             fg_at := fun a b => if (a =? u) && (b =? v) then x else fg_at g a b |}.
Proof.
  intros [H1 H2]. unfold float_grid_set.
  destruct (Z.leb_spec 0 u); [|lia]. destruct (Z.ltb_spec u (fg_width g)); [|lia].
  destruct (Z.leb_spec 0 v); [|lia]. destruct (Z.ltb_spec v (fg_height g)); [|lia]. reflexivity.
Qed.
Lemma fwrite_dec (a b : Z * Z * spec_float) : {a = b} + {a <> b}.
Proof. repeat decide equality. Qed.
Lemma fwrites_spec (ws : list (Z * Z * spec_float)) : forall g,
  (forall u v x, In (u, v, x) ws -> in_fgrid g u v) ->
  exists g', ofold fset3 ws g = Ok g' /\ fg_width g' = fg_width g /\ fg_height g' = fg_height g /\
    (forall u v, (forall x, ~ In (u, v, x) ws) -> fg_at g' u v = fg_at g u v) /\
    (forall u v x, In (u, v, x) ws -> (forall y, In (u, v, y) ws -> y = x) -> fg_at g' u v = x).
Proof.
  induction ws as [|[[u0 v0] x0] ws IH]; intros g H.
  - exists g. split; [reflexivity|]. split; [reflexivity|]. split; [reflexivity|]. split; [reflexivity|]. intros u v x [].
  - cbn [ofold]. unfold fset3 at 1. cbn [fst snd].
    rewrite float_grid_set_ok by (apply (H u0 v0 x0); left; reflexivity). cbn [obind].
    match goal with |- context [ofold fset3 ws ?g1] => destruct (IH g1) as [g' [E [W [Hh [A B]]]]] end.
    { intros u v x Hin. apply (H u v x). right; exact Hin. }
    exists g'. cbn [fg_width fg_height fg_at] in *. split; [exact E|]. split; [exact W|]. split; [exact Hh|]. split.
    + intros u v Hno. rewrite A by (intros x Hx; apply (Hno x); right; exact Hx).
      destruct (Z.eqb_spec u u0) as [->|]; [|reflexivity]. destruct (Z.eqb_spec v v0) as [->|]; [|reflexivity].
      exfalso. apply (Hno x0). left; reflexivity.
    + intros u v x Hin Hf.
      destruct (in_dec fwrite_dec (u, v, x) ws) as [Hi|Hi].
      * apply B; [exact Hi|]. intros y Hy. apply Hf. right; exact Hy.
      * destruct Hin as [Heq|Hin]; [|contradiction]. injection Heq as -> -> ->.
        rewrite A.
        -- rewrite !Z.eqb_refl. reflexivity.
        -- intros y Hy. assert (y = x) by (apply Hf; right; exact Hy). subst y. contradiction.
Qed.

Section Convert.
Variables prec emax : Z.
Hypothesis Hf : standard_format prec emax.
Context {P : Type}.
Variable c : config P.
Hypothesis Hc : config_ok c.
Hypothesis Hdim : dimc c = 2%nat.
Hypothesis Hcw : kindc c = Dynamic -> aminc c = cw_min /\ amaxc c = cw_max.
Variable bres sres : spec_float.
Variable dsample : P -> list spec_float -> spec_float.
Notation point bi k l := [float_chunk_coordinate prec emax bres sres (nth 0 bi 0) k; float_chunk_coordinate prec emax bres sres (nth 1 bi 0) l].

Definition fpixel_weights (bilinear : bool) (cs : Z) (bi : idx) (k l : Z) : nat -> spec_float :=
  if bilinear
  then float_weight prec emax [float_chunk_weight prec emax (nth 0 bi 0) k cs; float_chunk_weight prec emax (nth 1 bi 0) l cs]
  else fun _ => float_div_count prec emax c.
Definition fpixel_value (bilinear : bool) (cs : Z) (m : cmap c) (bi : idx) (k l : Z) : spec_float :=
  float_score prec emax c dsample m bi (fpixel_weights bilinear cs bi k l) (point bi k l).

(** The writes for sizes and a chunk width that fit. *)
Lemma fgrid_core (bilinear : bool) (dv : spec_float) (m : cmap c) (es : list (idx * bundle)) (e0 e1 : spec_float) (W0 W1 cs : Z)
  (count := fun d => nth d (max_bi m) 0 - nth d (min_bi m) 0 + 1) :
  cInv c m -> region c 0 m -> cbundles c m = Ok es ->
  (forall bi d, In bi (map fst es) -> (d < dimc c)%nat -> nth d (min_bi m) 0 <= nth d bi 0 <= nth d (max_bi m) 0) ->
  float_extent prec emax c bres m 0 = Ok e0 -> float_extent prec emax c bres m 1 = Ok e1 ->
  float_pixels prec emax e0 sres = Ok W0 -> float_pixels prec emax e1 sres = Ok W1 ->
  float_chunk_step prec emax bres sres = Ok cs -> 0 <= cs ->
  count 0%nat * cs <= W0 -> count 1%nat * cs <= W1 -> count 0%nat * cs <= INT_MAX -> count 1%nat * cs <= INT_MAX ->
  exists g,
    float_to_grid prec emax c bres sres dsample false bilinear dv m = Ok (m, g) /\
    fg_width g = W0 /\ fg_height g = W1 /\
    (forall bi k n, In bi (map fst es) -> 0 <= k < cs -> 0 <= n < cs ->
       in_fgrid g (pix (min_bi m) 0 cs bi k) (pix (min_bi m) 1 cs bi n) /\
       fg_at g (pix (min_bi m) 0 cs bi k) (pix (min_bi m) 1 cs bi n) = fpixel_value bilinear cs m bi k n) /\
    (forall u v, (forall bi k n, In bi (map fst es) -> 0 <= k < cs -> 0 <= n < cs ->
                    pix (min_bi m) 0 cs bi k = u -> pix (min_bi m) 1 cs bi n = v -> False) ->
       fg_at g u v = dv).
Proof.
  intros HI HR Ees Hrange E0 E1 S0 S1 Ecs Hcs F0 F1 I0 I1.
  destruct (cmap_bundles c Hc m HI HR) as [es' [Ees' [_ [Hin _]]]]. assert (es' = es) by congruence. subst es'.
  unfold float_to_grid. cbn [obind]. rewrite E1. cbn [obind]. rewrite S1. cbn [obind]. rewrite E0. cbn [obind].
  rewrite S0. cbn [obind]. rewrite Ecs. cbn [obind]. rewrite Ees. cbn [obind].
  set (g0 := {| fg_width := W0; fg_height := W1; fg_at := fun _ _ : Z => dv |}).
  set (F := fun (bi : idx) (k n : Z) => (pix (min_bi m) 0 cs bi k, pix (min_bi m) 1 cs bi n, fpixel_value bilinear cs m bi k n)).
  set (ws := flat_map (fun e : idx * bundle => flat_map (fun k => map (F (fst e) k) (int_range cs)) (int_range cs)) es).
  assert (Hax : forall bi d k w, In bi (map fst es) -> (d < 2)%nat -> 0 <= k < cs ->
            count d * cs <= w -> count d * cs <= INT_MAX ->
            pixel_index (nth d bi 0) (nth d (min_bi m) 0) cs k = Ok (pix (min_bi m) d cs bi k) /\
            0 <= pix (min_bi m) d cs bi k < w).
  { intros bi d k w Hbi Hd Hk Hw Hint. pose proof (Hrange bi d Hbi ltac:(rewrite Hdim; exact Hd)) as R. unfold count in *.
    set (n := nth d (max_bi m) 0 - nth d (min_bi m) 0 + 1) in *.
    split.
    - unfold pix. apply (pixel_index_ok c) with (n := n); lia.
    - unfold pix. nia. }
  assert (Hws : forall u v x, In (u, v, x) ws <-> exists bi k n, In bi (map fst es) /\ 0 <= k < cs /\ 0 <= n < cs /\
                  u = pix (min_bi m) 0 cs bi k /\ v = pix (min_bi m) 1 cs bi n /\ x = fpixel_value bilinear cs m bi k n).
  { intros u v x. unfold ws. rewrite in_flat_map. split.
    - intros [e [He H]]. apply in_flat_map in H. destruct H as [k [Hk H]]. apply in_map_iff in H.
      destruct H as [n [Hq Hn]]. injection Hq as <- <- <-. apply int_range_in in Hk, Hn.
      exists (fst e), k, n. split; [apply in_map; exact He|]. auto.
    - intros [bi [k [n [Hbi [Hk [Hn [-> [-> ->]]]]]]]]. apply in_map_iff in Hbi. destruct Hbi as [e [<- He]].
      exists e. split; [exact He|]. apply in_flat_map. exists k. split; [apply int_range_in; exact Hk|].
      apply in_map_iff. exists n. split; [reflexivity|apply int_range_in; exact Hn]. }
  assert (Hfold : ofold (float_write_bundle prec emax c bres sres dsample bilinear m (min_bi m) cs) es g0 = ofold fset3 ws g0).
  { unfold ws. rewrite <- ofold_concat. apply ofold_ext. intros g e He. unfold float_write_bundle.
    rewrite <- ofold_concat. apply ofold_ext. intros g1 k Hk. apply int_range_in in Hk.
    rewrite <- ofold_map_in. apply ofold_ext. intros g2 n Hn. apply int_range_in in Hn.
    destruct e as [bi b]. cbn [fst snd] in *. assert (Hbi : In bi (map fst es)) by (apply (in_map fst) in He; exact He).
    unfold float_write_pixel.
    destruct (Hax bi 0%nat k W0 Hbi ltac:(lia) Hk F0 I0) as [-> _].
    destruct (Hax bi 1%nat n W1 Hbi ltac:(lia) Hn F1 I1) as [-> _]. cbn [obind].
    apply Hin in He. destruct He as [Hu Hget].
    assert (Hdom : cbdom c (cshape c m) bi).
    { destruct HI as [_ [Hsh _]]. rewrite Hsh. apply (usable_bdom c Hc 0 bi); [lia|exact Hu]. }
    unfold fset3, F, fpixel_value, fpixel_weights. cbn [fst snd].
    destruct bilinear; (rewrite float_weighted_sum_spec with (b := bi); [reflexivity|exact HI|exact Hdom|exact Hget]). }
  rewrite Hfold.
  assert (Hins : forall u v x, In (u, v, x) ws -> in_fgrid g0 u v).
  { intros u v x H. apply Hws in H. destruct H as [bi [k [n [Hbi [Hk [Hn [-> [-> _]]]]]]]].
    unfold in_fgrid, g0. cbn [fg_width fg_height].
    destruct (Hax bi 0%nat k W0 Hbi ltac:(lia) Hk F0 I0) as [_ H0].
    destruct (Hax bi 1%nat n W1 Hbi ltac:(lia) Hn F1 I1) as [_ H1]. split; assumption. }
  destruct (fwrites_spec ws g0 Hins) as [g [Eg [Gw [Gh [Gold Gnew]]]]].
  rewrite Eg. cbn [obind]. exists g. split; [reflexivity|]. split; [exact Gw|]. split; [exact Gh|]. split.
  - intros bi k n Hbi Hk Hn.
    assert (Hw : In (pix (min_bi m) 0 cs bi k, pix (min_bi m) 1 cs bi n, fpixel_value bilinear cs m bi k n) ws).
    { apply Hws. exists bi, k, n. auto 10. }
    split.
    + destruct (Hins _ _ _ Hw) as [A B]. split; [rewrite Gw|rewrite Gh]; assumption.
    + apply Gnew; [exact Hw|]. intros y Hy. apply Hws in Hy. destruct Hy as [bi' [k' [n' [Hbi' [Hk' [Hn' [P0 [P1 ->]]]]]]]].
      apply pix_inj in P0; [|assumption|assumption]. apply pix_inj in P1; [|assumption|assumption].
      destruct P0 as [Q0 ->], P1 as [Q1 ->]. f_equal.
      assert (L : forall b, In b (map fst es) -> length b = 2%nat).
      { intros b Hb'. apply in_map_iff in Hb'. destruct Hb' as [[b1 b2] [<- Hb']]. apply Hin in Hb'. destruct Hb' as [[HL _] _]. cbn; congruence. }
      pose proof (L bi Hbi) as L1. pose proof (L bi' Hbi') as L2.
      destruct bi as [|x [|y [|]]]; try discriminate L1. destruct bi' as [|x' [|y' [|]]]; try discriminate L2.
      cbn in Q0, Q1. congruence.
  - intros u v H. rewrite Gold; [reflexivity|]. intros x Hx. apply Hws in Hx.
    destruct Hx as [bi [k [n [Hbi [Hk [Hn [-> [-> _]]]]]]]]. exact (H bi k n Hbi Hk Hn eq_refl eq_refl).
Qed.
End Convert.

(** ** The whole conversion *)
Section Whole.
Variables prec emax : Z.
Hypothesis Hf : standard_format prec emax.
Context {P : Type}.
Variable c : config P.
Hypothesis Hc : config_ok c.
Hypothesis Hdim : dimc c = 2%nat.
Hypothesis Hcw : kindc c = Dynamic -> aminc c = cw_min /\ amaxc c = cw_max.
Variable resolution sres : spec_float.
Hypothesis Hr : float_good_resolution prec emax resolution.
Hypothesis Hs : float_good_resolution prec emax sres.
Variable dsample : P -> list spec_float -> spec_float.
Variable allocate_all bilinear : bool.
Variable dv : spec_float.
Variable l : list (map_action (P:=P)).
Notation l' := (l ++ if allocate_all then [ExpandAll] else []).
Hypothesis Hl : fits c l'.
Notation bres := (float_resolution prec emax resolution).
Notation h := (float_value resolution * (1 # 2))%Q.
Notation s := (float_value sres).
Notation tiny := ((2 # 1) ^ (2 - emax - prec))%Q.
Notation point bi k l := [float_chunk_coordinate prec emax bres sres (nth 0 bi 0) k; float_chunk_coordinate prec emax bres sres (nth 1 bi 0) l].

Lemma fallocate_first :
  exists m0 m es, cact_all c l (new_map c) = Ok m0 /\ cact_all c l' (new_map c) = Ok m /\ cbundles c m = Ok es /\
    float_to_grid prec emax c bres sres dsample allocate_all bilinear dv m0 = float_to_grid prec emax c bres sres dsample false bilinear dv m.
Proof.
  destruct (run_spec c Hc l' Hl) as [m [E [HI [HR _]]]].
  destruct (cmap_bundles c Hc m HI HR) as [es [Ees _]].
  destruct (cact_all c l (new_map c)) as [m0| |] eqn:E0;
    [|rewrite cact_all_app, E0 in E; discriminate E|rewrite cact_all_app, E0 in E; discriminate E].
  exists m0, m, es. split; [reflexivity|]. split; [exact E|]. split; [exact Ees|].
  rewrite cact_all_app, E0 in E. cbn [obind] in E. unfold float_to_grid. destruct allocate_all.
  - unfold cact_all, act_all in E. cbn [ofold] in E. unfold cact. destruct (act _ _ _ _ _ _ _ _ _ m0 ExpandAll); cbn [obind] in *; [|discriminate E|discriminate E].
    injection E as ->. reflexivity.
  - injection E as ->. reflexivity.
Qed.

Lemma resolutions : let b := bres in
  good_float prec emax b /\ good_float prec emax sres /\
  (bpow radix2 (-101) <= SF2R radix2 b <= bpow radix2 100)%R /\ (bpow radix2 (-100) <= SF2R radix2 sres <= bpow radix2 100)%R /\
  SF2R radix2 b = Q2R h.
Proof.
  destruct Hr as [Gr [R1 R2]], Hs as [Gs [S1 S2]]. apply Qle_Rle in R1, R2, S1, S2. q2r_in R1. q2r_in R2. q2r_in S1. q2r_in S2.
  destruct (half_exact prec emax Hf resolution Gr (conj R1 R2)) as [V G]. cbn zeta. rewrite V.
  assert (E : Q2R h = (SF2R radix2 resolution / 2)%R) by (q2r; unfold Rdiv; reflexivity).
  split; [exact G|]. split; [exact Gs|]. split; [|split; [split; assumption|symmetry; exact E]].
  change (-101)%Z with (-100 + -1)%Z. rewrite bpow_plus. change (bpow radix2 (-1)) with (/ 2)%R.
  pose proof (bpow_gt_0 radix2 100). lra.
Qed.

Lemma float_grid_chunks :
  exists m0 m es, cact_all c l (new_map c) = Ok m0 /\ cact_all c l' (new_map c) = Ok m /\ cbundles c m = Ok es /\
    let count d := nth d (max_bi m) 0 - nth d (min_bi m) 0 + 1 in
    ((forall d, (d < 2)%nat -> fits_pixels prec (count d) h s /\ count d <= INT_MAX) ->
    exists cs g,
      float_to_grid prec emax c bres sres dsample allocate_all bilinear dv m0 = Ok (m, g) /\
      0 <= cs <= 2 ^ prec /\ (inject_Z cs * s <= h * (1 + (2 # 1) ^ (- prec)) + tiny * s)%Q /\
      (h * (1 - (2 # 1) ^ (- prec)) - tiny * s < (inject_Z cs + 1) * s)%Q /\
      (forall d, (d < 2)%nat -> let w := if Nat.eqb d 0 then fg_width g else fg_height g in
         (float_chunk_step prec emax bres sres = Ok cs /\ count d * cs <= w) /\
         (inject_Z (count d) * h * (1 - (2 # 1) ^ (3 - prec)) - tiny * s <= inject_Z w * s)%Q /\
         ((inject_Z w - 1) * s < inject_Z (count d) * h * (1 + (2 # 1) ^ (3 - prec)) + tiny * s)%Q) /\
      (forall bi k n, In bi (map fst es) -> 0 <= k < cs -> 0 <= n < cs ->
         in_fgrid g (pix (min_bi m) 0 cs bi k) (pix (min_bi m) 1 cs bi n) /\
         fg_at g (pix (min_bi m) 0 cs bi k) (pix (min_bi m) 1 cs bi n) = fpixel_value prec emax c bres sres dsample bilinear cs m bi k n) /\
      (forall u v, (forall bi k n, In bi (map fst es) -> 0 <= k < cs -> 0 <= n < cs ->
                      pix (min_bi m) 0 cs bi k = u -> pix (min_bi m) 1 cs bi n = v -> False) ->
         fg_at g u v = dv)).
Proof.
  destruct fallocate_first as [m0 [m [es [E0 [E [Ees Et]]]]]]. exists m0, m, es.
  split; [exact E0|]. split; [exact E|]. split; [exact Ees|]. intros count Hfit.
  destruct (run_spec c Hc l' Hl) as [m' [E' [HI [HR _]]]]. assert (m' = m) by congruence. subst m'.
  destruct resolutions as [Gb [Gs [Hb [Hs' Eh]]]]. cbn zeta in *.
  set (b := bres) in *. set (vb := SF2R radix2 b) in *. set (vs := SF2R radix2 sres) in *.
  assert (Es : Q2R s = vs) by apply value_val.
  assert (PS : (0 < vs)%R) by (pose proof (bpow_gt_0 radix2 (-100)); lra).
  assert (Hn : forall d, (d < 2)%nat -> 1 <= count d <= INT_MAX /\ (IZR (count d) * vb <= IZR (pixel_limit prec) * vs)%R).
  { intros d Hd. destruct (Hfit d Hd) as [[A B] C]. split; [lia|]. apply Qle_Rle in B.
    rewrite (Q2R_mult (inject_Z (count d))), (Q2R_mult (inject_Z (pixel_limit prec))), !Q2R_inject, Es, <- Eh in B. exact B. }
  set (cs := Zfloor (round radix2 (FLT_exp (3 - emax - prec) prec) ZnearestE (vb / vs))).
  destruct (Hn 0%nat ltac:(lia)) as [N0 L0]. destruct (Hn 1%nat ltac:(lia)) as [N1 L1].
  destruct (step prec emax Hf b sres Gb Gs Hb Hs' (count 0%nat) N0 L0) as [Ecs [C0 [C1 [C2 I0]]]].
  destruct (step prec emax Hf b sres Gb Gs Hb Hs' (count 1%nat) N1 L1) as [_ [_ [_ [_ I1]]]].
  destruct (pixels prec emax Hf b sres Gb Gs Hb Hs' (count 0%nat) N0 L0) as [W0 [P0 [_ [B0 F0]]]].
  destruct (pixels prec emax Hf b sres Gb Gs Hb Hs' (count 1%nat) N1 L1) as [W1 [P1 [_ [B1 F1]]]].
  fold vb vs in C1, C2, B0, B1. fold cs in Ecs, C0, C1, C2, I0, I1, F0, F1.
  assert (X : forall d, (d < 2)%nat -> float_extent prec emax c b m d = Ok (fmul prec emax (float_of_int prec emax (count d)) b)).
  { intros d Hd. destruct (Hn d Hd) as [[A B] _]. unfold float_extent, count in *.
    rewrite to_int_ok by (unfold INT_MIN, INT_MAX in *; lia). cbn [obind]. rewrite to_int_ok by (unfold INT_MIN, INT_MAX in *; lia). reflexivity. }
  destruct (fgrid_core prec emax c Hc Hdim b sres dsample bilinear dv m es _ _ W0 W1 cs HI HR Ees
              (bundle_range c Hc Hdim Hcw l' m es Hl E Ees) (X 0%nat ltac:(lia)) (X 1%nat ltac:(lia)) P0 P1 Ecs C0 F0 F1 I0 I1)
    as [g [Eg [Gw [Gh [Gnew Gold]]]]].
  assert (Q0 : (0 < vb / vs)%R) by (apply Rdiv_lt_0_compat; [pose proof (bpow_gt_0 radix2 (-101)); lra|exact PS]).
  assert (EB : (vb = vb / vs * vs)%R) by (field; lra).
  destruct (u_bounds prec emax Hf) as [U0 U1]. destruct (eta_bounds prec emax Hf) as [T0 T1].
  assert (Et' : Q2R tiny = bpow radix2 (2 - emax - prec)) by apply pow_bpow.
  assert (E3 : bpow radix2 (3 - prec) = (8 * bpow radix2 (- prec))%R).
  { change (3 - prec) with (3 + - prec). rewrite bpow_plus. reflexivity. }
  exists cs, g. split; [rewrite Et; exact Eg|]. split; [|split; [|split; [|split; [|split; [exact Gnew|exact Gold]]]]].
  - split; [exact C0|]. destruct (limit_bounds prec emax Hf) as [[A B] [_ D]].
    destruct (ratio_bounds prec b sres Hb Hs' (count 0%nat) N0 L0) as [_ [_ R3]]. fold vb vs in R3.
    apply le_IZR. change 2 with (radix_val radix2). rewrite IZR_Zpower by (pose proof (sizes prec emax Hf); lia).
    assert (vb / vs * bpow radix2 (- prec) <= vb / vs * 1)%R by (apply Rmult_le_compat_l; lra).
    assert (bpow radix2 (2 - emax - prec) <= 1)%R by (eapply Rle_trans; [exact T1|]; change 1%R with (bpow radix2 0); apply bpow_le; discriminate). lra.
  - apply Rle_Qle. rewrite !Q2R_plus, (Q2R_mult (inject_Z cs)), (Q2R_mult h), Q2R_plus, (Q2R_mult tiny), Et', Q2R_inject, pow_bpow, Q2R_1', Es, <- Eh.
    rewrite EB at 1. replace (vb / vs * vs * (1 + bpow radix2 (- prec)) + bpow radix2 (2 - emax - prec) * vs)%R
      with ((vb / vs * (1 + bpow radix2 (- prec)) + bpow radix2 (2 - emax - prec)) * vs)%R by ring. apply Rmult_le_compat_r; lra.
  - apply Rlt_Qlt. rewrite (Q2R_minus (h * _)), (Q2R_mult h), Q2R_minus, (Q2R_mult tiny), (Q2R_mult (inject_Z cs + 1)), Q2R_plus, Et', Q2R_inject, pow_bpow, Q2R_1', Es, <- Eh.
    rewrite EB at 1. replace (vb / vs * vs * (1 - bpow radix2 (- prec)) - bpow radix2 (2 - emax - prec) * vs)%R
      with ((vb / vs * (1 - bpow radix2 (- prec)) - bpow radix2 (2 - emax - prec)) * vs)%R by ring. apply Rmult_lt_compat_r; lra.
  - intros d Hd. set (w := if Nat.eqb d 0 then fg_width g else fg_height g).
    assert (G : exists W, w = W /\ count d * cs <= W /\
       (IZR (count d) * (vb / vs) * (1 - 4 * bpow radix2 (- prec)) - bpow radix2 (2 - emax - prec) <= IZR W <
        IZR (count d) * (vb / vs) * (1 + 5 * bpow radix2 (- prec)) + bpow radix2 (2 - emax - prec) + 1)%R /\ (1 <= IZR (count d))%R).
    { destruct d as [|[|d]]; [exists W0|exists W1|lia]; (split; [first [exact Gw|exact Gh]|]; split; [assumption|]; split; [assumption|]; apply IZR_le; lia). }
    destruct G as [W [-> [G1 [[G2 G3] G4]]]].
    split; [split; [exact Ecs|exact G1]|].
    assert (Y : (0 < IZR (count d) * (vb / vs))%R) by (apply Rmult_lt_0_compat; lra).
    split.
    + apply Rle_Qle. rewrite (Q2R_minus (inject_Z (count d) * h * _)), (Q2R_mult (inject_Z (count d) * h)), (Q2R_mult (inject_Z (count d))), Q2R_minus, (Q2R_mult tiny), (Q2R_mult (inject_Z W)), Et', !Q2R_inject, pow_bpow, Q2R_1', Es, <- Eh, E3.
      rewrite EB at 1. replace (IZR (count d) * (vb / vs * vs) * (1 - 8 * bpow radix2 (- prec)) - bpow radix2 (2 - emax - prec) * vs)%R
        with ((IZR (count d) * (vb / vs) * (1 - 8 * bpow radix2 (- prec)) - bpow radix2 (2 - emax - prec)) * vs)%R by ring.
      apply Rmult_le_compat_r; [lra|]. assert (0 <= IZR (count d) * (vb / vs) * bpow radix2 (- prec))%R by (apply Rmult_le_pos; lra). lra.
    + apply Rlt_Qlt. rewrite (Q2R_plus (inject_Z (count d) * h * _)), (Q2R_mult (inject_Z (count d) * h)), (Q2R_mult (inject_Z (count d))), Q2R_plus, (Q2R_mult tiny), (Q2R_mult (inject_Z W - 1)), Q2R_minus, Et', !Q2R_inject, pow_bpow, !Q2R_1', Es, <- Eh, E3.
      rewrite EB at 1. replace (IZR (count d) * (vb / vs * vs) * (1 + 8 * bpow radix2 (- prec)) + bpow radix2 (2 - emax - prec) * vs)%R
        with ((IZR (count d) * (vb / vs) * (1 + 8 * bpow radix2 (- prec)) + bpow radix2 (2 - emax - prec)) * vs)%R by ring.
      apply Rmult_lt_compat_r; [lra|]. assert (0 <= IZR (count d) * (vb / vs) * bpow radix2 (- prec))%R by (apply Rmult_le_pos; lra). lra.
Qed.
End Whole.

(** ** The scores *)
Section Scores.
Variables prec emax : Z.
Hypothesis Hf : standard_format prec emax.
Context {P : Type}.
Variable c : config P.
Hypothesis Hc : config_ok c.
Hypothesis Hdim : dimc c = 2%nat.
Variable bres sres : spec_float.
Variable dsample : P -> list spec_float -> spec_float.
Variable bilinear : bool.
Variable l : list (map_action (P:=P)).
Hypothesis Hl : fits c l.
Variable m : cmap c.
Hypothesis Em : cact_all c l (new_map c) = Ok m.
Variable es : list (idx * bundle).
Hypothesis Ees : cbundles c m = Ok es.
Variable bi : idx.
Hypothesis Hbi : In bi (map fst es).
Variables cs k n : Z.
Hypothesis Hcs : cs <= 2 ^ prec.
Hypothesis Hk : 0 <= k < cs.
Hypothesis Hn : 0 <= n < cs.
Notation p := [float_chunk_coordinate prec emax bres sres (nth 0 bi 0) k; float_chunk_coordinate prec emax bres sres (nth 1 bi 0) n].
Hypothesis Hu : forall i j v, cstored c m i j = Ok (Some v) -> unit_float prec emax (dsample v p).
Notation exact := (fun v (_ : list Q) => float_value (dsample v p)).
Notation weights := (if bilinear then to_bilinear_interpolation_weight [share (nth 0 bi 0) k cs; share (nth 1 bi 0) n cs] else fun _ => div_count c).

Lemma share_value (i j : Z) : 0 <= j < cs -> Q2R (share i j cs) = exact_weight i j cs /\ (0 <= exact_weight i j cs <= 1)%R.
Proof.
  intros Hj. assert (C : ~ (inject_Z cs == 0)%Q) by (intros H; apply Qeq_eqR in H; rewrite Q2R_inject, Q2R_0' in H; apply eq_IZR in H; lia).
  assert (C0 : (0 < IZR cs)%R) by (apply IZR_lt; lia). assert (K0 : (0 <= IZR j < IZR cs)%R) by (split; [apply IZR_le|apply IZR_lt]; lia).
  assert (Q : (0 <= IZR j / IZR cs <= 1)%R).
  { split; [apply Rmult_le_pos; [lra|apply Rlt_le, Rinv_0_lt_compat; exact C0]|]. apply Rmult_le_reg_r with (IZR cs); [exact C0|].
    unfold Rdiv. rewrite Rmult_assoc, Rinv_l by lra. lra. }
  unfold share, exact_weight. destruct (Z.odd i).
  - rewrite Q2R_div, !Q2R_inject by exact C. split; [reflexivity|exact Q].
  - rewrite Q2R_minus, Q2R_div, !Q2R_inject, Q2R_1' by exact C. split; [reflexivity|lra].
Qed.
Lemma pixel_near : exists b t,
  cbundle c m bi = Ok (Some b) /\ weighted_sum c exact m b weights (map float_value p) = Ok t /\
  good_float prec emax (fpixel_value prec emax c bres sres dsample bilinear cs m bi k n) /\
  (Qabs (float_value (fpixel_value prec emax c bres sres dsample bilinear cs m bi k n) - t) <= (56 # 1) * (2 # 1) ^ (- prec))%Q.
Proof.
  destruct (run_spec c Hc l Hl) as [m' [E' [HI [HR _]]]]. assert (m' = m) by congruence. subst m'.
  destruct (cmap_bundles c Hc m HI HR) as [es' [Ees' [_ [Hin _]]]]. assert (es' = es) by congruence. subst es'.
  apply in_map_iff in Hbi. destruct Hbi as [[bi' b] [Eq He]]. cbn in Eq. subst bi'. apply Hin in He. destruct He as [Hus Hget].
  destruct (place_usable c bi Hus) as [Ha Hpl].
  assert (Hdom : cbdom c (cshape c m) bi).
  { destruct HI as [_ [Hsh _]]. rewrite Hsh. apply (usable_bdom c Hc 0 bi); [lia|exact Hus]. }
  exists b. eexists. split; [rewrite (place_bundle c Hc m bi HI HR Ha), Hpl, Hget; reflexivity|].
  split; [apply weighted_sum_spec; [exact HI|exact Hdom|exact Hget]|].
  assert (D8 : (dimc c <= 8)%nat) by lia.
  destruct (u_bounds prec emax Hf) as [U0 U1].
  assert (EV : fpixel_value prec emax c bres sres dsample bilinear cs m bi k n = float_sampled prec emax c dsample m bi (fpixel_weights prec emax c bilinear cs bi k n) p).
  { unfold float_sampled, fpixel_value. rewrite Hpl, Hget. reflexivity. }
  assert (ES : forall w pq, score c exact m bi w pq = sampled c exact m bi w pq) by (intros; unfold sampled; rewrite Hpl, Hget; reflexivity).
  rewrite EV, ES.
  assert (N4 : INR (2 ^ dimc c) = 4%R) by (rewrite Hdim; cbn; ring).
  assert (G : good_float prec emax (float_sampled prec emax c dsample m bi (fpixel_weights prec emax c bilinear cs bi k n) p) /\
    (Rabs (SF2R radix2 (float_sampled prec emax c dsample m bi (fpixel_weights prec emax c bilinear cs bi k n) p) -
           Q2R (sampled c exact m bi weights (map float_value p))) <= 56 * bpow radix2 (- prec))%R).
  { unfold fpixel_weights. destruct bilinear.
    - destruct (chunk_weight_near prec emax Hf (nth 0 bi 0) k cs Hk Hcs) as [A0 B0].
      destruct (chunk_weight_near prec emax Hf (nth 1 bi 0) n cs Hn Hcs) as [A1 B1].
      destruct (share_value (nth 0 bi 0) k Hk) as [S0 X0]. destruct (share_value (nth 1 bi 0) n Hn) as [S1 X1].
      set (w0 := float_chunk_weight prec emax (nth 0 bi 0) k cs) in *. set (w1 := float_chunk_weight prec emax (nth 1 bi 0) n cs) in *.
      set (v0 := share (nth 0 bi 0) k cs) in *. set (v1 := share (nth 1 bi 0) n cs) in *. rewrite <- S0 in B0, X0. rewrite <- S1 in B1, X1.
      destruct (sampled_near prec emax Hf c D8 dsample p m HI Hu bi (float_weight prec emax [w0; w1])
                  (to_bilinear_interpolation_weight [v0; v1]) (map float_value p) (12 * bpow radix2 (- prec)) Ha) as [R1 [_ R2]].
      + intros i Hi. destruct (weight_bound prec emax Hf [w0; w1] i) as [W1 [W2 W3]]; [repeat (apply Forall_cons; [assumption|]); apply Forall_nil|].
        split; [exact W1|].
        assert (D : (Rabs (Q2R (to_bilinear_interpolation_weight (map float_value [w0; w1]) i) - Q2R (to_bilinear_interpolation_weight [v0; v1] i))
                      <= 2 * bpow radix2 (- prec) * 2 ^ length (map float_value [w0; w1]))%R).
        { apply weight_diff; [reflexivity|lra|]. intros [|[|d]] Hd; cbn in Hd; [| |lia]; cbn [map nth]; rewrite value_val;
            (split; [|assumption]); [destruct A0 as [_ A]|destruct A1 as [_ A]]; exact A. }
        cbn [map length pow INR] in D, W3. split.
        * unfold to_bilinear_interpolation_weight. rewrite make_integer_sequence_spec. cbn [length seq map fold_left nth].
          rewrite !Q2R_mult, Q2R_1', Rmult_1_l. apply Rmult_le_pos; apply inner_range; assumption.
        * cbn [map] in *. set (a := SF2R radix2 (float_weight prec emax [w0; w1] i)) in *. set (q1 := Q2R (to_bilinear_interpolation_weight [float_value w0; float_value w1] i)) in *.
          replace (a - Q2R (to_bilinear_interpolation_weight [v0; v1] i))%R
            with ((a - q1) + (q1 - Q2R (to_bilinear_interpolation_weight [v0; v1] i)))%R by ring.
          eapply Rle_trans; [apply Rabs_triang|]. lra.
      + pose proof (weights_sum [v0; v1]) as K. cbn [length] in K. rewrite Hdim. exact K.
      + lra.
      + rewrite N4. lra.
      + split; [exact R1|]. rewrite N4 in R2. cbn zeta in R2. eapply Rle_trans; [exact R2|]. lra.
    - destruct (plain_score prec emax Hf c D8 dsample p m HI Hu bi (map float_value p) Ha) as [A [_ C]].
      split; [exact A|]. rewrite N4 in C. cbn zeta in C. eapply Rle_trans; [exact C|]. lra. }
  destruct G as [G1 G2]. split; [exact G1|].
  apply (le_tol _ _ _ (56 * bpow radix2 (- prec))).
  - rewrite value_val. exact G2.
  - rewrite Q2R_mult, pow_bpow. unfold Q2R at 1. cbn [Qnum Qden]. lra.
Qed.
End Scores.

(** ** The statements of the properties *)
Section Statements.
Variables prec emax : Z.
Hypothesis Hf : standard_format prec emax.
Context {P : Type}.
Variable c : config P.
Hypothesis Hc : config_ok c.
Hypothesis Hdim : dimc c = 2%nat.
Hypothesis Hcw : kindc c = Dynamic -> aminc c = cw_min /\ amaxc c = cw_max.
Variable resolution sres : spec_float.
Hypothesis Hr : float_good_resolution prec emax resolution.
Hypothesis Hs : float_good_resolution prec emax sres.
Variable dsample : P -> list spec_float -> spec_float.
Variable allocate_all bilinear : bool.
Variable dv : spec_float.
Variable l : list (map_action (P:=P)).
Notation l' := (l ++ if allocate_all then [ExpandAll] else []).
Hypothesis Hl : fits c l'.
Notation bres := (float_resolution prec emax resolution).
Notation h := (float_value resolution * (1 # 2))%Q.
Notation s := (float_value sres).
Notation tiny := ((2 # 1) ^ (2 - emax - prec))%Q.

Lemma float_grid_inside :
  exists m0 m es, cact_all c l (new_map c) = Ok m0 /\ cact_all c l' (new_map c) = Ok m /\ cbundles c m = Ok es /\
    let count d := nth d (max_bi m) 0 - nth d (min_bi m) 0 + 1 in
    ((forall d, (d < 2)%nat -> fits_pixels prec (count d) h s /\ count d <= INT_MAX) ->
    exists cs g,
      float_to_grid prec emax c bres sres dsample allocate_all bilinear dv m0 = Ok (m, g) /\
      0 <= cs /\ (inject_Z cs * s <= h * (1 + (2 # 1) ^ (- prec)) + tiny * s)%Q /\
      (h * (1 - (2 # 1) ^ (- prec)) - tiny * s < (inject_Z cs + 1) * s)%Q /\
      (forall d, (d < 2)%nat -> let w := if Nat.eqb d 0 then fg_width g else fg_height g in
         (inject_Z (count d) * h * (1 - (2 # 1) ^ (3 - prec)) - tiny * s <= inject_Z w * s)%Q /\
         ((inject_Z w - 1) * s < inject_Z (count d) * h * (1 + (2 # 1) ^ (3 - prec)) + tiny * s)%Q) /\
      let pixel (bi : idx) (k n : Z) := ((nth 0 bi 0 - nth 0 (min_bi m) 0) * cs + k, (nth 1 bi 0 - nth 1 (min_bi m) 0) * cs + n) in
      let chunk (bi : idx) (k n : Z) := In bi (map fst es) /\ 0 <= k < cs /\ 0 <= n < cs in
      (forall bi k n, chunk bi k n ->
         0 <= fst (pixel bi k n) < fg_width g /\ 0 <= snd (pixel bi k n) < fg_height g) /\
      (forall bi k n bi' k' n', chunk bi k n -> chunk bi' k' n' -> pixel bi k n = pixel bi' k' n' ->
         bi = bi' /\ k = k' /\ n = n') /\
      (forall bi k n, bilinear = false -> chunk bi k n ->
         float_sample_at prec emax c dsample m
             [float_chunk_coordinate prec emax bres sres (nth 0 bi 0) k; float_chunk_coordinate prec emax bres sres (nth 1 bi 0) n] bi =
           Ok (fg_at g (fst (pixel bi k n)) (snd (pixel bi k n)))) /\
      (forall u v, (forall bi k n, chunk bi k n -> pixel bi k n <> (u, v)) -> fg_at g u v = dv)).
Proof.
  destruct (float_grid_chunks prec emax Hf c Hc Hdim Hcw resolution sres Hr Hs dsample allocate_all bilinear dv l Hl)
    as [m0 [m [es [E0 [E [Ees K]]]]]].
  exists m0, m, es. split; [exact E0|]. split; [exact E|]. split; [exact Ees|]. intros count Hfit.
  destruct (K Hfit) as [cs [g [Eg [C0 [C1 [C2 [Hw [Gnew Gold]]]]]]]].
  destruct (run_spec c Hc l' Hl) as [m' [E' [HI [HR _]]]]. assert (m' = m) by congruence. subst m'.
  destruct (cmap_bundles c Hc m HI HR) as [es' [Ees' [_ [Hin _]]]]. assert (es' = es) by congruence. subst es'.
  exists cs, g. split; [exact Eg|]. split; [apply C0|]. split; [exact C1|]. split; [exact C2|].
  split; [intros d Hd; apply (Hw d Hd)|]. intros pixel chunk. split; [|split; [|split]].
  - intros bi k n [A [B C]]. exact (proj1 (Gnew bi k n A B C)).
  - intros bi k n bi' k' n' [A [B C]] [A' [B' C']] Hq. injection Hq as P0 P1.
    destruct (pix_inj (min_bi m) 0 cs bi bi' k k' B B' P0) as [Q0 ->].
    destruct (pix_inj (min_bi m) 1 cs bi bi' n n' C C' P1) as [Q1 ->].
    assert (L : forall b, In b (map fst es) -> length b = 2%nat).
    { intros b Hb'. apply in_map_iff in Hb'. destruct Hb' as [[b1 b2] [<- Hb']]. apply Hin in Hb'. destruct Hb' as [[HL _] _]. cbn; congruence. }
    pose proof (L bi A) as L1. pose proof (L bi' A') as L2.
    destruct bi as [|x [|y [|]]]; try discriminate L1. destruct bi' as [|x' [|y' [|]]]; try discriminate L2.
    cbn in Q0, Q1. split; [congruence|split; reflexivity].
  - intros bi k n -> [A [B C]]. unfold pixel. cbn [fst snd].
    change ((nth 0 bi 0 - nth 0 (min_bi m) 0) * cs + k) with (pix (min_bi m) 0 cs bi k).
    change ((nth 1 bi 0 - nth 1 (min_bi m) 0) * cs + n) with (pix (min_bi m) 1 cs bi n).
    rewrite (proj2 (Gnew bi k n A B C)). apply in_map_iff in A. destruct A as [[bi' b] [Eq He]]. cbn in Eq. subst bi'.
    apply Hin in He. destruct He as [Hus Hget]. destruct (place_usable c bi Hus) as [Ha Hpl].
    rewrite (float_sample_at_spec prec emax c Hc dsample m _ bi HI HR Ha). unfold float_sampled, fpixel_value, fpixel_weights. rewrite Hpl, Hget. reflexivity.
  - intros u v H. apply Gold. intros bi k n A B C P0 P1. apply (H bi k n (conj A (conj B C))). unfold pixel. rewrite <- P0, <- P1. reflexivity.
Qed.

Lemma float_grid_scores :
  exists m0 m es, cact_all c l (new_map c) = Ok m0 /\ cact_all c l' (new_map c) = Ok m /\ cbundles c m = Ok es /\
    let count d := nth d (max_bi m) 0 - nth d (min_bi m) 0 + 1 in
    ((forall d, (d < 2)%nat -> fits_pixels prec (count d) h s /\ count d <= INT_MAX) ->
    exists cs g,
      float_to_grid prec emax c bres sres dsample allocate_all bilinear dv m0 = Ok (m, g) /\
      float_chunk_step prec emax bres sres = Ok cs /\
      forall bi k n, In bi (map fst es) -> 0 <= k < cs -> 0 <= n < cs ->
        let p := [float_chunk_coordinate prec emax bres sres (nth 0 bi 0) k; float_chunk_coordinate prec emax bres sres (nth 1 bi 0) n] in
        (forall i j v, cstored c m i j = Ok (Some v) -> unit_float prec emax (dsample v p)) ->
        let x := fg_at g ((nth 0 bi 0 - nth 0 (min_bi m) 0) * cs + k) ((nth 1 bi 0 - nth 1 (min_bi m) 0) * cs + n) in
        exists b t, cbundle c m bi = Ok (Some b) /\
          weighted_sum c (fun v _ => float_value (dsample v p)) m b
            (if bilinear then to_bilinear_interpolation_weight [share (nth 0 bi 0) k cs; share (nth 1 bi 0) n cs] else fun _ => (1 # 4)%Q)
            (map float_value p) = Ok t /\
          good_float prec emax x /\ (Qabs (float_value x - t) <= (56 # 1) * (2 # 1) ^ (- prec))%Q).
Proof.
  destruct (float_grid_chunks prec emax Hf c Hc Hdim Hcw resolution sres Hr Hs dsample allocate_all bilinear dv l Hl)
    as [m0 [m [es [E0 [E [Ees K]]]]]].
  exists m0, m, es. split; [exact E0|]. split; [exact E|]. split; [exact Ees|]. intros count Hfit.
  destruct (K Hfit) as [cs [g [Eg [C0 [C1 [C2 [Hw [Gnew Gold]]]]]]]].
  exists cs, g. split; [exact Eg|]. split; [apply (Hw 0%nat ltac:(lia))|].
  intros bi k n A B C p Hu x.
  change x with (fg_at g (pix (min_bi m) 0 cs bi k) (pix (min_bi m) 1 cs bi n)). rewrite (proj2 (Gnew bi k n A B C)).
  assert (D4 : div_count c = (1 # 4)%Q) by (unfold div_count; rewrite Hdim; reflexivity).
  pose proof (pixel_near prec emax Hf c Hc Hdim bres sres dsample bilinear l' Hl m E es Ees bi A cs k n (proj2 C0) B C Hu) as R.
  rewrite D4 in R. exact R.
Qed.

Lemma float_position (b k : Z) : Z.abs b <= 2 ^ 31 -> 0 <= k <= 2 ^ 31 ->
  (inject_Z (Z.abs b) * h <= (2 # 1) ^ 110)%Q -> (inject_Z k * s <= (2 # 1) ^ 110)%Q ->
  let x := float_chunk_coordinate prec emax bres sres b k in
  good_float prec emax x /\
  (Qabs (float_value x - (inject_Z b * h + inject_Z k * s)) <=
     (inject_Z (Z.abs b) * h + inject_Z k * s) * (2 # 1) ^ (2 - prec) + (2 # 1) ^ (2 - emax - prec))%Q.
Proof.
  intros Hb Hk B1 B2 x. destruct (resolutions prec emax Hf resolution sres Hr Hs) as [Gb [Gs [Rb [Rs Eh]]]].
  assert (Es : Q2R s = SF2R radix2 sres) by apply value_val.
  apply Qle_Rle in B1, B2. rewrite (Q2R_mult (inject_Z _)), Q2R_inject, abs_IZR, <- Eh, pow_bpow in B1. rewrite (Q2R_mult (inject_Z _)), Q2R_inject, Es, pow_bpow in B2.
  destruct (coordinate prec emax Hf bres sres Gb Gs Rb Rs b k Hb Hk B1 B2) as [A B]. split; [exact A|].
  eapply le_tol.
  - rewrite value_val, (Q2R_plus (inject_Z b * h)), (Q2R_mult (inject_Z b)), (Q2R_mult (inject_Z k)), !Q2R_inject, Es, <- Eh. exact B.
  - rewrite (Q2R_plus ((inject_Z (Z.abs b) * h + inject_Z k * s) * _)), (Q2R_mult (inject_Z (Z.abs b) * h + inject_Z k * s)), (Q2R_plus (inject_Z (Z.abs b) * h)), (Q2R_mult (inject_Z (Z.abs b))), (Q2R_mult (inject_Z k)), !Q2R_inject, abs_IZR, Es, <- Eh, !pow_bpow.
    change (2 - prec) with (2 + - prec). rewrite (bpow_plus radix2 2). change (bpow radix2 2) with 4%R. ring.
Qed.
End Statements.

(** ** A conversion that succeeds has written inside of the grid *)
Lemma ofold_each {A B : Type} (f : A -> B -> outcome A) (I : A -> Prop) (l : list B) :
  (forall a x a', I a -> f a x = Ok a' -> I a') ->
  forall a a', I a -> ofold f l a = Ok a' -> I a' /\ forall x, In x l -> exists a1 a2, I a1 /\ f a1 x = Ok a2.
Proof.
  intros Hf. induction l as [|y l IH]; intros a a' Ha E; cbn in E.
  - injection E as <-. split; [exact Ha|intros x []].
  - destruct (f a y) as [a1| |] eqn:E1; cbn in E; try discriminate E.
    destruct (IH a1 a' (Hf a y a1 Ha E1) E) as [H1 H2]. split; [exact H1|].
    intros x [<-|Hx]; [exists a, a1; split; assumption|exact (H2 x Hx)].
Qed.

Lemma float_to_grid_inside (prec emax : Z) {P : Type} (c : config P) (bres sres : spec_float) dsample allocate_all bilinear dv m0 m g :
  float_to_grid prec emax c bres sres dsample allocate_all bilinear dv m0 = Ok (m, g) ->
  (allocate_all = false -> m = m0) /\
  (let* w := float_extent prec emax c bres m 0 in float_pixels prec emax w sres) = Ok (fg_width g) /\
  forall cs es, float_chunk_step prec emax bres sres = Ok cs -> cbundles c m = Ok es ->
    forall bi k n, In bi (map fst es) -> 0 <= k < cs -> 0 <= n < cs -> pix (min_bi m) 0 cs bi k < fg_width g.
Proof.
  intros E. unfold float_to_grid in E.
  destruct (if allocate_all then cact c m0 ExpandAll else Ok m0) as [m1| |] eqn:Em; cbn [obind] in E; try discriminate E.
  destruct (float_extent prec emax c bres m1 1) as [h| |]; cbn [obind] in E; try discriminate E.
  destruct (float_pixels prec emax h sres) as [gh| |]; cbn [obind] in E; try discriminate E.
  destruct (float_extent prec emax c bres m1 0) as [w| |] eqn:Ew; cbn [obind] in E; try discriminate E.
  destruct (float_pixels prec emax w sres) as [gw| |] eqn:Egw; cbn [obind] in E; try discriminate E.
  destruct (float_chunk_step prec emax bres sres) as [cs| |]; cbn [obind] in E; try discriminate E.
  destruct (cbundles c m1) as [es| |] eqn:Ees; cbn [obind] in E; try discriminate E.
  destruct (ofold _ es _) as [g'| |] eqn:Eg in E; cbn [obind] in E; try discriminate E. injection E as -> ->.
  split; [intros ->; congruence|].
  set (I := fun g => fg_width g = gw).
  assert (Hset : forall g u v x g', I g -> float_grid_set g u v x = Ok g' -> I g' /\ u < gw).
  { unfold I, float_grid_set. intros g1 u v x g2 H1 H2. destruct (_ && _) eqn:Eb in H2; [|discriminate H2]. injection H2 as <-. cbn.
    rewrite !Bool.andb_true_iff, !Z.ltb_lt in Eb. lia. }
  assert (Hpix : forall bi b k g1 n g2, I g1 -> float_write_pixel prec emax c bres sres dsample bilinear m (min_bi m) cs bi b k g1 n = Ok g2 ->
            I g2 /\ pix (min_bi m) 0 cs bi k < gw).
  { intros bi b k g1 n g2 H1 H2. unfold float_write_pixel in H2.
    destruct (pixel_index (nth 0 bi 0) _ _ _) as [u| |] eqn:Eu; cbn [obind] in H2; try discriminate H2.
    destruct (pixel_index (nth 1 bi 0) _ _ _) as [v| |]; cbn [obind] in H2; try discriminate H2.
    match type of H2 with obind ?a _ = _ => destruct a as [x| |]; cbn [obind] in H2; try discriminate H2 end.
    destruct (Hset _ _ _ _ _ H1 H2) as [H3 H4]. split; [exact H3|].
    unfold pixel_index, to_int in Eu. fold (pix (min_bi m) 0 cs bi k).
    repeat match type of Eu with context [if ?b then _ else _] => destruct b eqn:?; cbn [obind] in Eu; try discriminate Eu end.
    injection Eu as Eu. fold (pix (min_bi m) 0 cs bi k) in *.
    destruct (Z.neg_nonneg_cases (pix (min_bi m) 0 cs bi k)) as [N|N].
    - pose proof (Z.mod_pos_bound (pix (min_bi m) 0 cs bi k) (2 ^ 64) ltac:(lia)). unfold pix in *. lia.
    - rewrite Z.mod_small in Eu; unfold pix in *; rewrite ?Bool.andb_true_iff, ?Z.leb_le in *; unfold INT_MAX in *; lia. }
  assert (Hrow : forall bi b g1 k g2, I g1 ->
            ofold (float_write_pixel prec emax c bres sres dsample bilinear m (min_bi m) cs bi b k) (int_range cs) g1 = Ok g2 ->
            I g2 /\ forall n, In n (int_range cs) -> pix (min_bi m) 0 cs bi k < gw).
  { intros bi b g1 k g2 H1 H2.
    destruct (ofold_each _ I _ (fun a x a' Ha Hx => proj1 (Hpix bi b k a x a' Ha Hx)) _ _ H1 H2) as [H3 H4].
    split; [exact H3|]. intros n Hn. destruct (H4 n Hn) as [a1 [a2 [H5 H6]]]. exact (proj2 (Hpix _ _ _ _ _ _ H5 H6)). }
  assert (Hbun : forall g1 e g2, I g1 -> float_write_bundle prec emax c bres sres dsample bilinear m (min_bi m) cs g1 e = Ok g2 ->
            I g2 /\ forall k n, In k (int_range cs) -> In n (int_range cs) -> pix (min_bi m) 0 cs (fst e) k < gw).
  { intros g1 e g2 H1 H2. unfold float_write_bundle in H2.
    destruct (ofold_each _ I _ (fun a x a' Ha Hx => proj1 (Hrow (fst e) (snd e) a x a' Ha Hx)) _ _ H1 H2) as [H3 H4].
    split; [exact H3|]. intros k n Hk Hn. destruct (H4 k Hk) as [a1 [a2 [H5 H6]]]. exact (proj2 (Hrow _ _ _ _ _ H5 H6) n Hn). }
  match type of Eg with ofold _ _ ?g0 = _ => assert (I0 : I g0) by reflexivity end.
  destruct (ofold_each _ I _ (fun a x a' Ha Hx => proj1 (Hbun a x a' Ha Hx)) _ _ I0 Eg) as [H3 H4].
  unfold I in H3. split; [rewrite Ew; cbn [obind]; congruence|].
  intros cs' es' Ecs' Ees' bi k n Hb Hk Hn. injection Ecs' as <-. rewrite Ees in Ees'. injection Ees' as <-.
  apply in_map_iff in Hb. destruct Hb as [e [<- He]]. destruct (H4 e He) as [a1 [a2 [H5 H6]]]. rewrite H3.
  apply (proj2 (Hbun _ _ _ H5 H6) k n); apply int_range_in; assumption.
Qed.

(** Distance maps from rounded scores. *)
From Coq Require Import QArith Qabs Qreals Reals Lra Classical Floats.SpecFloat.
From Verif Require Import Base SeqModel IndexModel OctreeSpec MapModel BackendModel SysModel SysSpec ExtentModel SampleModel SampleSpec
  RoundModel RoundFacts FloatModel FloatFacts FloatScoreFacts FloatBoundFacts FloatIndexFacts GridModel GridFacts GridFloatModel GridFloatSpec GridFloatFacts GridFloatMap
  MonoFloatMap LikelihoodModel LikelihoodSpec LikelihoodFacts DistFloatModel DistFloatSpec.
Open Scope Z_scope.

(** A transform of exact grids applied to the values. *)
Definition lift_transform (t : Q -> Q -> Q -> grid -> Z -> Z -> R) (sres far threshold : spec_float) (g : float_grid) : Z -> Z -> R :=
  t (float_value sres) (float_value far) (float_value threshold)
    {| g_width := fg_width g; g_height := fg_height g; g_at := fun u v => float_value (fg_at g u v) |}.
Lemma lift_transforms (prec emax : Z) (t : Q -> Q -> Q -> grid -> Z -> Z -> R) : transforms t -> float_transforms prec emax (lift_transform t).
Proof. intros H sres far threshold g u v Hs Hf _ Hi. exact (H _ _ _ {| g_width := fg_width g; g_height := fg_height g; g_at := fun u v => float_value (fg_at g u v) |} u v Hs Hf Hi). Qed.

Section Map.
Variables prec emax : Z.
Hypothesis Hf : standard_format prec emax.
Context {P : Type}.
Variable c : config P.
Hypothesis Hc : config_ok c.
Hypothesis Hdim : dimc c = 2%nat.
Hypothesis Hcw : kindc c = Dynamic -> aminc c = cw_min /\ amaxc c = cw_max.
Variable resolution sres : spec_float.
Hypothesis Hr : float_good_resolution prec emax resolution.
Hypothesis Hs : float_good_resolution prec emax sres.
Variable dsample : P -> list spec_float -> spec_float.
Hypothesis Hu : forall v p, unit_float prec emax (dsample v p).
Variable transform : spec_float -> spec_float -> spec_float -> float_grid -> Z -> Z -> R.
Hypothesis Ht : float_transforms prec emax transform.
Variable far threshold : spec_float.
Hypothesis Hfar : (0 < float_value far)%Q.
Hypothesis Hth : (0 < float_value threshold)%Q.
Variable allocate_all bilinear : bool.
Variable l : list (map_action (P:=P)).
Notation l' := (l ++ (if allocate_all then [ExpandAll] else [])).
Hypothesis Hl : fits c l'.
Notation bres := (float_resolution prec emax resolution).
Notation s := (float_value sres).
Notation tol := ((56 # 1) * (2 # 1) ^ (- prec))%Q.

Lemma float_distances :
  exists m0 m es, cact_all c l (new_map c) = Ok m0 /\ cact_all c l' (new_map c) = Ok m /\ cbundles c m = Ok es /\
    let count d := nth d (max_bi m) 0 - nth d (min_bi m) 0 + 1 in
    ((forall d, (d < 2)%nat -> fits_pixels prec (count d) (float_value resolution * (1 # 2)) s /\ count d <= INT_MAX) ->
    exists cs g D, float_chunk_step prec emax bres sres = Ok cs /\
      float_to_grid prec emax c bres sres dsample allocate_all bilinear float_zero m0 = Ok (m, g) /\
      f_width D = fg_width g /\ f_height D = fg_height g /\
      float_to_distances prec emax c bres sres dsample transform far threshold allocate_all bilinear m0 = Ok (m, D) /\
      let score (u v : Z) (t : Q) := exists bi k n b, In bi (map fst es) /\ 0 <= k < cs /\ 0 <= n < cs /\
        u = (nth 0 bi 0 - nth 0 (min_bi m) 0) * cs + k /\ v = (nth 1 bi 0 - nth 1 (min_bi m) 0) * cs + n /\
        cbundle c m bi = Ok (Some b) /\
        let p := [float_chunk_coordinate prec emax bres sres (nth 0 bi 0) k; float_chunk_coordinate prec emax bres sres (nth 1 bi 0) n] in
        weighted_sum c (fun v _ => float_value (dsample v p)) m b
          (if bilinear then to_bilinear_interpolation_weight [share (nth 0 bi 0) k cs; share (nth 1 bi 0) n cs] else fun _ => (1 # 4)%Q)
          (map float_value p) = Ok t in
      (forall u v t, score u v t -> inside (f_width D) (f_height D) u v) /\
      forall u v, inside (f_width D) (f_height D) u v ->
        nearest_between s (Q2R (float_value far))
          (fun a b => exists t, score a b t /\ (float_value threshold + tol <= t)%Q)
          (fun a b => exists t, score a b t /\ (float_value threshold - tol <= t)%Q) u v (f_at D u v)).
Proof.
  destruct (float_grid_chunks prec emax Hf c Hc Hdim Hcw resolution sres Hr Hs dsample allocate_all bilinear float_zero l Hl)
    as [m0 [m [es [E0 [E [Ees K]]]]]].
  destruct (float_grid_scores prec emax Hf c Hc Hdim Hcw resolution sres Hr Hs dsample allocate_all bilinear float_zero l Hl)
    as [m0' [m' [es' [E0' [E' [Ees' K']]]]]].
  assert (m0' = m0) by congruence. assert (m' = m) by congruence. subst m0' m'. assert (es' = es) by congruence. subst es'.
  exists m0, m, es. split; [exact E0|]. split; [exact E|]. split; [exact Ees|]. intros count Hfit.
  destruct (K Hfit) as [cs [g [Eg [_ [_ [_ [Hw [Gnew Gold]]]]]]]]. destruct (K' Hfit) as [cs' [g' [Eg' [Ecs' S]]]].
  assert (Ecs : float_chunk_step prec emax bres sres = Ok cs) by apply (Hw 0%nat ltac:(lia)).
  assert (cs' = cs) by congruence. assert (g' = g) by congruence. subst cs' g'. clear K K' Eg' Ecs' E0' E' Ees'.
  exists cs, g, {| f_width := fg_width g; f_height := fg_height g; f_at := transform sres far threshold g |}. split; [exact Ecs|]. split; [exact Eg|].
  split; [reflexivity|]. split; [reflexivity|].
  split; [unfold float_to_distances; rewrite Eg; reflexivity|]. intros score. cbn [f_width f_height f_at].
  assert (Ps : (0 < s)%Q) by apply (res_bounds prec emax sres Hs).
  assert (Sc : forall u v t, score u v t -> inside (fg_width g) (fg_height g) u v /\ good_float prec emax (fg_at g u v) /\
                 (Qabs (float_value (fg_at g u v) - t) <= tol)%Q).
  { intros u v t [bi [k [n [b [A [B [C [Eu [Ev [Eb Ew]]]]]]]]]].
    destruct (S bi k n A B C (fun _ _ v _ => Hu v _)) as [b' [t' [Eb' [Ew' [G R]]]]]. rewrite Eb in Eb'. injection Eb' as <-.
    assert (t' = t) by (cbn zeta in Ew; rewrite Ew in Ew'; injection Ew' as ->; reflexivity). subst t'. rewrite <- Eu, <- Ev in G, R.
    split; [|split; [exact G|exact R]]. destruct (Gnew bi k n A B C) as [I _]. unfold pix in I. rewrite <- Eu, <- Ev in I. exact I. }
  assert (Un : forall u v, (exists t, score u v t) \/ fg_at g u v = float_zero).
  { intros u v. destruct (classic (exists t, score u v t)) as [X|X]; [left; exact X|right]. apply Gold. intros bi k n A B C Eu Ev. unfold pix in Eu, Ev. apply X.
    destruct (S bi k n A B C (fun _ _ v _ => Hu v _)) as [b' [t' [Eb' [Ew' _]]]]. exists t', bi, k, n, b'. repeat split; auto; lia. }
  split; [intros u v t H; apply (Sc u v t H)|].
  intros u v Hi. assert (N := Ht sres far threshold g u v Ps Hfar).
  assert (Gd : forall a b, inside (fg_width g) (fg_height g) a b -> good_float prec emax (fg_at g a b)).
  { intros a b _. destruct (Un a b) as [[t X]| ->]; [apply (Sc a b t X)|split; reflexivity]. }
  specialize (N Gd Hi). assert (F0 : (0 < Q2R (float_value far))%R) by (apply Qlt_Rlt in Hfar; rewrite RMicromega.Q2R_0 in Hfar; exact Hfar).
  destruct (nearest_bounds _ _ _ _ _ _ Ps F0 N) as [B _]. destruct N as [_ [N2 N3]]. split; [exact B|]. split.
  - intros a b [t [X T]]. apply N2. destruct (Sc a b t X) as [I [_ R]]. split; [exact I|].
    apply Qabs_Qle_condition in R. destruct R as [R _]. apply Qle_Rle in R, T. apply Rle_Qle. revert R T. rewrite Q2R_opp, Q2R_minus, Q2R_plus. lra.
  - destruct N3 as [N3|[a [b [[I T] N3]]]]; [left; exact N3|right]. exists a, b. split; [|exact N3].
    destruct (Un a b) as [[t X]|Z0].
    + exists t. split; [exact X|]. destruct (Sc a b t X) as [_ [_ R]]. apply Qabs_Qle_condition in R. destruct R as [_ R].
      apply Qle_Rle in R, T. apply Rle_Qle. revert R T. rewrite !Q2R_minus. lra.
    + exfalso. rewrite Z0 in T. change (float_value float_zero) with 0%Q in T. exact (Qlt_not_le _ _ Hth T).
Qed.
End Map.

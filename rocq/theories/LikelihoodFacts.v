(** Proofs about likelihood fields. *)
From Coq Require Import QArith Qreals Reals Lra Psatz.
From Verif Require Import Base SeqModel IndexModel OctreeSpec MapModel BackendModel SysModel SysSpec ExtentModel SampleModel SampleSpec
  GridModel GridFacts LikelihoodModel LikelihoodSpec.
Open Scope R_scope.

Lemma distance_nonneg (sres : Q) (u v u' v' : Z) : (0 < sres)%Q -> 0 <= pixel_distance sres u v u' v'.
Proof.
  intros H. unfold pixel_distance. apply Rmult_le_pos; [|apply sqrt_pos].
  apply Qlt_Rlt in H. rewrite RMicromega.Q2R_0 in H. lra.
Qed.
Lemma distance_zero (sres : Q) (u v u' v' : Z) : (0 < sres)%Q -> (pixel_distance sres u v u' v' = 0 <-> u' = u /\ v' = v).
Proof.
  intros H. apply Qlt_Rlt in H. rewrite RMicromega.Q2R_0 in H. unfold pixel_distance. split.
  - intros E. apply Rmult_integral in E. destruct E as [E|E]; [lra|].
    pose proof (Rle_0_sqr (IZR u - IZR u')) as A. pose proof (Rle_0_sqr (IZR v - IZR v')) as B. unfold Rsqr in A, B.
    apply sqrt_eq_0 in E; [|lra].
    assert (A' : (IZR u - IZR u') * (IZR u - IZR u') = 0) by lra. assert (B' : (IZR v - IZR v') * (IZR v - IZR v') = 0) by lra.
    apply Rmult_integral in A', B'. split; apply eq_IZR; lra.
  - intros [-> ->]. replace ((IZR u - IZR u) * (IZR u - IZR u) + (IZR v - IZR v) * (IZR v - IZR v)) with 0 by ring.
    rewrite sqrt_0. ring.
Qed.

Lemma nearest_bounds (sres : Q) (far : R) (hit : Z -> Z -> Prop) (u v : Z) (d : R) :
  (0 < sres)%Q -> 0 < far -> nearest sres far hit u v d -> 0 <= d <= far /\ (d = 0 <-> hit u v).
Proof.
  intros Hs Hf [H1 [H2 H3]]. assert (H0 : 0 <= d).
  { destruct H3 as [->|[u' [v' [_ ->]]]]; [lra|apply distance_nonneg, Hs]. }
  split; [lra|]. split.
  - intros E. destruct H3 as [E'|[u' [v' [Hh E']]]]; [lra|]. rewrite E in E'. symmetry in E'.
    apply (distance_zero sres u v u' v' Hs) in E'. destruct E' as [<- <-]. exact Hh.
  - intros Hh. specialize (H2 u v Hh).
    assert (E : pixel_distance sres u v u v = 0) by (apply (distance_zero sres u v u v Hs); auto). lra.
Qed.

Lemma nearest_ext (sres : Q) (far : R) (hit hit' : Z -> Z -> Prop) (u v : Z) (d : R) :
  (forall a b, hit a b <-> hit' a b) -> nearest sres far hit u v d -> nearest sres far hit' u v d.
Proof.
  intros HE [H1 [H2 H3]]. split; [exact H1|]. split; [intros a b Hh; apply H2, HE, Hh|].
  destruct H3 as [->|[a [b [Hh ->]]]]; [left; reflexivity|right; exists a, b; split; [apply HE, Hh|reflexivity]].
Qed.

Lemma likelihood_value (sigma z : R) : 0 < sigma -> likelihood sigma z = exp (- (z * z / (2 * (sigma * sigma)))).
Proof. intros H. unfold likelihood, exp_factor_hit. f_equal. field. lra. Qed.
Lemma likelihood_order (sigma z z' : R) : 0 < sigma -> 0 <= z -> 0 <= z' -> (z <= z' <-> likelihood sigma z' <= likelihood sigma z).
Proof.
  intros H Hz Hz'. rewrite !likelihood_value by exact H.
  assert (K : 0 < / (2 * (sigma * sigma))) by (apply Rinv_0_lt_compat; nra).
  unfold Rdiv. set (k := / (2 * (sigma * sigma))) in *. split.
  - intros L. assert (z * z * k <= z' * z' * k) by (apply Rmult_le_compat_r; nra).
    destruct (Req_dec (z * z * k) (z' * z' * k)) as [->|]; [lra|]. left. apply exp_increasing. lra.
  - intros L. destruct (Rle_lt_dec z z') as [|G]; [assumption|exfalso].
    assert (z' * z' * k < z * z * k) by (apply Rmult_lt_compat_r; nra).
    assert (exp (- (z * z * k)) < exp (- (z' * z' * k))) by (apply exp_increasing; lra). lra.
Qed.
Lemma likelihood_zero (sigma : R) : likelihood sigma 0 = 1.
Proof. unfold likelihood. replace (- 0 * 0 * exp_factor_hit sigma) with 0 by ring. apply exp_0. Qed.
Lemma likelihood_pos (sigma z : R) : 0 < likelihood sigma z.
Proof. apply exp_pos. Qed.
Lemma likelihood_one (sigma z : R) : 0 < sigma -> 0 <= z -> likelihood sigma z <= 1 /\ (likelihood sigma z = 1 <-> z = 0).
Proof.
  intros H Hz. rewrite <- (likelihood_zero sigma). split; [apply likelihood_order; lra|]. split; [|intros ->; reflexivity].
  intros E. assert (z <= 0) by (apply (likelihood_order sigma z 0); lra). lra.
Qed.

Section Field.
Context {P : Type}.
Variable c : config P.
Hypothesis Hc : config_ok c.
Hypothesis Hdim : dimc c = 2%nat.
Hypothesis Hcw : kindc c = Dynamic -> aminc c = cw_min /\ amaxc c = cw_max.
Variable bres sres : Q.
Hypothesis Hb : (0 < bres)%Q.
Hypothesis Hs : (0 < sres)%Q.
Variable dsample : P -> list Q -> Q.
Hypothesis Hp : forall v p q, Forall2 Qeq p q -> (dsample v p == dsample v q)%Q.
Variable n : Z.
Hypothesis Hn : (0 < n)%Z.
Hypothesis Hdiv : (bres == inject_Z n * sres)%Q.
Variable transform : Q -> Q -> Q -> grid -> Z -> Z -> R.
Hypothesis Ht : transforms transform.
Variables (allocate_all bilinear : bool).
Variable l : list (map_action (P:=P)).
Let l' := l ++ (if allocate_all then [ExpandAll] else []).
Hypothesis Hf : fits c l'.
Variables far threshold : Q.
Hypothesis Hfar : (0 < far)%Q.

(** The score of the map at the position of a pixel reaches the threshold. *)
Let reaches (m : cmap c) (u v : Z) : Prop :=
  let p := [nth 0 (getMin c bres m) 0 + inject_Z u * sres; nth 1 (getMin c bres m) 0 + inject_Z v * sres]%Q in
  exists s, (if bilinear then sampleNonNormalizedBilinear c (/ bres) dsample m p
             else sampleNonNormalized c (/ bres) dsample m p) = Ok s /\ (threshold <= s)%Q.

Lemma grid_distances :
  exists m0 m, cact_all c l (new_map c) = Ok m0 /\ cact_all c l' (new_map c) = Ok m /\
    forall w0 w1, getExtent c bres m 0 = Ok w0 -> getExtent c bres m 1 = Ok w1 ->
    (0 <= w0 /\ w0 <= inject_Z INT_MAX * sres)%Q -> (0 <= w1 /\ w1 <= inject_Z INT_MAX * sres)%Q ->
    (bres <= inject_Z INT_MAX * sres)%Q ->
    (forall d, (d < 2)%nat -> (INT_MIN <= nth d (min_bi m) 0 /\ nth d (max_bi m) 0 <= INT_MAX)%Z) ->
    exists g, to_grid c bres sres dsample allocate_all bilinear 0 m0 = Ok (m, g) /\
      (inject_Z (g_width g) * sres == w0)%Q /\ (inject_Z (g_height g) * sres == w1)%Q /\
      forall u v, inside (g_width g) (g_height g) u v ->
        nearest sres (Q2R far) (fun a b => inside (g_width g) (g_height g) a b /\ reaches m a b) u v
          (transform sres far threshold g u v).
Proof.
  destruct (grid_scores c Hc Hdim Hcw bres sres Hb Hs dsample allocate_all bilinear 0%Q l Hf n Hp Hn Hdiv)
    as [m0 [m [es [E0 [E [Ees H]]]]]].
  exists m0, m. split; [exact E0|]. split; [exact E|]. intros w0 w1 X0 X1 W0 W1 Hint Hmm.
  destruct (H w0 w1 X0 X1 W0 W1 Hint Hmm) as [g [Eg [Gw [Gh Hg]]]].
  exists g. split; [exact Eg|]. split; [exact Gw|]. split; [exact Gh|].
  intros u v Hi. refine (nearest_ext _ _ _ _ _ _ _ _ (Ht sres far threshold g u v Hs Hfar Hi)).
  intros a b. split; intros [Hab Hr]; (split; [exact Hab|]); destruct Hab as [Ha Hb'];
    destruct (Hg a b Ha Hb') as [bi [s [Ebi [Es [Hin Hout]]]]].
  - exists s. split; [exact Es|]. destruct (in_dec (list_eq_dec Z.eq_dec) bi (map fst es)) as [Y|N].
    + rewrite <- (Hin Y). exact Hr.
    + destruct (Hout N) as [-> Eg']. rewrite Eg' in Hr. exact Hr.
  - destruct Hr as [s' [Es' Hr]]. rewrite Es in Es'. injection Es' as <-.
    destruct (in_dec (list_eq_dec Z.eq_dec) bi (map fst es)) as [Y|N].
    + rewrite (Hin Y). exact Hr.
    + destruct (Hout N) as [E1 Eg']. rewrite Eg'. rewrite E1 in Hr. exact Hr.
Qed.

End Field.

(** Without [allocate_all] the map is not changed. *)
Lemma grid_same_map {P : Type} (c : config P) (bres sres : Q) (dsample : P -> list Q -> Q) (bilinear : bool) (dv : Q) (m m' : cmap c) (g : grid) :
  to_grid c bres sres dsample false bilinear dv m = Ok (m', g) -> m' = m.
Proof.
  unfold to_grid. cbn [obind]. intros H.
  repeat match type of H with obind ?e _ = _ => destruct e; cbn [obind] in H; try discriminate H end.
  congruence.
Qed.

(** ** A distance transform *)
Definition pixels (g : grid) : list (Z * Z) := list_prod (int_range (g_width g)) (int_range (g_height g)).
Lemma in_pixels (g : grid) (u v : Z) : In (u, v) (pixels g) <-> inside (g_width g) (g_height g) u v.
Proof.
  unfold pixels, inside. rewrite in_prod_iff. unfold int_range. rewrite !in_map_iff. split.
  - intros [[a [<- Ha]] [b [<- Hb]]]. apply in_seq in Ha, Hb. lia.
  - intros [H1 H2]. split; [exists (Z.to_nat u)|exists (Z.to_nat v)]; (split; [lia|apply in_seq; lia]).
Qed.
(** The smallest distance to a pixel that reaches the threshold, by looking at all of them. *)
Definition brute_transform (sres far threshold : Q) (g : grid) (u v : Z) : R :=
  fold_right (fun p d => if Qle_bool threshold (g_at g (fst p) (snd p)) then Rmin (pixel_distance sres u v (fst p) (snd p)) d else d)
    (Q2R far) (pixels g).
Lemma brute_transforms : transforms brute_transform.
Proof.
  intros sres far threshold g u v Hs Hf Hi. unfold brute_transform.
  set (hit := fun u' v' => inside (g_width g) (g_height g) u' v' /\ (threshold <= g_at g u' v')%Q).
  assert (H : forall l, incl l (pixels g) ->
    let d := fold_right (fun p d => if Qle_bool threshold (g_at g (fst p) (snd p)) then Rmin (pixel_distance sres u v (fst p) (snd p)) d else d) (Q2R far) l in
    d <= Q2R far /\ (forall a b, In (a, b) l -> (threshold <= g_at g a b)%Q -> d <= pixel_distance sres u v a b) /\
    (d = Q2R far \/ exists a b, hit a b /\ d = pixel_distance sres u v a b)).
  { induction l as [|[a b] l IH]; intros Hl; cbn.
    - split; [lra|]. split; [intros ? ? []|left; reflexivity].
    - destruct (IH (fun x Hx => Hl x (or_intror Hx))) as [H1 [H2 H3]]. clear IH.
      destruct (Qle_bool threshold (g_at g a b)) eqn:E.
      + apply Qle_bool_iff in E. pose proof (Rmin_l (pixel_distance sres u v a b)
          (fold_right (fun p d => if Qle_bool threshold (g_at g (fst p) (snd p)) then Rmin (pixel_distance sres u v (fst p) (snd p)) d else d) (Q2R far) l)) as M1.
        match type of M1 with Rmin ?x ?y <= _ => pose proof (Rmin_r x y) as M2; pose proof (Rmin_case_strong x y (fun z => z = x \/ z = y)) as M3 end.
        split; [eapply Rle_trans; [exact M2|exact H1]|]. split.
        * intros a' b' [X|X] T; [injection X as <- <-; exact M1|]. eapply Rle_trans; [exact M2|]. apply H2; assumption.
        * destruct M3 as [M3|M3]; [intros; left; reflexivity|intros; right; reflexivity| |].
          -- right. exists a, b. split; [|exact M3]. split; [|exact E]. apply in_pixels, Hl. left. reflexivity.
          -- rewrite M3. exact H3.
      + split; [exact H1|]. split; [|exact H3]. intros a' b' [X|X] T; [|apply H2; assumption].
        injection X as <- <-. exfalso. assert (Qle_bool threshold (g_at g a b) = true) by (apply Qle_bool_iff, T). congruence. }
  destruct (H (pixels g) (incl_refl _)) as [H1 [H2 H3]]. split; [exact H1|]. split; [|exact H3].
  intros a b [Hab T]. apply H2; [|exact T]. apply in_pixels, Hab.
Qed.

(** ** Doubles *)
From Coq Require Import Floats.SpecFloat.
From Flocq Require Import Core BinarySingleNaN.
From Verif Require Import ResidualModel RoundModel RoundFacts.
Open Scope R_scope.
Lemma factor_finite (sigma : double) : valid_binary 53 1024 sigma = true -> float_finite sigma = true ->
  bpow radix2 (-500) <= Rabs (SF2R radix2 sigma) <= bpow radix2 500 -> float_finite (double_factor sigma) = true.
Proof.
  intros V F [L U].
  pose proof (Rabs_pos (SF2R radix2 sigma)) as P0.
  assert (S1 : Rabs (SF2R radix2 sigma * SF2R radix2 sigma) <= bpow radix2 1000).
  { rewrite Rabs_mult. change 1000%Z with (500 + 500)%Z. rewrite bpow_plus. apply Rmult_le_compat; assumption. }
  assert (S2 : bpow radix2 (-1000) <= Rabs (SF2R radix2 sigma * SF2R radix2 sigma)).
  { rewrite Rabs_mult. change (-1000)%Z with (-500 + -500)%Z. rewrite bpow_plus.
    apply Rmult_le_compat; try assumption; apply bpow_ge_0. }
  assert (E : forall x, bpow radix2 (-1000) <= Rabs x -> Rabs x <= bpow radix2 1001 ->
     bpow radix2 (-1001) <= Rabs (round radix2 (FLT_exp (-1074) 53) ZnearestE x) <= bpow radix2 1002).
  { intros x A B. assert (R : Rabs (round radix2 (FLT_exp (-1074) 53) ZnearestE x - x) <= bpow radix2 (-53) * Rabs x).
    { apply rnd_relative. eapply Rle_trans; [|exact A]. apply bpow_le. lia. }
    set (y := round radix2 (FLT_exp (-1074) 53) ZnearestE x) in *.
    assert (K : bpow radix2 (-53) <= / 2) by (change (/ 2) with (bpow radix2 (-1)); apply bpow_le; lia).
    assert (D : Rabs (y - x) <= / 2 * Rabs x).
    { eapply Rle_trans; [exact R|]. apply Rmult_le_compat_r; [apply Rabs_pos|exact K]. }
    assert (T1 : Rabs y <= Rabs x + Rabs (y - x)) by (replace y with (x + (y - x)) at 1 by ring; apply Rabs_triang).
    assert (T2 : Rabs x <= Rabs y + Rabs (y - x)).
    { replace x with (y + - (y - x)) at 1 by ring. eapply Rle_trans; [apply Rabs_triang|]. rewrite Rabs_Ropp. lra. }
    assert (B1 : bpow radix2 (-1000) = 2 * bpow radix2 (-1001)) by (change (-1000)%Z with (1 + -1001)%Z; rewrite bpow_plus; reflexivity).
    assert (B2 : bpow radix2 1002 = 2 * bpow radix2 1001) by (change 1002%Z with (1 + 1001)%Z; rewrite bpow_plus; reflexivity).
    pose proof (bpow_gt_0 radix2 1001). split; lra. }
  destruct (E _ S2) as [G1 G2]; [eapply Rle_trans; [exact S1|apply bpow_le; lia]|].
  destruct (mul_round sigma sigma V V F F) as [M1 [M2 M3]].
  { eapply Rle_lt_trans; [exact G2|]. apply bpow_lt. lia. }
  unfold double_factor. rewrite <- M1 in G1, G2.
  set (q := double_mul sigma sigma) in *.
  assert (Q0 : SF2R radix2 q <> 0).
  { intros Z0. rewrite Z0, Rabs_R0 in G1. pose proof (bpow_gt_0 radix2 (-1001)). lra. }
  apply div_round; try assumption; try reflexivity.
  assert (HV : SF2R radix2 double_half = / 2) by (cbv; lra).
  assert (I1 : Rabs (SF2R radix2 double_half / SF2R radix2 q) <= bpow radix2 1000).
  { unfold Rdiv. rewrite Rabs_mult, HV, (Rabs_right (/ 2)) by lra. rewrite Rabs_inv.
    assert (I : / Rabs (SF2R radix2 q) <= / bpow radix2 (-1001)) by (apply Rinv_le; [apply bpow_gt_0|exact G1]).
    rewrite <- bpow_opp in I. change (- -1001)%Z with 1001%Z in I.
    change 1001%Z with (1 + 1000)%Z in I. rewrite bpow_plus in I. change (bpow radix2 1) with 2 in I. lra. }
  destruct (Rle_or_lt (bpow radix2 (-1000)) (Rabs (SF2R radix2 double_half / SF2R radix2 q))) as [W|W].
  - destruct (E _ W) as [_ W2]; [eapply Rle_trans; [exact I1|apply bpow_le; lia]|].
    eapply Rle_lt_trans; [exact W2|]. apply bpow_lt. lia.
  - pose proof (rnd_error (SF2R radix2 double_half / SF2R radix2 q)) as R.
    set (x := SF2R radix2 double_half / SF2R radix2 q) in *. set (y := round radix2 (FLT_exp (-1074) 53) ZnearestE x) in *.
    assert (T1 : Rabs y <= Rabs x + Rabs (y - x)) by (replace y with (x + (y - x)) at 1 by ring; apply Rabs_triang).
    assert (B0 : bpow radix2 (-53) <= 1) by (change 1 with (bpow radix2 0); apply bpow_le; lia).
    assert (B1 : bpow radix2 (-1075) <= bpow radix2 0) by (apply bpow_le; lia).
    assert (B2 : bpow radix2 (-1000) <= bpow radix2 0) by (apply bpow_le; lia).
    assert (B3 : 4 < bpow radix2 1024) by (change 4 with (bpow radix2 2); apply bpow_lt; lia). change (bpow radix2 0) with 1 in *.
    pose proof (Rabs_pos x). assert (bpow radix2 (-53) * Rabs x <= 1 * Rabs x) by (apply Rmult_le_compat_r; lra).
    lra.
Qed.
Lemma exponent_zero (sigma : double) (s : bool) : float_finite (double_factor sigma) = true ->
  exists s', double_exponent sigma (S754_zero s) = S754_zero s'.
Proof.
  intros F. unfold double_exponent. destruct (double_factor sigma) as [t|t| |t m e]; try discriminate; destruct s; eexists; reflexivity.
Qed.
Lemma good_factor (sigma : double) : good_double sigma -> ((2 # 1) ^ (-500) <= float_value sigma <= (2 # 1) ^ 500)%Q ->
  float_finite (double_factor sigma) = true.
Proof.
  intros [V F] [L U]. apply Qle_Rle in L, U. rewrite pow_bpow, value_val in L, U. apply factor_finite; [exact V|exact F|].
  rewrite Rabs_right; [split; assumption|]. pose proof (bpow_gt_0 radix2 (-500)). lra.
Qed.

(** Rounding errors of the motion of the scan. *)
From Coq Require Import Reals Lra Lia List Floats.SpecFloat.
From Flocq Require Import Core BinarySingleNaN.
From Verif Require Import Base ResidualModel MatchModel MatchSpec MatchFacts RoundModel FloatModel RoundFacts FloatFacts ObjFloatModel ObjFloatSpec ObjFloatFacts
  HypotFloatFacts RigidSpec RigidFacts StepFloatModel StepFloatSpec StepFloatFacts MoveFloatModel MoveFloatSpec.
Import ListNotations.
Open Scope R_scope.

#[local] Instance p53 : Prec_gt_0 53. Proof. reflexivity. Qed.
#[local] Instance p1024 : Prec_lt_emax 53 1024. Proof. reflexivity. Qed.

(** ** The rotation of one point *)
Section Motion.
(** A bound of all coordinates. *)
Variable S : R.
Hypothesis Sl : bpow radix2 (-1000) <= S.
Hypothesis Su : S <= bpow radix2 102.

Lemma s_pos : 0 < S. Proof. pose proof (bpow_gt_0 radix2 (-1000)). lra. Qed.
Lemma us : 0 <= u * S <= / 1024 * S.
Proof. pose proof s_pos. pose proof u_pos. pose proof u_small. split; [apply Rmult_le_pos; lra|apply Rmult_le_compat_r; lra]. Qed.
Lemma eta_s : 0 <= 1024 * eta <= u * S.
Proof.
  pose proof eta_pos. pose proof u_pos. split; [lra|]. apply Rle_trans with (u * bpow radix2 (-1000)); [|apply Rmult_le_compat_l; lra].
  change 1024 with (bpow radix2 10). rewrite <- !bpow_plus. apply bpow_le. lia.
Qed.
Lemma s_big (x : R) : x <= 100 * S -> x <= big.
Proof.
  intros X. eapply Rle_trans; [exact X|]. apply Rle_trans with (bpow radix2 109); [|apply big_ge; lia].
  replace (bpow radix2 109) with (128 * bpow radix2 102) by (change 128 with (bpow radix2 7); rewrite <- bpow_plus; reflexivity).
  pose proof s_pos. lra.
Qed.

(** [k]: bound of the value, [e]: bound of the error, in units of [S]. *)
Definition scaled (x : double) (v k e : R) : Prop := near x v (e * (u * S)) /\ Rabs v <= k * S.
Lemma scaled_exact (x : double) : good x -> Rabs (real x) <= S -> scaled x (real x) 1 0.
Proof. intros G H. split; [rewrite Rmult_0_l; apply near_exact; exact G|lra]. Qed.
Lemma scaled_weaken (x : double) (v k e k' e' : R) : scaled x v k e -> k <= k' -> e <= e' -> scaled x v k' e'.
Proof.
  intros [N B] K E. pose proof us. pose proof s_pos. split.
  - eapply near_weaken; [exact N|]. apply Rmult_le_compat_r; lra.
  - eapply Rle_trans; [exact B|]. apply Rmult_le_compat_r; lra.
Qed.
Lemma scaled_add (x y : double) (a b ka kb ea eb : R) : scaled x a ka ea -> scaled y b kb eb -> 0 <= ka -> 0 <= kb -> 0 <= ea <= 500 -> 0 <= eb <= 500 -> ka + kb <= 90 ->
  scaled (double_add x y) (a + b) (ka + kb) (ea + eb + (ka + kb) + 2).
Proof.
  intros [Nx Bx] [Ny By] P Q E1 E2 L. pose proof us as US. pose proof s_pos as SP. pose proof eta_s as ES. pose proof u_pos as U. pose proof u_small as U1.
  assert (T : Rabs (a + b) <= (ka + kb) * S) by (pose proof (Rabs_triang a b); lra).
  assert (X1 : 0 <= ea * (u * S) <= 500 * (u * S)) by (split; [apply Rmult_le_pos; lra|apply Rmult_le_compat_r; lra]).
  assert (X2 : 0 <= eb * (u * S) <= 500 * (u * S)) by (split; [apply Rmult_le_pos; lra|apply Rmult_le_compat_r; lra]).
  assert (X3 : (ka + kb) * S <= 90 * S) by (apply Rmult_le_compat_r; lra).
  assert (X4 : u * (ea * (u * S) + eb * (u * S)) <= / 1024 * (1000 * (u * S))) by (apply Rmult_le_compat; lra).
  split; [|exact T]. eapply near_weaken; [apply (near_add _ _ _ _ _ _ ((ka + kb) * S + ea * (u * S) + eb * (u * S)) Nx Ny)|].
  - lra.
  - apply s_big. lra.
  - replace (u * ((ka + kb) * S + ea * (u * S) + eb * (u * S))) with ((ka + kb) * (u * S) + u * (ea * (u * S) + eb * (u * S))) by ring. lra.
Qed.
Lemma near_opp (x : double) (v e : R) : near x v e -> near (SFopp x) (- v) e.
Proof.
  intros [G H]. destruct (opp_real x G) as [E O]. split; [exact O|]. rewrite E. replace (- real x - - v) with (- (real x - v)) by ring. rewrite Rabs_Ropp. exact H.
Qed.
Lemma scaled_sub (x y : double) (a b ka kb ea eb : R) : scaled x a ka ea -> scaled y b kb eb -> 0 <= ka -> 0 <= kb -> 0 <= ea <= 500 -> 0 <= eb <= 500 -> ka + kb <= 90 ->
  scaled (double_sub x y) (a - b) (ka + kb) (ea + eb + (ka + kb) + 2).
Proof.
  intros [Nx Bx] [Ny By] P Q E1 E2 L. pose proof us as US. pose proof s_pos as SP. pose proof eta_s as ES. pose proof u_pos as U. pose proof u_small as U1.
  assert (T : Rabs (a - b) <= (ka + kb) * S) by (pose proof (Rabs_triang a (- b)) as T; rewrite Rabs_Ropp in T; unfold Rminus; lra).
  assert (X1 : 0 <= ea * (u * S) <= 500 * (u * S)) by (split; [apply Rmult_le_pos; lra|apply Rmult_le_compat_r; lra]).
  assert (X2 : 0 <= eb * (u * S) <= 500 * (u * S)) by (split; [apply Rmult_le_pos; lra|apply Rmult_le_compat_r; lra]).
  assert (X3 : (ka + kb) * S <= 90 * S) by (apply Rmult_le_compat_r; lra).
  assert (X4 : u * (ea * (u * S) + eb * (u * S)) <= / 1024 * (1000 * (u * S))) by (apply Rmult_le_compat; lra).
  split; [|exact T]. eapply near_weaken; [apply (near_sub _ _ _ _ _ _ ((ka + kb) * S + ea * (u * S) + eb * (u * S)) Nx Ny)|].
  - lra.
  - apply s_big. lra.
  - replace (u * ((ka + kb) * S + ea * (u * S) + eb * (u * S))) with ((ka + kb) * (u * S) + u * (ea * (u * S) + eb * (u * S))) by ring. lra.
Qed.
(** Product with an exact number up to 9/8. *)
Lemma scaled_mul (a y : double) (b kb eb : R) : good a -> Rabs (real a) <= 9 / 8 -> scaled y b kb eb -> 0 <= kb <= 70 -> 0 <= eb <= 500 ->
  scaled (double_mul a y) (real a * b) (9 / 8 * kb) (9 / 8 * (eb + kb) + 1).
Proof.
  intros Ga A [Ny By] K E. pose proof us as US. pose proof s_pos as SP. pose proof eta_s as ES. pose proof u_pos as U. pose proof u_small as U1.
  assert (X2 : 0 <= eb * (u * S) <= 500 * (u * S)) by (split; [apply Rmult_le_pos; lra|apply Rmult_le_compat_r; lra]).
  assert (X3 : 0 <= kb * S <= 70 * S) by (split; [apply Rmult_le_pos; lra|apply Rmult_le_compat_r; lra]).
  assert (T : Rabs (real a * b) <= 9 / 8 * kb * S) by (rewrite Rabs_mult, Rmult_assoc; apply Rmult_le_compat; try apply Rabs_pos; lra).
  assert (X1 : Rabs (real a) * (eb * (u * S)) <= 9 / 8 * (eb * (u * S))) by (apply Rmult_le_compat_r; lra).
  assert (X4 : u * (9 / 8 * (eb * (u * S))) <= / 1024 * (9 / 8 * (500 * (u * S)))) by (apply Rmult_le_compat; lra).
  split; [|exact T]. eapply near_weaken; [apply (near_mul _ _ _ _ _ _ (9 / 8 * (kb * S) + 9 / 8 * (eb * (u * S))) (near_exact _ Ga) Ny)|].
  - rewrite !Rmult_0_r, Rmult_0_l. lra.
  - apply s_big. lra.
  - rewrite !Rmult_0_r, Rmult_0_l. replace (u * (9 / 8 * (kb * S) + 9 / 8 * (eb * (u * S)))) with (9 / 8 * (kb * (u * S)) + u * (9 / 8 * (eb * (u * S)))) by ring. lra.
Qed.

Lemma scaled_cross (a1 a2 b1 b2 : double) (v1 v2 k e : R) : good a1 -> good a2 -> Rabs (real a1) <= 9 / 8 -> Rabs (real a2) <= 9 / 8 ->
  scaled b1 v1 k e -> scaled b2 v2 k e -> 0 <= k <= 20 -> 0 <= e <= 100 ->
  scaled (double_cross1 a1 a2 b1 b2) (real a1 * v2 - real a2 * v1) (9 / 4 * k) (9 / 4 * e + 9 / 2 * k + 4).
Proof.
  intros G1 G2 A1 A2 B1 B2 K E.
  eapply scaled_weaken; [apply (scaled_sub _ _ _ _ _ _ _ _ (scaled_mul a1 b2 v2 k e G1 A1 B2 ltac:(lra) ltac:(lra)) (scaled_mul a2 b1 v1 k e G2 A2 B1 ltac:(lra) ltac:(lra))); lra|lra|lra].
Qed.
(** One coordinate: [i], [j], [k] are consecutive in the cyclic order. *)
Lemma coordinate (w a b c x y z t : double) :
  good w -> good a -> good b -> good c -> Rabs (real w) <= 9 / 8 -> Rabs (real a) <= 9 / 8 -> Rabs (real b) <= 9 / 8 -> Rabs (real c) <= 9 / 8 ->
  good x -> good y -> good z -> good t -> Rabs (real x) <= S -> Rabs (real y) <= S -> Rabs (real z) <= S -> Rabs (real t) <= S ->
  let d v := double_add v v in
  let uvx := d (double_cross1 b c y z) in let uvy := d (double_cross1 c a z x) in let uvz := d (double_cross1 a b x y) in
  near (double_add (double_add (double_add x (double_mul w uvx)) (double_cross1 b c uvy uvz)) t)
    (real x + 2 * real w * (real b * real z - real c * real y) +
     2 * (real b * (real a * real y - real b * real x) - real c * (real c * real x - real a * real z)) + real t) (160 * (u * S)).
Proof.
  intros Gw Ga Gb Gc Bw Ba Bb Bc Gx Gy Gz Gt Bx By Bz Bt d.
  pose proof (scaled_exact x Gx Bx) as X. pose proof (scaled_exact y Gy By) as Y. pose proof (scaled_exact z Gz Bz) as Z. pose proof (scaled_exact t Gt Bt) as T.
  assert (D : forall a1 a2 b1 b2, good a1 -> good a2 -> Rabs (real a1) <= 9 / 8 -> Rabs (real a2) <= 9 / 8 -> scaled b1 (real b1) 1 0 -> scaled b2 (real b2) 1 0 ->
    scaled (d (double_cross1 a1 a2 b1 b2)) (2 * (real a1 * real b2 - real a2 * real b1)) (9 / 2) 24).
  { intros a1 a2 b1 b2 G1 G2 A1 A2 B1 B2. pose proof (scaled_cross a1 a2 b1 b2 _ _ 1 0 G1 G2 A1 A2 B1 B2 ltac:(lra) ltac:(lra)) as K.
    replace (2 * (real a1 * real b2 - real a2 * real b1)) with ((real a1 * real b2 - real a2 * real b1) + (real a1 * real b2 - real a2 * real b1)) by ring.
    eapply scaled_weaken; [apply (scaled_add _ _ _ _ _ _ _ _ K K); lra|lra|lra]. }
  pose proof (D b c y z Gb Gc Bb Bc Y Z) as UX. pose proof (D c a z x Gc Ga Bc Ba Z X) as UY. pose proof (D a b x y Ga Gb Ba Bb X Y) as UZ.
  cbv zeta. set (uvx := d (double_cross1 b c y z)) in *. set (uvy := d (double_cross1 c a z x)) in *. set (uvz := d (double_cross1 a b x y)) in *.
  pose proof (scaled_mul w uvx _ _ _ Gw Bw UX ltac:(lra) ltac:(lra)) as K1.
  pose proof (scaled_add _ _ _ _ _ _ _ _ X K1 ltac:(lra) ltac:(lra) ltac:(lra) ltac:(lra) ltac:(lra)) as K2.
  pose proof (scaled_cross b c uvy uvz _ _ _ _ Gb Gc Bb Bc UY UZ ltac:(lra) ltac:(lra)) as K3.
  pose proof (scaled_add _ _ _ _ _ _ _ _ K2 K3 ltac:(lra) ltac:(lra) ltac:(lra) ltac:(lra) ltac:(lra)) as K4.
  pose proof (scaled_add _ _ _ _ _ _ _ _ K4 T ltac:(lra) ltac:(lra) ltac:(lra) ltac:(lra) ltac:(lra)) as K5.
  destruct (scaled_weaken _ _ _ _ 20 160 K5 ltac:(lra) ltac:(lra)) as [K6 _].
  match goal with |- near _ ?g _ => match type of K6 with near _ ?h _ => replace g with h by ring end end. exact K6.
Qed.
End Motion.

Lemma reach_parts (p : dpoint) : Rabs (real (dp0 p)) <= reach p /\ Rabs (real (dp1 p)) <= reach p /\ Rabs (real (dp2 p)) <= reach p.
Proof.
  unfold reach. split; [apply Rmax_l|]. split.
  - eapply Rle_trans; [apply Rmax_l|apply Rmax_r].
  - eapply Rle_trans; [apply Rmax_r|apply Rmax_r].
Qed.
Lemma reach_pos (p : dpoint) : 0 <= reach p.
Proof. eapply Rle_trans; [apply Rabs_pos|apply Rmax_l]. Qed.
Lemma finite_point_good (p : dpoint) : finite_point p <-> good (dp0 p) /\ good (dp1 p) /\ good (dp2 p).
Proof. unfold finite_point. rewrite !finite_good. reflexivity. Qed.
Lemma extent_ok (p t : dpoint) : usable_point p -> usable_point t -> bpow radix2 (-1000) <= extent p t <= bpow radix2 102.
Proof.
  intros [_ P] [_ T]. unfold extent. pose proof (reach_pos p). pose proof (reach_pos t). split; [lra|].
  replace (bpow radix2 102) with (4 * bpow radix2 100) by (change 4 with (bpow radix2 2); rewrite <- bpow_plus; reflexivity).
  assert (bpow radix2 (-1000) <= bpow radix2 100) by (apply bpow_le; lia). lra.
Qed.
(** Distance from the coordinates. *)
Lemma distance_parts (a b : vec) (e : R) : 0 <= e ->
  Rabs (fst (fst a) - fst (fst b)) <= e -> Rabs (snd (fst a) - snd (fst b)) <= e -> Rabs (snd a - snd b) <= e -> distance a b <= 7 / 4 * e.
Proof.
  intros E H0 H1 H2. destruct a as [[a0 a1] a2], b as [[b0 b1] b2]. cbn [fst snd] in *. unfold distance.
  assert (Q : forall d, Rabs d <= e -> d * d <= e * e).
  { intros d D. replace (d * d) with (Rabs d * Rabs d) by (rewrite <- Rabs_mult; apply Rabs_pos_eq, Rle_0_sqr). apply Rmult_le_compat; try apply Rabs_pos; exact D. }
  apply Q in H0, H1, H2. rewrite <- (sqrt_Rsqr (7 / 4 * e)) by lra. apply sqrt_le_1_alt. unfold Rsqr. assert (0 <= e * e) by (apply Rle_0_sqr). lra.
Qed.
(** All coordinates. *)
Lemma moved_near (q : dquat) (t p : dpoint) : good (dqw q) -> good (dqx q) -> good (dqy q) -> good (dqz q) ->
  Rabs (real (dqw q)) <= 9 / 8 -> Rabs (real (dqx q)) <= 9 / 8 -> Rabs (real (dqy q)) <= 9 / 8 -> Rabs (real (dqz q)) <= 9 / 8 ->
  usable_point p -> usable_point t ->
  finite_point (double_in_world q t p) /\
  distance (place (double_in_world q t p)) (moved (value q) (place t) (place p)) <= 280 * (u * extent p t).
Proof.
  intros Gw Ga Gb Gc Bw Ba Bb Bc Up Ut. destruct (extent_ok p t Up Ut) as [E1 E2]. pose proof (reach_pos p) as Rp. pose proof (reach_pos t) as Rt.
  destruct Up as [Fp _], Ut as [Ft _]. apply finite_point_good in Fp, Ft. destruct Fp as [Gx [Gy Gz]], Ft as [Gt0 [Gt1 Gt2]].
  destruct (reach_parts p) as [Px [Py Pz]]. destruct (reach_parts t) as [Tx [Ty Tz]]. pose proof (bpow_gt_0 radix2 (-1000)) as Tiny.
  set (S := extent p t) in *. assert (Sp : reach p <= S /\ reach t <= S) by (unfold S, extent; lra).
  pose proof (us S E1) as US.
  pose proof (coordinate S E1 E2 _ _ _ _ _ _ _ _ Gw Ga Gb Gc Bw Ba Bb Bc Gx Gy Gz Gt0 ltac:(lra) ltac:(lra) ltac:(lra) ltac:(lra)) as [G0 N0].
  pose proof (coordinate S E1 E2 _ _ _ _ _ _ _ _ Gw Gb Gc Ga Bw Bb Bc Ba Gy Gz Gx Gt1 ltac:(lra) ltac:(lra) ltac:(lra) ltac:(lra)) as [G1 N1].
  pose proof (coordinate S E1 E2 _ _ _ _ _ _ _ _ Gw Gc Ga Gb Bw Bc Ba Bb Gz Gx Gy Gt2 ltac:(lra) ltac:(lra) ltac:(lra) ltac:(lra)) as [G2 N2].
  split; [apply finite_point_good; split; [exact G0|split; [exact G1|exact G2]]|].
  replace (280 * (u * S)) with (7 / 4 * (160 * (u * S))) by field. apply distance_parts; [lra| | |].
  - eapply Rle_trans; [|exact N0]. right. f_equal. unfold place, moved, rotate, plus3, value. cbn [fst snd qw qx qy qz].
    change (dp0 (double_in_world q t p)) with
      (double_add (double_add (double_add (dp0 p) (double_mul (dqw q) (double_add (double_cross1 (dqy q) (dqz q) (dp1 p) (dp2 p)) (double_cross1 (dqy q) (dqz q) (dp1 p) (dp2 p)))))
        (double_cross1 (dqy q) (dqz q) (double_add (double_cross1 (dqz q) (dqx q) (dp2 p) (dp0 p)) (double_cross1 (dqz q) (dqx q) (dp2 p) (dp0 p)))
          (double_add (double_cross1 (dqx q) (dqy q) (dp0 p) (dp1 p)) (double_cross1 (dqx q) (dqy q) (dp0 p) (dp1 p))))) (dp0 t)). ring.
  - eapply Rle_trans; [|exact N1]. right. f_equal. unfold place, moved, rotate, plus3, value. cbn [fst snd qw qx qy qz].
    change (dp1 (double_in_world q t p)) with
      (double_add (double_add (double_add (dp1 p) (double_mul (dqw q) (double_add (double_cross1 (dqz q) (dqx q) (dp2 p) (dp0 p)) (double_cross1 (dqz q) (dqx q) (dp2 p) (dp0 p)))))
        (double_cross1 (dqz q) (dqx q) (double_add (double_cross1 (dqx q) (dqy q) (dp0 p) (dp1 p)) (double_cross1 (dqx q) (dqy q) (dp0 p) (dp1 p)))
          (double_add (double_cross1 (dqy q) (dqz q) (dp1 p) (dp2 p)) (double_cross1 (dqy q) (dqz q) (dp1 p) (dp2 p))))) (dp1 t)). ring.
  - eapply Rle_trans; [|exact N2]. right. f_equal. unfold place, moved, rotate, plus3, value. cbn [fst snd qw qx qy qz].
    change (dp2 (double_in_world q t p)) with
      (double_add (double_add (double_add (dp2 p) (double_mul (dqw q) (double_add (double_cross1 (dqx q) (dqy q) (dp0 p) (dp1 p)) (double_cross1 (dqx q) (dqy q) (dp0 p) (dp1 p)))))
        (double_cross1 (dqx q) (dqy q) (double_add (double_cross1 (dqy q) (dqz q) (dp1 p) (dp2 p)) (double_cross1 (dqy q) (dqz q) (dp1 p) (dp2 p)))
          (double_add (double_cross1 (dqz q) (dqx q) (dp2 p) (dp0 p)) (double_cross1 (dqz q) (dqx q) (dp2 p) (dp0 p))))) (dp2 t)). ring.
Qed.

(** ** Motions by poses close to each other *)
Definition lift (a : vec) : quat := let '(a0, a1, a2) := a in {| qw := 0; qx := a0; qy := a1; qz := a2 |}.
Lemma distance_lift (a b : vec) : distance a b = apart (lift a) (lift b).
Proof. destruct a as [[a0 a1] a2], b as [[b0 b1] b2]. unfold distance, apart, size, lift. cbn [qw qx qy qz]. f_equal. ring. Qed.
Lemma distance_triangle (a b c : vec) : distance a c <= distance a b + distance b c.
Proof. rewrite !distance_lift. apply apart_triangle. Qed.
Lemma distance_sym (a b : vec) : distance a b = distance b a.
Proof. rewrite !distance_lift. apply apart_sym. Qed.

Lemma product_diff (a b a' b' e : R) : Rabs (a - a') <= e -> Rabs (b - b') <= e -> Rabs a <= 9 / 8 -> Rabs b' <= 9 / 8 -> Rabs (a * b - a' * b') <= 9 / 4 * e.
Proof.
  intros H1 H2 A B. replace (a * b - a' * b') with (a * (b - b') + (a - a') * b') by ring. eapply Rle_trans; [apply Rabs_triang|]. rewrite !Rabs_mult.
  pose proof (Rabs_pos (a - a')). pose proof (Rabs_pos (b - b')).
  assert (Rabs a * Rabs (b - b') <= 9 / 8 * e) by (apply Rmult_le_compat; try apply Rabs_pos; assumption).
  assert (Rabs (a - a') * Rabs b' <= e * (9 / 8)) by (apply Rmult_le_compat; try apply Rabs_pos; assumption). lra.
Qed.
Lemma three_terms (a b c x y z k S : R) : Rabs a <= k -> Rabs b <= k -> Rabs c <= k -> Rabs x <= S -> Rabs y <= S -> Rabs z <= S ->
  Rabs (a * x + b * y + c * z) <= 3 * k * S.
Proof.
  intros A B C X Y Z. pose proof (Rabs_triang (a * x + b * y) (c * z)) as T1. pose proof (Rabs_triang (a * x) (b * y)) as T2.
  rewrite !Rabs_mult in *.
  assert (Rabs a * Rabs x <= k * S) by (apply Rmult_le_compat; try apply Rabs_pos; assumption).
  assert (Rabs b * Rabs y <= k * S) by (apply Rmult_le_compat; try apply Rabs_pos; assumption).
  assert (Rabs c * Rabs z <= k * S) by (apply Rmult_le_compat; try apply Rabs_pos; assumption). lra.
Qed.
Lemma two_products (p q r s e : R) : Rabs (p - q) <= e -> Rabs (r - s) <= e ->
  Rabs (2 * (p + r) - 2 * (q + s)) <= 4 * e /\ Rabs (2 * (p - r) - 2 * (q - s)) <= 4 * e.
Proof. intros H K. apply Rabs_le_inv in H, K. split; apply Rabs_le; lra. Qed.
Lemma poses_near (g h : quat) (t : vec) (p : dpoint) (e : R) : 0 <= e ->
  Rabs (qw g - qw h) <= e -> Rabs (qx g - qx h) <= e -> Rabs (qy g - qy h) <= e -> Rabs (qz g - qz h) <= e ->
  size g <= 9 / 8 -> size h <= 9 / 8 -> distance (moved g t (place p)) (moved h t (place p)) <= 48 * (e * reach p).
Proof.
  intros E Dw Dx Dy Dz Sg Sh. destruct (part_size g) as [Gw [Gx [Gy Gz]]]. destruct (part_size h) as [Hw [Hx [Hy Hz]]].
  destruct (reach_parts p) as [Px [Py Pz]]. pose proof (reach_pos p) as P. destruct t as [[t0 t1] t2]. unfold place.
  set (x := real (dp0 p)) in *. set (y := real (dp1 p)) in *. set (z := real (dp2 p)) in *. set (S := reach p) in *.
  destruct g as [w a b c], h as [w' a' b' c']. cbn [qw qx qy qz] in *.
  assert (PD : forall m n m' n', Rabs (m - m') <= e -> Rabs (n - n') <= e -> Rabs m <= size {| qw := w; qx := a; qy := b; qz := c |} ->
             Rabs n' <= size {| qw := w'; qx := a'; qy := b'; qz := c' |} -> Rabs (m * n - m' * n') <= 9 / 4 * e) by (intros; apply product_diff; lra).
  assert (ES : 0 <= e * S) by (apply Rmult_le_pos; lra).
  apply Rle_trans with (7 / 4 * (27 * (e * S))); [|lra].
  assert (Q1 : forall m n m' n', Rabs (m * m - m' * m') <= 9 / 4 * e -> Rabs (n * n - n' * n') <= 9 / 4 * e ->
            Rabs ((1 - 2 * (m * m + n * n)) - (1 - 2 * (m' * m' + n' * n'))) <= 9 * e).
  { intros m n m' n' A B. replace (1 - 2 * (m * m + n * n) - (1 - 2 * (m' * m' + n' * n'))) with (- (2 * (m * m + n * n) - 2 * (m' * m' + n' * n'))) by ring.
    rewrite Rabs_Ropp. destruct (two_products _ _ _ _ _ A B) as [K _]. lra. }
  assert (Q2 : forall m n k l m' n' k' l', Rabs (m * n - m' * n') <= 9 / 4 * e -> Rabs (k * l - k' * l') <= 9 / 4 * e ->
            Rabs (2 * (m * n + k * l) - 2 * (m' * n' + k' * l')) <= 9 * e /\ Rabs (2 * (m * n - k * l) - 2 * (m' * n' - k' * l')) <= 9 * e).
  { intros m n k l m' n' k' l' A B. destruct (two_products _ _ _ _ _ A B) as [K1 K2]. lra. }
  apply distance_parts; [lra| | |]; unfold moved, rotate, plus3; cbn [fst snd qw qx qy qz].
  - match goal with |- Rabs ?v <= _ => replace v with
      (((1 - 2 * (b * b + c * c)) - (1 - 2 * (b' * b' + c' * c'))) * x + (2 * (a * b - w * c) - 2 * (a' * b' - w' * c')) * y + (2 * (a * c + w * b) - 2 * (a' * c' + w' * b')) * z) by ring end.
    replace (27 * (e * S)) with (3 * (9 * e) * S) by ring. apply three_terms; try assumption; first [apply Q1|apply Q2]; apply PD; assumption.
  - match goal with |- Rabs ?v <= _ => replace v with
      ((2 * (a * b + w * c) - 2 * (a' * b' + w' * c')) * x + ((1 - 2 * (a * a + c * c)) - (1 - 2 * (a' * a' + c' * c'))) * y + (2 * (b * c - w * a) - 2 * (b' * c' - w' * a')) * z) by ring end.
    replace (27 * (e * S)) with (3 * (9 * e) * S) by ring. apply three_terms; try assumption; first [apply Q1|apply Q2]; apply PD; assumption.
  - match goal with |- Rabs ?v <= _ => replace v with
      ((2 * (a * c - w * b) - 2 * (a' * c' - w' * b')) * x + (2 * (b * c + w * a) - 2 * (b' * c' + w' * a')) * y + ((1 - 2 * (a * a + b * b)) - (1 - 2 * (a' * a' + b' * b'))) * z) by ring end.
    replace (27 * (e * S)) with (3 * (9 * e) * S) by ring. apply three_terms; try assumption; first [apply Q1|apply Q2]; apply PD; assumption.
Qed.

(** ** Normalising *)
Lemma normalised_unit (q : quat) : 0 < size q -> size (normalised q) = 1.
Proof.
  intros P. pose proof (size_square q) as E. rewrite <- sqrt_1. unfold size at 1. f_equal. unfold normalised. cbn [qw qx qy qz]. unfold dot in E.
  set (s := size q) in *. transitivity ((qw q * qw q + qx q * qx q + qy q * qy q + qz q * qz q) / (s * s)); [field; lra|].
  replace (qw q * qw q + qx q * qx q + qy q * qy q + qz q * qz q) with (s * s) by lra. field. lra.
Qed.
Lemma normalised_near (q : quat) : 0 < size q -> apart q (normalised q) <= Rabs (size q - 1).
Proof.
  intros P. right. pose proof (normalised_unit q P) as E. set (s := size q) in *.
  transitivity (Rabs (s - 1) * size (normalised q)); [|rewrite E; ring].
  unfold apart, size. rewrite <- (sqrt_Rsqr (Rabs (s - 1))) by apply Rabs_pos. rewrite <- sqrt_mult_alt by apply Rle_0_sqr. f_equal.
  rewrite <- Rsqr_abs. unfold Rsqr, normalised. fold s. cbn [qw qx qy qz]. field. lra.
Qed.
Lemma unit_rigid (g : quat) (t a b : vec) : size g = 1 -> distance (moved g t a) (moved g t b) = distance a b.
Proof.
  intros U. assert (V : unit_quat g).
  { unfold unit_quat. pose proof (size_square g) as E. unfold dot in E. rewrite U in E. lra. }
  pose proof (rotate_len g a b V) as L. pose proof (shift_len (rotate g a) (rotate g b) t) as L2. unfold moved.
  set (ga := plus3 (rotate g a) t) in *. set (gb := plus3 (rotate g b) t) in *.
  assert (D : forall p q, distance p q = sqrt (len2 (minus3 p q))).
  { intros [[p0 p1] p2] [[q0 q1] q2]. unfold distance, len2, minus3, Rsqr. f_equal; ring. }
  rewrite !D, L2, L. reflexivity.
Qed.

(** ** After the updates of the solver *)
Lemma scan_after_steps (q : dquat) (deltas : list double) (t p : dpoint) :
  finite_quat q -> Rabs (size (value q) - 1) <= / 16 -> Forall finite_double deltas -> (Z.of_nat (length deltas) <= 2 ^ 45)%Z ->
  usable_point p -> usable_point t ->
  let r := double_in_world (fold_left double_yaw_plus deltas q) t p in
  finite_point r /\
  distance (place r) (moved (turned (total_angle deltas) (normalised (value q))) (place t) (place p)) <=
    ((768 * INR (length deltas) + 280) * u + 48 * Rabs (size (value q) - 1)) * extent p t.
Proof.
  intros F D A N Up Ut r. apply Rabs_le_inv in D as D'. assert (Sq : size (value q) <= 17 / 16) by lra.
  destruct (steps_near q deltas F Sq A N) as [Fr [Nr _]]. pose proof (steps_size q deltas F Sq A N) as Ss. pose proof (count_u _ N) as Cu.
  set (q' := fold_left double_yaw_plus deltas q) in *. set (n := INR (length deltas)) in *. set (d := Rabs (size (value q) - 1)) in *.
  assert (Sr : size (value q') <= 9 / 8) by (apply Rabs_le_inv in Ss; lra).
  apply finite_quat_good in Fr. destruct Fr as [Gw [Gx [Gy Gz]]].
  destruct (part_size (value q')) as [Pw [Px [Py Pz]]]. cbn [value qw qx qy qz] in Pw, Px, Py, Pz.
  destruct (moved_near q' t p Gw Gx Gy Gz ltac:(lra) ltac:(lra) ltac:(lra) ltac:(lra) Up Ut) as [Fp Dp]. fold r in Fp, Dp. split; [exact Fp|].
  set (T := total_angle deltas) in *. set (g := turned T (normalised (value q))).
  assert (Sg : size g = 1) by (unfold g; rewrite turned_size; apply normalised_unit; lra).
  assert (Ap : apart (value q') g <= 16 * n * u + d).
  { eapply Rle_trans; [apply (apart_triangle _ (turned T (value q)))|]. apply Rplus_le_compat; [exact Nr|].
    unfold g. rewrite turned_apart. apply normalised_near. lra. }
  pose proof u_pos as U. assert (Pn : 0 <= n) by apply pos_INR. assert (Pd : 0 <= d) by apply Rabs_pos.
  set (e := 16 * n * u + d) in *. assert (Pe : 0 <= e) by (unfold e; apply Rplus_le_le_0_compat; [apply Rmult_le_pos; lra|exact Pd]).
  destruct (part_size (minus (value q') g)) as [Mw [Mx [My Mz]]]. rewrite <- apart_size in Mw, Mx, My, Mz. cbn [minus qw qx qy qz] in Mw, Mx, My, Mz.
  pose proof (poses_near (value q') g (place t) p e Pe ltac:(lra) ltac:(lra) ltac:(lra) ltac:(lra) Sr ltac:(lra)) as K.
  eapply Rle_trans; [apply (distance_triangle _ (moved (value q') (place t) (place p)))|].
  assert (RE : reach p <= extent p t) by (unfold extent; pose proof (reach_pos t); pose proof (bpow_gt_0 radix2 (-1000)); lra).
  assert (e * reach p <= e * extent p t) by (apply Rmult_le_compat_l; lra).
  replace (((768 * n + 280) * u + 48 * d) * extent p t) with (280 * (u * extent p t) + 48 * (e * extent p t)) by (unfold e; ring). lra.
Qed.
Lemma scan_rigid (q : dquat) (deltas : list double) (t p p' : dpoint) :
  finite_quat q -> Rabs (size (value q) - 1) <= / 16 -> Forall finite_double deltas -> (Z.of_nat (length deltas) <= 2 ^ 45)%Z ->
  usable_point p -> usable_point p' -> usable_point t ->
  let q' := fold_left double_yaw_plus deltas q in
  Rabs (distance (place (double_in_world q' t p)) (place (double_in_world q' t p')) - distance (place p) (place p')) <=
    ((768 * INR (length deltas) + 280) * u + 48 * Rabs (size (value q) - 1)) * (extent p t + extent p' t).
Proof.
  intros F D A N Up Up' Ut q'. apply Rabs_le_inv in D as D'.
  destruct (scan_after_steps q deltas t p F D A N Up Ut) as [_ K]. destruct (scan_after_steps q deltas t p' F D A N Up' Ut) as [_ K'].
  fold q' in K, K'. set (g := turned (total_angle deltas) (normalised (value q))) in *.
  assert (Sg : size g = 1) by (unfold g; rewrite turned_size; apply normalised_unit; lra).
  rewrite <- (unit_rigid g (place t) (place p) (place p') Sg). set (m := (768 * INR (length deltas) + 280) * u + 48 * Rabs (size (value q) - 1)) in *.
  set (a := place (double_in_world q' t p)) in *. set (b := place (double_in_world q' t p')) in *.
  set (a' := moved g (place t) (place p)) in *. set (b' := moved g (place t) (place p')) in *.
  pose proof (distance_triangle a a' b) as T1. pose proof (distance_triangle a' b' b) as T2.
  pose proof (distance_triangle a' a b') as T3. pose proof (distance_triangle a b b') as T4.
  rewrite (distance_sym b' b) in T2. rewrite (distance_sym a' a) in T3. apply Rabs_le. lra.
Qed.

(** ** Angles *)
Lemma sin_size (t : R) : Rabs (sin t) <= Rabs t.
Proof.
  destruct (Rtotal_order t 0) as [N|[Z|P]].
  - pose proof (sin_lt_x (- t) ltac:(lra)) as K. rewrite sin_neg in K. rewrite (Rabs_left t) by exact N.
    apply Rabs_le. split; [lra|]. destruct (Rle_lt_dec t (-2)) as [L|L]; [pose proof (SIN_bound t); lra|].
    pose proof (sin_ge_0 (- t) ltac:(lra) ltac:(pose proof PI2_3_2; lra)) as G. rewrite sin_neg in G. lra.
  - subst. rewrite sin_0. lra.
  - pose proof (sin_lt_x t P) as K. rewrite (Rabs_pos_eq t) by lra. apply Rabs_le. split; [|lra].
    destruct (Rle_lt_dec 2 t) as [L|L]; [pose proof (SIN_bound t); lra|].
    pose proof (sin_ge_0 t ltac:(lra) ltac:(pose proof PI2_3_2; lra)) as G. lra.
Qed.
Lemma sin_lipschitz (x y : R) : Rabs (sin x - sin y) <= Rabs (x - y).
Proof.
  rewrite form4, !Rabs_mult, (Rabs_pos_eq 2) by lra. pose proof (sin_size ((x - y) / 2)) as S.
  unfold Rdiv in S at 2. rewrite Rabs_mult, (Rabs_pos_eq (/ 2)) in S by lra.
  assert (C : Rabs (cos ((x + y) / 2)) <= 1) by (apply Rabs_le, COS_bound). pose proof (Rabs_pos (sin ((x - y) / 2))).
  assert (Rabs (cos ((x + y) / 2)) * Rabs (sin ((x - y) / 2)) <= 1 * Rabs (sin ((x - y) / 2))) by (apply Rmult_le_compat_r; assumption). lra.
Qed.
Lemma cos_lipschitz (x y : R) : Rabs (cos x - cos y) <= Rabs (x - y).
Proof. rewrite <- !sin_shift. eapply Rle_trans; [apply sin_lipschitz|]. right. rewrite <- Rabs_Ropp. f_equal. ring. Qed.

Lemma half_angle (x : double) (f : double -> double) (F : R -> R) : (forall a b, Rabs (F a - F b) <= Rabs (a - b)) -> trig_ok f F -> finite_double x -> Rabs (real x) <= 4 ->
  near (f (double_mul x double_half)) (F (real x * (1 / 2))) (5 * u) /\ Rabs (real (f (double_mul x double_half))) <= 1.
Proof.
  intros L T Fx B. replace (real x * (1 / 2)) with (real x / 2) by field. apply finite_good in Fx. pose proof u_pos as U. pose proof u_small as U1. pose proof eta_u as Eu. pose proof eta_pos as E0.
  assert (N : near (double_mul x double_half) (real x / 2) (3 * u)).
  { replace (real x / 2) with (real x * real double_half) by (rewrite half_real; reflexivity).
    assert (M : Rabs (real x * real double_half) <= 2) by (rewrite half_real, Rabs_mult, (Rabs_pos_eq (/ 2)) by lra; lra).
    eapply near_weaken; [apply (near_mul _ _ _ _ _ _ 2 (near_exact _ Fx) (near_exact _ good_half))|].
    - rewrite !Rmult_0_r. lra.
    - exact big_2.
    - rewrite !Rmult_0_r. lra. }
  destruct N as [G N]. assert (B2 : Rabs (real (double_mul x double_half)) <= 4).
  { assert (M : Rabs (real x / 2) <= 2) by (unfold Rdiv; rewrite Rabs_mult, (Rabs_pos_eq (/ 2)) by lra; lra).
    apply Rabs_le_inv in N, M. apply Rabs_le. lra. }
  apply finite_good in G. destruct (T _ G B2) as [Ff [Bf Ef]]. split; [|exact Bf]. split; [apply finite_good; exact Ff|].
  pose proof (L (real (double_mul x double_half)) (real x / 2)) as L'. apply Rabs_le_inv in Ef. change roundoff with u in Ef.
  assert (L2 : Rabs (F (real (double_mul x double_half)) - F (real x / 2)) <= 3 * u) by lra. apply Rabs_le_inv in L2. apply Rabs_le. lra.
Qed.
Lemma mul3_near (a b c : double) (x y z : R) : near a x (5 * u) -> near b y (5 * u) -> near c z (5 * u) -> Rabs x <= 1 -> Rabs y <= 1 -> Rabs z <= 1 ->
  near (double_mul (double_mul a b) c) (x * y * z) (20 * u) /\ Rabs (x * y * z) <= 1.
Proof.
  intros A B C X Y Z. pose proof u_pos as U. pose proof u_small as U1. pose proof eta_u as Eu. pose proof eta_pos as E0. pose proof big_2 as B2.
  assert (UU : 0 <= u * u <= / 1024 * u) by (split; [apply Rmult_le_pos; lra|apply Rmult_le_compat_r; lra]).
  assert (P1 : Rabs (x * y) <= 1) by (rewrite Rabs_mult; rewrite <- (Rmult_1_l 1); apply Rmult_le_compat; try apply Rabs_pos; assumption).
  assert (P2 : Rabs (x * y * z) <= 1) by (rewrite Rabs_mult; rewrite <- (Rmult_1_l 1); apply Rmult_le_compat; try apply Rabs_pos; assumption).
  assert (M : forall v k, Rabs v <= 1 -> 0 <= k -> Rabs v * (k * u) <= k * u).
  { intros v k V K. rewrite <- (Rmult_1_l (k * u)) at 2. apply Rmult_le_compat_r; [apply Rmult_le_pos; lra|exact V]. }
  pose proof (M x 5 X ltac:(lra)). pose proof (M y 5 Y ltac:(lra)). pose proof (M z 13 Z ltac:(lra)). pose proof (M (x * y) 5 P1 ltac:(lra)).
  assert (N : near (double_mul a b) (x * y) (13 * u)).
  { eapply near_weaken; [apply (near_mul _ _ _ _ _ _ 2 A B)|].
    - lra.
    - exact B2.
    - lra. }
  split; [|exact P2]. eapply near_weaken; [apply (near_mul _ _ _ _ _ _ (5 / 4) N C)|].
  - lra.
  - lra.
  - lra.
Qed.
Lemma sum3_near (a b : double) (x y : R) : near a x (20 * u) /\ Rabs x <= 1 -> near b y (20 * u) /\ Rabs y <= 1 ->
  near (double_add a b) (x + y) (44 * u) /\ near (double_sub a b) (x - y) (44 * u).
Proof.
  intros [A X] [B Y]. pose proof u_pos as U. pose proof u_small as U1. pose proof eta_u as Eu. pose proof big_100 as B2.
  split; (eapply near_weaken; [first [apply (near_add _ _ _ _ _ _ 3 A B)|apply (near_sub _ _ _ _ _ _ 3 A B)]|]); try lra.
  - pose proof (Rabs_triang x y). lra.
  - pose proof (Rabs_triang x (- y)) as T. rewrite Rabs_Ropp in T. unfold Rminus. lra.
Qed.
Section Angles.
Variables dcos dsin : double -> double.
Hypothesis Hc : trig_ok dcos cos.
Hypothesis Hs : trig_ok dsin sin.
Lemma eigen_near (roll pitch yaw : double) : finite_double roll -> finite_double pitch -> finite_double yaw ->
  Rabs (real roll) <= 4 -> Rabs (real pitch) <= 4 -> Rabs (real yaw) <= 4 ->
  let q := double_to_eigen dcos dsin roll pitch yaw in let g := to_eigen (real roll) (real pitch) (real yaw) in
  near (dqw q) (qw g) (44 * u) /\ near (dqx q) (qx g) (44 * u) /\ near (dqy q) (qy g) (44 * u) /\ near (dqz q) (qz g) (44 * u).
Proof.
  intros Fr Fp Fy Br Bp By q g.
  destruct (half_angle roll dcos cos cos_lipschitz Hc Fr Br) as [CR _]. destruct (half_angle roll dsin sin sin_lipschitz Hs Fr Br) as [SR _].
  destruct (half_angle pitch dcos cos cos_lipschitz Hc Fp Bp) as [CP _]. destruct (half_angle pitch dsin sin sin_lipschitz Hs Fp Bp) as [SP _].
  destruct (half_angle yaw dcos cos cos_lipschitz Hc Fy By) as [CY _]. destruct (half_angle yaw dsin sin sin_lipschitz Hs Fy By) as [SY _].
  assert (C1 : forall x, Rabs (cos x) <= 1) by (intros x; apply Rabs_le, COS_bound). assert (S1 : forall x, Rabs (sin x) <= 1) by (intros x; apply Rabs_le, SIN_bound).
  subst q g. unfold double_to_eigen, to_eigen. cbn [dqw dqx dqy dqz qw qx qy qz].
  assert (M : forall a b c x y z, near a x (5 * u) -> near b y (5 * u) -> near c z (5 * u) -> Rabs x <= 1 -> Rabs y <= 1 -> Rabs z <= 1 ->
    near (double_mul (double_mul a b) c) (x * y * z) (20 * u) /\ Rabs (x * y * z) <= 1) by (intros; apply mul3_near; assumption).
  split; [|split; [|split]].
  - exact (proj1 (sum3_near _ _ _ _ (M _ _ _ _ _ _ CR CP CY (C1 _) (C1 _) (C1 _)) (M _ _ _ _ _ _ SR SP SY (S1 _) (S1 _) (S1 _)))).
  - exact (proj2 (sum3_near _ _ _ _ (M _ _ _ _ _ _ SR CP CY (S1 _) (C1 _) (C1 _)) (M _ _ _ _ _ _ CR SP SY (C1 _) (S1 _) (S1 _)))).
  - exact (proj1 (sum3_near _ _ _ _ (M _ _ _ _ _ _ CR SP CY (C1 _) (S1 _) (C1 _)) (M _ _ _ _ _ _ SR CP SY (S1 _) (C1 _) (S1 _)))).
  - exact (proj2 (sum3_near _ _ _ _ (M _ _ _ _ _ _ CR CP SY (C1 _) (C1 _) (S1 _)) (M _ _ _ _ _ _ SR SP CY (S1 _) (S1 _) (C1 _)))).
Qed.
Lemma eigen_unit (roll pitch yaw : R) : size (to_eigen roll pitch yaw) = 1.
Proof. destruct (to_eigen_spec roll pitch yaw) as [U _]. unfold unit_quat in U. unfold size. rewrite U. apply sqrt_1. Qed.
Lemma rpy_near (roll pitch yaw : double) (t p : dpoint) : finite_double roll -> finite_double pitch -> finite_double yaw ->
  Rabs (real roll) <= 4 -> Rabs (real pitch) <= 4 -> Rabs (real yaw) <= 4 -> usable_point p -> usable_point t ->
  let r := double_in_world_rpy dcos dsin roll pitch yaw t p in
  finite_point r /\
  distance (place r) (plus3 (rot_z (real yaw) (rot_y (real pitch) (rot_x (real roll) (place p)))) (place t)) <= 2400 * (u * extent p t).
Proof.
  intros Fr Fp Fy Br Bp By Up Ut r. destruct (eigen_near roll pitch yaw Fr Fp Fy Br Bp By) as [[Gw Nw] [[Gx Nx] [[Gy Ny] [Gz Nz]]]].
  unfold r, double_in_world_rpy. set (q := double_to_eigen dcos dsin roll pitch yaw) in *. set (g := to_eigen (real roll) (real pitch) (real yaw)) in *.
  pose proof u_pos as U. pose proof u_small as U1. pose proof (eigen_unit (real roll) (real pitch) (real yaw)) as Sg. fold g in Sg.
  assert (Ap : apart (value q) g <= 2 * (44 * u)) by (apply apart_parts; assumption).
  assert (Sq : size (value q) <= 9 / 8) by (pose proof (size_apart (value q) g); lra).
  destruct (part_size (value q)) as [Pw [Px [Py Pz]]]. cbn [value qw qx qy qz] in Pw, Px, Py, Pz.
  destruct (moved_near q t p Gw Gx Gy Gz ltac:(lra) ltac:(lra) ltac:(lra) ltac:(lra) Up Ut) as [Fi Di]. split; [exact Fi|].
  rewrite <- (proj2 (to_eigen_spec (real roll) (real pitch) (real yaw)) (place p)). fold g.
  pose proof (poses_near (value q) g (place t) p (44 * u) ltac:(lra) Nw Nx Ny Nz Sq ltac:(lra)) as K.
  eapply Rle_trans; [apply (distance_triangle _ (moved (value q) (place t) (place p)))|].
  assert (RE : reach p <= extent p t) by (unfold extent; pose proof (reach_pos t); pose proof (bpow_gt_0 radix2 (-1000)); lra).
  assert (44 * u * reach p <= 44 * u * extent p t) by (apply Rmult_le_compat_l; lra). unfold moved at 2 in K.
  replace (2400 * (u * extent p t)) with (280 * (u * extent p t) + 48 * (44 * u * extent p t) + 8 * (u * extent p t)) by ring.
  assert (0 <= u * extent p t) by (apply Rmult_le_pos; [lra|]; pose proof (reach_pos p); lra). lra.
Qed.

(** ** The plane *)
Lemma plane_near (angle t0 t1 p0 p1 : double) (S : R) : finite_double angle -> Rabs (real angle) <= 4 ->
  finite_double t0 -> finite_double t1 -> finite_double p0 -> finite_double p1 ->
  Rabs (real t0) <= S -> Rabs (real t1) <= S -> Rabs (real p0) <= S -> Rabs (real p1) <= S -> bpow radix2 (-1000) <= S <= bpow radix2 100 ->
  let r := double_in_world_2d dcos dsin angle t0 t1 p0 p1 in
  finite_double (fst r) /\ finite_double (snd r) /\
  Rabs (real (fst r) - (cos (real angle) * real p0 - sin (real angle) * real p1 + real t0)) <= 18 * (u * S) /\
  Rabs (real (snd r) - (sin (real angle) * real p0 + cos (real angle) * real p1 + real t1)) <= 18 * (u * S).
Proof.
  intros Fa Ba F0 F1 G0 G1 B0 B1 C0 C1 [S1 S2]. apply finite_good in F0, F1, G0, G1.
  assert (S3 : S <= bpow radix2 102) by (eapply Rle_trans; [exact S2|apply bpow_le; lia]).
  destruct (Hc angle Fa Ba) as [Fc [Bc Ec]]. destruct (Hs angle Fa Ba) as [Fs [Bs Es]]. apply finite_good in Fc, Fs. change roundoff with u in Ec, Es.
  unfold double_in_world_2d. cbv zeta. cbn [fst snd]. set (c := dcos angle) in *. set (s := dsin angle) in *.
  destruct (opp_real s Fs) as [Os Go].
  pose proof (scaled_exact S p0 G0 C0) as X0. pose proof (scaled_exact S p1 G1 C1) as X1. pose proof (scaled_exact S t0 F0 B0) as T0. pose proof (scaled_exact S t1 F1 B1) as T1.
  assert (M : forall a x, good a -> Rabs (real a) <= 1 -> scaled S x (real x) 1 0 -> scaled S (double_mul a x) (real a * real x) (9 / 8) (17 / 8)).
  { intros a x Ga A X. eapply (scaled_weaken S S1); [apply (scaled_mul S S1 S3 a x (real x) 1 0 Ga ltac:(lra) X); lra|lra|lra]. }
  assert (A : forall a b x y z, scaled S a x (9 / 8) (17 / 8) -> scaled S b y (9 / 8) (17 / 8) -> scaled S z (real z) 1 0 ->
    near (double_add (double_add a b) z) (x + y + real z) (14 * (u * S))).
  { intros a b x y z HA HB HZ. pose proof (scaled_add S S1 S3 _ _ _ _ _ _ _ _ HA HB ltac:(lra) ltac:(lra) ltac:(lra) ltac:(lra) ltac:(lra)) as K.
    pose proof (scaled_add S S1 S3 _ _ _ _ _ _ _ _ K HZ ltac:(lra) ltac:(lra) ltac:(lra) ltac:(lra) ltac:(lra)) as K2.
    apply (scaled_weaken S S1 _ _ _ _ 4 14 K2); lra. }
  assert (Bo : Rabs (real (SFopp s)) <= 1) by (rewrite Os, Rabs_Ropp; exact Bs).
  destruct (A _ _ _ _ _ (M c p0 Fc Bc X0) (M (SFopp s) p1 Go Bo X1) T0) as [Ga Na]. destruct (A _ _ _ _ _ (M s p0 Fs Bs X0) (M c p1 Fc Bc X1) T1) as [Gb Nb].
  split; [apply finite_good; exact Ga|]. split; [apply finite_good; exact Gb|]. pose proof u_pos as U.
  assert (D : forall v v' x, Rabs (v - v') <= 2 * u -> Rabs x <= S -> Rabs (v * x - v' * x) <= 2 * (u * S)).
  { intros v v' x V X. replace (v * x - v' * x) with ((v - v') * x) by ring. rewrite Rabs_mult. replace (2 * (u * S)) with (2 * u * S) by ring. apply Rmult_le_compat; try apply Rabs_pos; assumption. }
  pose proof (D _ _ _ Ec C0) as D1. pose proof (D _ _ _ Es C1) as D2. pose proof (D _ _ _ Es C0) as D3. pose proof (D _ _ _ Ec C1) as D4.
  rewrite Os in Na. apply Rabs_le_inv in Na, Nb, D1, D2, D3, D4. split; apply Rabs_le; lra.
Qed.
End Angles.

(** ** Correctly rounded functions *)
Definition rounded (F : R -> R) (x : double) : double :=
  SpecFloat.binary_normalize 53 1024
    (ZnearestE (scaled_mantissa radix2 (FLT_exp (-1074) 53) (F (real x)))) (cexp radix2 (FLT_exp (-1074) 53) (F (real x))) false.
Lemma rounded_ok (F : R -> R) : (forall x, Rabs (F x) <= 1) -> trig_ok (rounded F) F.
Proof.
  intros B x _ _. set (E := F (real x)). pose proof (B (real x)) as BE. fold E in BE. pose proof big_2 as B2. pose proof eta_u as Eu. pose proof u_pos as U.
  destruct (rnd_bound E 1 BE ltac:(lra)) as [L D].
  set (m := ZnearestE (scaled_mantissa radix2 (FLT_exp (-1074) 53) E)). set (e := cexp radix2 (FLT_exp (-1074) 53) E).
  assert (FE : F2R (Float radix2 m e) = rnd E) by reflexivity.
  assert (RR : rnd (rnd E) = rnd E) by (apply (rnd_id 53 1024); apply generic_format_round; auto with typeclass_instances).
  pose proof (normalize_round 53 1024 p53 p1024 m e false) as K. change (3 - 1024 - 53)%Z with (-1074)%Z in K.
  change (round radix2 (FLT_exp (-1074) 53) ZnearestE) with rnd in K. rewrite FE, RR in K. destruct (K L) as [V G].
  change (SpecFloat.binary_normalize 53 1024 m e false) with (rounded F x) in V, G. change (real (rounded F x) = rnd E) in V.
  split; [apply finite_good; exact G|]. rewrite V. split.
  - assert (R1 : rnd 1 = 1).
    { rewrite <- one_real. apply (rnd_id 53 1024). apply (good_format 53 1024 double_one). split; reflexivity. }
    apply Rabs_le_inv in BE. pose proof (rnd_mono 53 1024 p53 _ _ (proj2 BE)) as M1. pose proof (rnd_mono 53 1024 p53 _ _ (proj1 BE)) as M2.
    change (3 - 1024 - 53)%Z with (-1074)%Z in M1, M2. rewrite round_NE_opp in M2. rewrite R1 in M1, M2. apply Rabs_le. split; assumption.
  - change roundoff with u. fold E. lra.
Qed.

(** Rounding errors of the pose updates. *)
From Coq Require Import Reals Lra Lia List Floats.SpecFloat Machin QArith Qreals.
From Flocq Require Import Core BinarySingleNaN.
From Verif Require Import Base ResidualModel MatchModel RoundModel FloatModel RoundFacts FloatFacts ObjFloatModel ObjFloatSpec ObjFloatFacts
  HypotFloatFacts StepFloatModel StepFloatSpec.
Import ListNotations.
Close Scope Q_scope.
Open Scope R_scope.

#[local] Instance p53 : Prec_gt_0 53. Proof. reflexivity. Qed.
#[local] Instance p1024 : Prec_lt_emax 53 1024. Proof. reflexivity. Qed.

(** ** Comparing and clamping *)
Lemma ltb_real (x y : double) : good x -> good y -> SFltb x y = Rlt_bool (real x) (real y).
Proof.
  intros [Vx Fx] [Vy Fy].
  rewrite is_finite_good in Fx, Fy.
  pose proof (Bltb_correct 53 1024 (SF2B x Vx) (SF2B y Vy)) as K.
  rewrite !B2R_SF2B in K. unfold Bltb in K. rewrite !B2SF_SF2B in K. apply K; rewrite <- is_finite_SF_B2SF, B2SF_SF2B; assumption.
Qed.
Lemma opp_real (x : double) : good x -> real (SFopp x) = - real x /\ good (SFopp x).
Proof.
  intros [V F]. destruct x as [s|s| |s m e]; try discriminate; cbn [SFopp].
  - split; [cbn; lra|split; reflexivity].
  - split; [|split; assumption]. cbn [SF2R]. rewrite <- F2R_Zopp. destruct s; reflexivity.
Qed.
Lemma clamp_real (x lo hi : double) : good x -> good lo -> good hi -> real lo <= real hi ->
  good (double_clamp x lo hi) /\ real (double_clamp x lo hi) = cut (real lo) (real hi) (real x).
Proof.
  intros Gx Gl Gh L. unfold double_clamp, cut. rewrite !ltb_real by assumption.
  destruct (Rlt_bool_spec (real hi) (real x)) as [H|H].
  - split; [exact Gh|]. rewrite Rmin_left, Rmax_right by lra. reflexivity.
  - rewrite Rmin_right by exact H. destruct (Rlt_bool_spec (real x) (real lo)) as [K|K].
    + split; [exact Gl|]. rewrite Rmax_left by lra. reflexivity.
    + split; [exact Gx|]. rewrite Rmax_right by lra. reflexivity.
Qed.
Lemma cut_range (lo hi x : R) : lo <= hi -> lo <= cut lo hi x <= hi.
Proof. intros L. unfold cut. split; [apply Rmax_l|]. apply Rmax_lub; [exact L|apply Rmin_l]. Qed.
Lemma good_half : good double_half. Proof. split; reflexivity. Qed.
Lemma half_cut (d : double) : good d ->
  good (double_clamp d (SFopp double_half) double_half) /\ real (double_clamp d (SFopp double_half) double_half) = cut (- / 2) (/ 2) (real d).
Proof.
  intros G. destruct (opp_real _ good_half) as [E O]. pose proof half_real as H.
  destruct (clamp_real d _ _ G O good_half) as [A B]; [rewrite E, H; lra|]. split; [exact A|]. rewrite B, E, H. reflexivity.
Qed.

(** ** One product *)
Lemma zero_mul (y : double) : good y -> is_zero (double_mul double_zero y).
Proof. intros [_ F]. destruct y; try discriminate; eexists; reflexivity. Qed.
Lemma add_nothing (x z : double) : good x -> is_zero z -> good (double_add x z) /\ real (double_add x z) = real x.
Proof.
  intros [V F] [t ->]. unfold double_add, fadd. destruct x as [s|s| |s m e]; try discriminate; cbn [SFadd].
  - destruct (Bool.eqb s t); split; try reflexivity; split; reflexivity.
  - split; [split; assumption|reflexivity].
Qed.
Lemma sub_nothing (x z : double) : good x -> is_zero z -> good (double_sub x z) /\ real (double_sub x z) = real x.
Proof.
  intros [V F] [t ->]. unfold double_sub, fsub. destruct x as [s|s| |s m e]; try discriminate; cbn [SFsub].
  - destruct (Bool.eqb s (negb t)); split; try reflexivity; split; reflexivity.
  - split; [split; assumption|reflexivity].
Qed.
Lemma near_of (x y : double) (v e : R) : near x v e -> good y -> real y = real x -> near y v e.
Proof. intros [_ H] G E. split; [exact G|]. rewrite E. exact H. Qed.

Section Step.
Variables (s : double).
Hypothesis Gs : good s.
Hypothesis Hs : Rabs (real s) <= / 2.
Notation c := (sqrt (1 - real s * real s)).
Notation C := (SFsqrt 53 1024 (double_sub double_one (double_mul s s))).

Lemma u_small : u <= / 1024.
Proof. change (/ 1024) with (bpow radix2 (-10)). apply bpow_le. lia. Qed.
Lemma s_square : 0 <= real s * real s <= / 4.
Proof. apply Rabs_le_inv in Hs. split; nra. Qed.
Lemma c_range : 27 / 32 <= c <= 1.
Proof.
  pose proof s_square as Q. split.
  - replace (27 / 32) with (sqrt ((27 / 32) * (27 / 32))) by (apply sqrt_square; lra). apply sqrt_le_1; lra.
  - apply Rle_trans with (sqrt 1); [apply sqrt_le_1; lra|rewrite sqrt_1; lra].
Qed.
Lemma big_2 : 2 <= big. Proof. pose proof big_100. lra. Qed.
Lemma cosine_near : near C c (3 * u).
Proof.
  pose proof s_square as Q. pose proof c_range as R. pose proof u_pos as U. pose proof u_small as U1. pose proof eta_pos as E0. pose proof eta_u as Eu.
  pose proof big_2 as B.
  assert (M : near (double_mul s s) (real s * real s) (u * / 4 + eta)).
  { pose proof (near_mul s s _ _ 0 0 (/ 4) (near_exact s Gs) (near_exact s Gs)) as K.
    eapply near_weaken; [apply K; [rewrite (Rabs_pos_eq (real s * real s)) by lra; lra|lra]|lra]. }
  pose proof (near_exact _ good_one) as O. rewrite one_real in O.
  assert (D : near (double_sub double_one (double_mul s s)) (1 - real s * real s) (3 / 2 * u)).
  { eapply near_weaken; [apply (near_sub _ _ _ _ _ _ (17 / 16) O M); [rewrite (Rabs_pos_eq (1 - real s * real s)) by lra; lra|lra]|]. lra. }
  destruct D as [Gd Nd]. set (d := real (double_sub double_one (double_mul s s))) in *.
  assert (P : 0 <= d) by (apply Rabs_le_inv in Nd; lra).
  destruct (sqrt_round _ Gd P) as [V G]. fold d in V. split; [exact G|]. rewrite V.
  assert (S1 : Rabs (sqrt d - c) <= 9 / 5 * u).
  { eapply Rle_trans; [apply sqrt_diff; lra|]. apply Rmult_le_reg_r with c; [lra|]. unfold Rdiv at 1. rewrite Rmult_assoc, Rinv_l, Rmult_1_r by lra.
    eapply Rle_trans; [exact Nd|]. assert (9 / 5 * u * (27 / 32) <= 9 / 5 * u * c) by (apply Rmult_le_compat_l; lra). lra. }
  assert (S2 : Rabs (sqrt d) <= 101 / 100).
  { rewrite Rabs_pos_eq by apply sqrt_pos. apply Rabs_le_inv in S1. lra. }
  pose proof (rnd_bound _ _ S2 ltac:(lra)) as [_ K].
  replace (rnd (sqrt d) - c) with ((rnd (sqrt d) - sqrt d) + (sqrt d - c)) by ring. eapply Rle_trans; [apply Rabs_triang|]. lra.
Qed.

(** The two products that do not vanish. *)
Section Parts.
Variables (p q : double).
Hypothesis Gp : good p.
Hypothesis Gq : good q.
Hypothesis Hp : Rabs (real p) <= 9 / 8.
Hypothesis Hq : Rabs (real q) <= 9 / 8.
Lemma first_near : near (double_mul C p) (c * real p) (19 / 4 * u).
Proof.
  pose proof c_range as R. pose proof u_pos as U. pose proof u_small as U1. pose proof eta_u as Eu. pose proof big_2 as B. pose proof (Rabs_pos (real p)) as P0.
  assert (L : Rabs (c * real p) <= 9 / 8).
  { rewrite Rabs_mult, (Rabs_pos_eq c) by lra. rewrite <- (Rmult_1_l (9 / 8)). apply Rmult_le_compat; lra. }
  assert (L2 : Rabs (real p) * (3 * u) <= 9 / 8 * (3 * u)) by (apply Rmult_le_compat_r; lra).
  pose proof (near_mul _ _ _ _ _ _ (9 / 8 + / 64) cosine_near (near_exact p Gp)) as K.
  eapply near_weaken; [apply K; lra|]. lra.
Qed.
Lemma second_near : near (double_mul s q) (real s * real q) (5 / 8 * u).
Proof.
  pose proof u_pos as U. pose proof eta_u as Eu. pose proof big_2 as B. pose proof (Rabs_pos (real q)) as P0. pose proof (Rabs_pos (real s)) as P1.
  assert (L : Rabs (real s * real q) <= / 2 * (9 / 8)) by (rewrite Rabs_mult; apply Rmult_le_compat; lra).
  pose proof (near_mul _ _ _ _ _ _ (9 / 16) (near_exact s Gs) (near_exact q Gq)) as K.
  eapply near_weaken; [apply K; lra|]. lra.
Qed.
Lemma sizes : Rabs (c * real p) <= 9 / 8 /\ Rabs (real s * real q) <= 9 / 16.
Proof.
  pose proof c_range as R. pose proof (Rabs_pos (real q)) as P0. pose proof (Rabs_pos (real s)) as P1. pose proof (Rabs_pos (real p)) as P2. split.
  - rewrite Rabs_mult, (Rabs_pos_eq c) by lra. rewrite <- (Rmult_1_l (9 / 8)). apply Rmult_le_compat; lra.
  - rewrite Rabs_mult. replace (9 / 16) with (/ 2 * (9 / 8)) by lra. apply Rmult_le_compat; lra.
Qed.
(** ... and their sum or difference, where [x] is the first with zeros added. *)
Lemma plus_near (x : double) : good x -> real x = real (double_mul C p) -> near (double_add x (double_mul s q)) (c * real p + real s * real q) (8 * u).
Proof.
  intros G E. pose proof u_pos as U. pose proof u_small as U1. pose proof eta_u as Eu. pose proof big_2 as B. destruct sizes as [S1 S2].
  pose proof (near_of _ _ _ _ first_near G E) as F.
  eapply near_weaken; [apply (near_add _ _ _ _ _ _ (7 / 4) F second_near); [|lra]|lra].
  pose proof (Rabs_triang (c * real p) (real s * real q)). lra.
Qed.
Lemma minus_near (x : double) : good x -> real x = real (double_mul C p) -> near (double_sub x (double_mul s q)) (c * real p - real s * real q) (8 * u).
Proof.
  intros G E. pose proof u_pos as U. pose proof u_small as U1. pose proof eta_u as Eu. pose proof big_2 as B. destruct sizes as [S1 S2].
  pose proof (near_of _ _ _ _ first_near G E) as F.
  eapply near_weaken; [apply (near_sub _ _ _ _ _ _ (7 / 4) F second_near); [|lra]|lra].
  pose proof (Rabs_triang (c * real p) (- (real s * real q))) as T. rewrite Rabs_Ropp in T. change (c * real p + - (real s * real q)) with (c * real p - real s * real q) in T. lra.
Qed.
End Parts.
End Step.

(** ** Lengths and distances *)
Definition dot (p q : quat) : R := qw p * qw q + qx p * qx q + qy p * qy q + qz p * qz q.
Definition minus (p q : quat) : quat := {| qw := qw p - qw q; qx := qx p - qx q; qy := qy p - qy q; qz := qz p - qz q |}.
Definition plus (p q : quat) : quat := {| qw := qw p + qw q; qx := qx p + qx q; qy := qy p + qy q; qz := qz p + qz q |}.
Lemma dot_pos (p : quat) : 0 <= dot p p.
Proof. unfold dot. nra. Qed.
Lemma size_square (p : quat) : size p * size p = dot p p.
Proof. unfold size. apply sqrt_sqrt. apply dot_pos. Qed.
Lemma size_pos (p : quat) : 0 <= size p. Proof. apply sqrt_pos. Qed.
Lemma cauchy (p q : quat) : Rabs (dot p q) <= size p * size q.
Proof.
  rewrite <- (Rabs_pos_eq (size p * size q)) by (apply Rmult_le_pos; apply size_pos).
  apply Rsqr_le_abs_0. unfold Rsqr.
  replace (size p * size q * (size p * size q)) with (dot p p * dot q q) by (rewrite <- !size_square; ring).
  unfold dot. destruct p as [a b c d], q as [e f g h]. cbn [qw qx qy qz].
  pose proof (Rle_0_sqr (a * f - b * e)). pose proof (Rle_0_sqr (a * g - c * e)). pose proof (Rle_0_sqr (a * h - d * e)).
  pose proof (Rle_0_sqr (b * g - c * f)). pose proof (Rle_0_sqr (b * h - d * f)). pose proof (Rle_0_sqr (c * h - d * g)).
  unfold Rsqr in *. lra.
Qed.
Lemma size_plus (p q : quat) : size (plus p q) <= size p + size q.
Proof.
  apply Rsqr_incr_0_var; [|pose proof (size_pos p); pose proof (size_pos q); lra]. unfold Rsqr.
  rewrite size_square. replace (dot (plus p q) (plus p q)) with (dot p p + dot q q + 2 * dot p q) by (unfold dot, plus; cbn [qw qx qy qz]; ring).
  rewrite <- !size_square. pose proof (cauchy p q) as K. apply Rabs_le_inv in K. lra.
Qed.
Lemma apart_size (p q : quat) : apart p q = size (minus p q). Proof. reflexivity. Qed.
Lemma apart_triangle (p q r : quat) : apart p r <= apart p q + apart q r.
Proof.
  rewrite !apart_size. replace (minus p r) with (plus (minus p q) (minus q r)); [apply size_plus|].
  unfold plus, minus. cbn [qw qx qy qz]. f_equal; ring.
Qed.
Lemma quat_ext (a b c d a' b' c' d' : R) : a = a' -> b = b' -> c = c' -> d = d' ->
  {| qw := a; qx := b; qy := c; qz := d |} = {| qw := a'; qx := b'; qy := c'; qz := d' |}.
Proof. intros -> -> -> ->. reflexivity. Qed.
Lemma size_apart (p q : quat) : size p <= size q + apart p q.
Proof.
  rewrite apart_size. replace (size p) with (size (plus q (minus p q))); [apply size_plus|]. f_equal.
  destruct p as [a b c d], q as [a2 b2 c2 d2]. unfold plus, minus. cbn [qw qx qy qz]. apply quat_ext; ring.
Qed.
Lemma apart_sym (p q : quat) : apart p q = apart q p.
Proof. unfold apart, size. cbn [qw qx qy qz]. f_equal. ring. Qed.
Lemma apart_self (p : quat) : apart p p = 0.
Proof. unfold apart, size. cbn [qw qx qy qz]. rewrite <- sqrt_0. f_equal. ring. Qed.
Lemma turned_plus (t t' : R) (q : quat) : turned t (turned t' q) = turned (t' + t) q.
Proof.
  unfold turned. cbn [qw qx qy qz]. replace ((t' + t) / 2) with (t' / 2 + t / 2) by lra. rewrite cos_plus, sin_plus. f_equal; ring.
Qed.
Lemma turned_0 (q : quat) : turned 0 q = q.
Proof. unfold turned. replace (0 / 2) with 0 by lra. rewrite cos_0, sin_0. destruct q as [a b c d]. cbn [qw qx qy qz]. f_equal; ring. Qed.
Lemma turned_size (t : R) (q : quat) : size (turned t q) = size q.
Proof.
  unfold size, turned. cbn [qw qx qy qz]. f_equal. pose proof (sin2_cos2 (t / 2)) as K. unfold Rsqr in K.
  transitivity ((sin (t / 2) * sin (t / 2) + cos (t / 2) * cos (t / 2)) * (qw q * qw q + qx q * qx q + qy q * qy q + qz q * qz q)); [ring|rewrite K; ring].
Qed.
Lemma turned_minus (t : R) (p q : quat) : minus (turned t p) (turned t q) = turned t (minus p q).
Proof. unfold minus, turned. cbn [qw qx qy qz]. f_equal; ring. Qed.
Lemma turned_apart (t : R) (p q : quat) : apart (turned t p) (turned t q) = apart p q.
Proof. rewrite !apart_size, turned_minus, turned_size. reflexivity. Qed.
Lemma part_size (q : quat) : Rabs (qw q) <= size q /\ Rabs (qx q) <= size q /\ Rabs (qy q) <= size q /\ Rabs (qz q) <= size q.
Proof.
  assert (H : forall v, v * v <= dot q q -> Rabs v <= size q).
  { intros v L. rewrite <- (Rabs_pos_eq (size q)) by apply size_pos. apply Rsqr_le_abs_0. unfold Rsqr. rewrite size_square. exact L. }
  pose proof (Rle_0_sqr (qw q)). pose proof (Rle_0_sqr (qx q)). pose proof (Rle_0_sqr (qy q)). pose proof (Rle_0_sqr (qz q)). unfold Rsqr in *.
  repeat split; apply H; unfold dot; lra.
Qed.
Lemma apart_parts (p q : quat) (e : R) : Rabs (qw p - qw q) <= e -> Rabs (qx p - qx q) <= e -> Rabs (qy p - qy q) <= e -> Rabs (qz p - qz q) <= e ->
  apart p q <= 2 * e.
Proof.
  intros W X Y Z. pose proof (Rabs_pos (qw p - qw q)) as P. unfold apart, size. cbn [qw qx qy qz].
  apply Rle_trans with (sqrt ((2 * e) * (2 * e))); [|rewrite sqrt_square; lra]. 
  assert (S : forall v, Rabs v <= e -> v * v <= e * e) by (intros v L; apply Rabs_le_inv in L; nra).
  apply S in W, X, Y, Z. apply sqrt_le_1_alt. lra.
Qed.

(** ** Steps *)
Lemma finite_quat_good (q : dquat) : finite_quat q <-> good (dqw q) /\ good (dqx q) /\ good (dqy q) /\ good (dqz q).
Proof. unfold finite_quat. rewrite !finite_good. reflexivity. Qed.
Lemma step_near (q : dquat) (d : double) : finite_quat q -> finite_double d -> size (value q) <= 9 / 8 ->
  finite_quat (double_yaw_plus q d) /\ apart (value (double_yaw_plus q d)) (turned (step_angle d) (value q)) <= 16 * u.
Proof.
  intros F D B. apply finite_quat_good in F. destruct F as [Gw [Gx [Gy Gz]]]. apply finite_good in D.
  destruct (part_size (value q)) as [Bw [Bx [By Bz]]]. cbn [value qw qx qy qz] in Bw, Bx, By, Bz.
  destruct (half_cut d D) as [Gs Es]. set (s := double_clamp d (SFopp double_half) double_half) in *.
  pose proof (cut_range (- / 2) (/ 2) (real d) ltac:(lra)) as Rs. rewrite <- Es in Rs.
  assert (Hs : Rabs (real s) <= / 2) by (apply Rabs_le; lra).
  set (C := SFsqrt 53 1024 (double_sub double_one (double_mul s s))).
  pose proof (cosine_near s Gs Hs) as NC. destruct NC as [GC _]. fold C in GC.
  assert (T : turned (step_angle d) (value q) =
    {| qw := sqrt (1 - real s * real s) * real (dqw q) - real s * real (dqz q); qx := sqrt (1 - real s * real s) * real (dqx q) - real s * real (dqy q);
       qy := sqrt (1 - real s * real s) * real (dqy q) + real s * real (dqx q); qz := sqrt (1 - real s * real s) * real (dqz q) + real s * real (dqw q) |}).
  { unfold turned, step_angle. rewrite <- Es. replace (2 * asin (real s) / 2) with (asin (real s)) by lra.
    rewrite sin_asin, cos_asin by lra. unfold Rsqr. reflexivity. }
  assert (GM : forall p, good p -> Rabs (real p) <= 9 / 8 -> good (double_mul C p)).
  { intros p Gp Hp. exact (proj1 (first_near s Gs Hs p Gp Hp)). }
  assert (Nw : near (dqw (double_yaw_plus q d)) (sqrt (1 - real s * real s) * real (dqw q) - real s * real (dqz q)) (8 * u)).
  { pose proof (GM _ Gw ltac:(lra)) as G. destruct (sub_nothing _ _ G (zero_mul _ Gx)) as [G1 E1]. destruct (sub_nothing _ _ G1 (zero_mul _ Gy)) as [G2 E2].
    apply (minus_near s Gs Hs (dqw q) (dqz q) Gw Gz ltac:(lra) ltac:(lra)); [exact G2|]. exact (eq_trans E2 E1). }
  assert (Nx : near (dqx (double_yaw_plus q d)) (sqrt (1 - real s * real s) * real (dqx q) - real s * real (dqy q)) (8 * u)).
  { pose proof (GM _ Gx ltac:(lra)) as G. destruct (add_nothing _ _ G (zero_mul _ Gw)) as [G1 E1]. destruct (add_nothing _ _ G1 (zero_mul _ Gz)) as [G2 E2].
    apply (minus_near s Gs Hs (dqx q) (dqy q) Gx Gy ltac:(lra) ltac:(lra)); [exact G2|]. exact (eq_trans E2 E1). }
  assert (Ny : near (dqy (double_yaw_plus q d)) (sqrt (1 - real s * real s) * real (dqy q) + real s * real (dqx q)) (8 * u)).
  { pose proof (GM _ Gy ltac:(lra)) as G. destruct (sub_nothing _ _ G (zero_mul _ Gz)) as [G1 E1]. destruct (add_nothing _ _ G1 (zero_mul _ Gw)) as [G2 E2].
    apply (plus_near s Gs Hs (dqy q) (dqx q) Gy Gx ltac:(lra) ltac:(lra)); [exact G2|]. exact (eq_trans E2 E1). }
  assert (Nz : near (dqz (double_yaw_plus q d)) (sqrt (1 - real s * real s) * real (dqz q) + real s * real (dqw q)) (8 * u)).
  { pose proof (GM _ Gz ltac:(lra)) as G. destruct (add_nothing _ _ G (zero_mul _ Gy)) as [G1 E1]. destruct (sub_nothing _ _ G1 (zero_mul _ Gx)) as [G2 E2].
    apply (plus_near s Gs Hs (dqz q) (dqw q) Gz Gw ltac:(lra) ltac:(lra)); [exact G2|]. exact (eq_trans E2 E1). }
  destruct Nw as [Hw Nw], Nx as [Hx Nx], Ny as [Hy Ny], Nz as [Hz Nz]. split; [apply finite_quat_good; auto|].
  rewrite T. replace (16 * u) with (2 * (8 * u)) by ring. apply apart_parts; assumption.
Qed.

Lemma total_snoc (l : list double) (d : double) : total_angle (l ++ [d]) = total_angle l + step_angle d.
Proof. induction l as [|e l IH]; cbn [total_angle fold_right app]; [cbn; lra|]. unfold total_angle in IH. rewrite IH. lra. Qed.
Lemma count_u (n : nat) : (Z.of_nat n <= 2 ^ 45)%Z -> 16 * INR n * u <= / 16.
Proof.
  intros H. apply IZR_le in H. rewrite <- INR_IZR_INZ in H. change (2 ^ 45)%Z with (Zpower radix2 45) in H. rewrite IZR_Zpower in H by lia.
  apply Rle_trans with (16 * bpow radix2 45 * u); [apply Rmult_le_compat_r; [apply bpow_ge_0|lra]|].
  change 16 with (bpow radix2 4) at 1. rewrite <- !bpow_plus. change (/ 16) with (bpow radix2 (-4)). apply bpow_le. lia.
Qed.
Lemma steps_near (q : dquat) (l : list double) : finite_quat q -> size (value q) <= 17 / 16 -> Forall finite_double l ->
  (Z.of_nat (length l) <= 2 ^ 45)%Z ->
  finite_quat (fold_left double_yaw_plus l q) /\
  apart (value (fold_left double_yaw_plus l q)) (turned (total_angle l) (value q)) <= 16 * INR (length l) * u /\
  size (value (fold_left double_yaw_plus l q)) <= 9 / 8.
Proof.
  intros F S. induction l as [|d l IH] using rev_ind; intros A N.
  - cbn [fold_left length total_angle fold_right]. rewrite turned_0, apart_self. cbn [INR]. split; [exact F|]. split; lra.
  - apply Forall_app in A. destruct A as [A D]. inversion_clear D as [|? ? D' _]. rewrite app_length in *. cbn [length] in *.
    destruct IH as [F' [H' B']]; [exact A|lia|]. rewrite fold_left_app. cbn [fold_left]. set (r := fold_left double_yaw_plus l q) in *.
    destruct (step_near r d F' D' B') as [F2 H2]. split; [exact F2|].
    assert (K : apart (value (double_yaw_plus r d)) (turned (total_angle (l ++ [d])) (value q)) <= 16 * INR (length l + 1) * u).
    { rewrite total_snoc, <- turned_plus. eapply Rle_trans; [apply (apart_triangle _ (turned (step_angle d) (value r)))|].
      rewrite turned_apart. rewrite plus_INR. cbn [INR]. lra. }
    split; [exact K|]. eapply Rle_trans; [apply (size_apart _ (turned (total_angle (l ++ [d])) (value q)))|].
    rewrite turned_size. pose proof (count_u _ N). lra.
Qed.

(** ** Roll and pitch *)
Definition flip1 (q : quat) : quat := {| qw := - qy q; qx := qz q; qy := - qw q; qz := qx q |}.
Definition flip2 (q : quat) : quat := {| qw := qx q; qx := qw q; qy := qz q; qz := qy q |}.
Definition flip3 (q : quat) : quat := {| qw := qw q; qx := - qx q; qy := - qy q; qz := qz q |}.
Lemma flips (q : quat) : size (flip1 q) = size q /\ size (flip2 q) = size q /\ size (flip3 q) = size q.
Proof. unfold size, flip1, flip2, flip3. cbn [qw qx qy qz]. repeat split; f_equal; ring. Qed.
Lemma vertical_near (p q : quat) (i : nat) : Rabs (nth i (vertical p) 0 - nth i (vertical q) 0) <= apart p q * (size p + size q).
Proof.
  assert (P : 0 <= apart p q * (size p + size q)).
  { apply Rmult_le_pos; [apply size_pos|]. pose proof (size_pos p). pose proof (size_pos q). lra. }
  assert (K : forall f, size (f (plus p q)) = size (plus p q) -> Rabs (dot (minus p q) (f (plus p q))) <= apart p q * (size p + size q)).
  { intros f E. eapply Rle_trans; [apply cauchy|]. rewrite E, apart_size. apply Rmult_le_compat_l; [apply size_pos|apply size_plus]. }
  destruct (flips (plus p q)) as [E1 [E2 E3]]. destruct i as [|[|[|i]]]; cbn [nth vertical].
  - eapply Rle_trans; [|exact (K flip1 E1)]. apply Req_le. f_equal. unfold dot, minus, plus, flip1. cbn [qw qx qy qz]. ring.
  - eapply Rle_trans; [|exact (K flip2 E2)]. apply Req_le. f_equal. unfold dot, minus, plus, flip2. cbn [qw qx qy qz]. ring.
  - eapply Rle_trans; [|exact (K flip3 E3)]. apply Req_le. f_equal. unfold dot, minus, plus, flip3. cbn [qw qx qy qz]. ring.
  - destruct i; rewrite Rminus_0_r, Rabs_R0; exact P.
Qed.
Lemma vertical_turned (t : R) (q : quat) : vertical (turned t q) = vertical q.
Proof.
  unfold vertical, turned. cbn [qw qx qy qz]. pose proof (sin2_cos2 (t / 2)) as K. unfold Rsqr in K.
  set (S := sin (t / 2)) in *. set (C := cos (t / 2)) in *. f_equal; [|f_equal; [|f_equal]].
  - transitivity (2 * ((S * S + C * C) * (qx q * qz q - qw q * qy q))); [ring|rewrite K; ring].
  - transitivity (2 * ((S * S + C * C) * (qy q * qz q + qw q * qx q))); [ring|rewrite K; ring].
  - transitivity ((S * S + C * C) * (qw q * qw q + qz q * qz q - qx q * qx q - qy q * qy q)); [ring|rewrite K; ring].
Qed.
Lemma steps_vertical (q : dquat) (l : list double) (i : nat) : finite_quat q -> size (value q) <= 17 / 16 -> Forall finite_double l ->
  (Z.of_nat (length l) <= 2 ^ 45)%Z ->
  Rabs (nth i (vertical (value (fold_left double_yaw_plus l q))) 0 - nth i (vertical (value q)) 0) <= 36 * INR (length l) * u.
Proof.
  intros F S A N. destruct (steps_near q l F S A N) as [_ [H B]]. rewrite <- (vertical_turned (total_angle l) (value q)).
  eapply Rle_trans; [apply vertical_near|]. rewrite turned_size.
  assert (U : 0 <= 16 * INR (length l) * u) by (pose proof u_pos; pose proof (pos_INR (length l)); apply Rmult_le_pos; lra).
  replace (36 * INR (length l) * u) with ((16 * INR (length l) * u) * (9 / 4)) by lra. apply Rmult_le_compat; [apply size_pos| |exact H|lra].
  pose proof (size_pos (value (fold_left double_yaw_plus l q))). pose proof (size_pos (value q)). lra.
Qed.
Lemma steps_size (q : dquat) (l : list double) : finite_quat q -> size (value q) <= 17 / 16 -> Forall finite_double l ->
  (Z.of_nat (length l) <= 2 ^ 45)%Z -> Rabs (size (value (fold_left double_yaw_plus l q)) - size (value q)) <= 16 * INR (length l) * u.
Proof.
  intros F S A N. destruct (steps_near q l F S A N) as [_ [H _]].
  set (r := value (fold_left double_yaw_plus l q)) in *. set (t := turned (total_angle l) (value q)) in *.
  pose proof (size_apart r t) as K1. pose proof (size_apart t r) as K2. rewrite apart_sym in K2.
  replace (size t) with (size (value q)) in * by (unfold t; rewrite turned_size; reflexivity). apply Rabs_le. lra.
Qed.

(** ** Upright poses *)
Lemma zero_good (x : double) : is_zero x -> good x /\ real x = 0.
Proof. intros [s ->]. split; [split; reflexivity|reflexivity]. Qed.
Lemma step_upright (q : dquat) (d : double) : finite_quat q -> finite_double d -> is_zero (dqx q) -> is_zero (dqy q) ->
  is_zero (dqx (double_yaw_plus q d)) /\ is_zero (dqy (double_yaw_plus q d)).
Proof.
  intros F D X Y. apply finite_quat_good in F. destruct F as [Gw [Gx [Gy Gz]]]. apply finite_good in D.
  destruct (half_cut d D) as [Gs Es]. set (s := double_clamp d (SFopp double_half) double_half) in *.
  pose proof (cut_range (- / 2) (/ 2) (real d) ltac:(lra)) as Rs. rewrite <- Es in Rs.
  assert (Hs : Rabs (real s) <= / 2) by (apply Rabs_le; lra).
  destruct (cosine_near s Gs Hs) as [GC _]. unfold double_yaw_plus. fold s. cbn [double_product dqx dqy dqw dqz]. split.
  - repeat apply sub_zero || apply add_zero; try (apply zero_mul; assumption); apply mul_zero; assumption.
  - repeat first [apply sub_zero | apply add_zero]; try (apply zero_mul; assumption); apply mul_zero; assumption.
Qed.
Lemma steps_upright (q : dquat) (l : list double) : finite_quat q -> size (value q) <= 17 / 16 -> Forall finite_double l ->
  (Z.of_nat (length l) <= 2 ^ 45)%Z -> is_zero (dqx q) -> is_zero (dqy q) ->
  is_zero (dqx (fold_left double_yaw_plus l q)) /\ is_zero (dqy (fold_left double_yaw_plus l q)).
Proof.
  intros F S A N X Y. induction l as [|d l IH] using rev_ind; [split; assumption|].
  apply Forall_app in A. destruct A as [A D]. inversion_clear D as [|? ? D' _]. rewrite app_length in *. cbn [length] in *.
  destruct IH as [X' Y']; [exact A|lia|]. rewrite fold_left_app. cbn [fold_left].
  destruct (steps_near q l F S A ltac:(lia)) as [F' _]. apply step_upright; assumption.
Qed.

(** ** Increments that are not finite *)
Lemma infinite_step (q : dquat) (s : bool) : double_yaw_plus q (S754_infinity s) = double_yaw_plus q (if s then SFopp double_half else double_half).
Proof. destruct s; reflexivity. Qed.
Definition nan_quat : dquat := {| dqw := S754_nan; dqx := S754_nan; dqy := S754_nan; dqz := S754_nan |}.
Lemma nan_step (q : dquat) : double_yaw_plus q S754_nan = nan_quat.
Proof. reflexivity. Qed.
(** ** The constant [M_PI] *)
Definition qterm (n : nat) : Q := ((inject_Z 2 * (1 # (3 ^ Pos.of_succ_nat (2 * n))) + (1 # (7 ^ Pos.of_succ_nat (2 * n)))) * (1 # Pos.of_succ_nat (2 * n)))%Q.
Fixpoint qsum (n : nat) : Q :=
  match n with O => qterm 0 | S k => if Nat.even n then (qsum k + qterm n)%Q else (qsum k - qterm n)%Q end.
Lemma q_inv (p : positive) : Q2R (1 # p) = / IZR (Zpos p).
Proof. unfold Q2R. cbn [Qnum Qden]. apply Rmult_1_l. Qed.
Lemma pow_inv_pos (b : positive) (n : nat) : (/ IZR (Zpos b)) ^ (S n) = / IZR (Zpos (b ^ Pos.of_succ_nat n)).
Proof.
  rewrite pow_inv. f_equal. rewrite Pos2Z.inj_pow, pow_IZR. reflexivity.
Qed.
Lemma qterm_real (n : nat) : Q2R (qterm n) = PI_2_3_7_tg n.
Proof.
  unfold qterm, PI_2_3_7_tg, Ratan_seq. rewrite Q2R_mult, Q2R_plus, Q2R_mult, !q_inv.
  replace (2 * n + 1)%nat with (S (2 * n)) by lia. unfold Rdiv. 
  change (/ 3) with (/ IZR (Zpos 3)). change (/ 7) with (/ IZR (Zpos 7)). rewrite !pow_inv_pos.
  replace (INR (S (2 * n))) with (IZR (Zpos (Pos.of_succ_nat (2 * n)))) by (rewrite INR_IZR_INZ; f_equal; lia).
  replace (Q2R (inject_Z 2)) with 2 by (unfold Q2R; cbn; field). ring.
Qed.
Lemma sign_even (n : nat) : (-1) ^ n = if Nat.even n then 1 else -1.
Proof. induction n as [|n IH]; [reflexivity|]. cbn [pow]. rewrite IH, Nat.even_succ, <- Nat.negb_even. destruct (Nat.even n); cbn [negb]; ring. Qed.
Lemma qsum_real (n : nat) : Q2R (qsum n) = sum_f_R0 (tg_alt PI_2_3_7_tg) n.
Proof.
  induction n as [|n IH].
  - cbn [qsum sum_f_R0]. rewrite qterm_real. unfold tg_alt. cbn [pow]. ring.
  - change (sum_f_R0 (tg_alt PI_2_3_7_tg) (S n)) with (sum_f_R0 (tg_alt PI_2_3_7_tg) n + tg_alt PI_2_3_7_tg (S n)).
    rewrite <- IH. unfold tg_alt. rewrite sign_even, <- qterm_real. change (qsum (S n)) with (if Nat.even (S n) then (qsum n + qterm (S n))%Q else (qsum n - qterm (S n))%Q).
    destruct (Nat.even (S n)); [rewrite Q2R_plus|rewrite Q2R_minus]; ring.
Qed.
Lemma pi_real : real double_pi = Q2R (7074237752028440 # 2251799813685248).
Proof. unfold double_pi, Q2R. cbn [SF2R Qnum Qden]. unfold F2R. cbn [Fnum Fexp cond_Zopp]. reflexivity. Qed.
Lemma pi_near : real double_pi < PI < real double_pi + 2 * u.
Proof.
  pose proof (PI_2_3_7_ineq 9) as [L H]. rewrite <- qsum_real in L, H.
  assert (A : Q2R (7074237752028440 # 2251799813685248) < Q2R (4 * qsum (S (2 * 9)))%Q) by (apply Qlt_Rlt; vm_compute; reflexivity).
  assert (B : Q2R (4 * qsum (2 * 9))%Q < Q2R ((7074237752028440 # 2251799813685248) + (1 # 4503599627370496))%Q) by (apply Qlt_Rlt; vm_compute; reflexivity).
  rewrite Q2R_mult in A, B. rewrite Q2R_plus, q_inv in B. rewrite pi_real.
  assert (F : Q2R 4 = 4) by (unfold Q2R; cbn; field). rewrite F in A, B.
  assert (U : 2 * u = / 4503599627370496) by (change u with (/ 9007199254740992); lra). rewrite U. split; lra.
Qed.

(** ** Euler angles *)
Lemma add_any (x y : double) : good x -> good y ->
  (good (double_add x y) /\ real (double_add x y) = rnd (real x + real y)) \/
  (exists s, double_add x y = S754_infinity s /\ if s then real x + real y <= - bpow radix2 1000 else bpow radix2 1000 <= real x + real y).
Proof.
  intros Gx Gy. destruct (Rlt_or_le (Rabs (rnd (real x + real y))) (bpow radix2 1024)) as [H|H].
  - left. destruct (fadd_round 53 1024 _ _ x y Gx Gy H) as [V G]. split; [exact G|exact V].
  - right.
    assert (A : bpow radix2 1000 <= Rabs (real x + real y)).
    { destruct (Rle_or_lt (bpow radix2 1000) (Rabs (real x + real y))) as [K|K]; [exact K|exfalso].
      destruct (rnd_bound (real x + real y) (bpow radix2 1000) (Rlt_le _ _ K) (Rle_refl _)) as [L _]. lra. }
    pose proof Gx as [Vx Fx]. pose proof Gy as [Vy Fy].
    pose proof (Bplus_correct 53 1024 _ _ mode_NE (SF2B x Vx) (SF2B y Vy)) as K.
    rewrite !B2R_SF2B in K. unfold round_mode in K. rewrite Rlt_bool_false in K by exact H.
    destruct K as [K S]; [rewrite <- is_finite_SF_B2SF, B2SF_SF2B, <- is_finite_good; assumption..|].
    rewrite !Bsign_SF2B in S. rewrite Bsign_SF2B in K.
    assert (E : B2SF (Bplus mode_NE (SF2B x Vx) (SF2B y Vy)) = double_add x y).
    { clear K. unfold double_add, fadd. destruct x as [sx|sx| |sx mx ex]; destruct y as [sy|sy| |sy my ey]; try reflexivity; try discriminate.
      - cbn [SF2B Bplus SFadd]. destruct (Bool.eqb sx sy); reflexivity.
      - cbn [SF2B Bplus SFadd]. unfold Fplus_naive. symmetry. apply normalize_equiv. }
    exists (sign_SF x). rewrite <- E, K. split; [reflexivity|].
    assert (P : forall z : double, good z -> if sign_SF z then real z <= 0 else 0 <= real z).
    { intros [b|b| |b m e] [_ F]; try discriminate; cbn [sign_SF SF2R]; [destruct b; lra|].
      destruct b; [apply F2R_le_0|apply F2R_ge_0]; cbn; lia. }
    pose proof (P x Gx) as Px. pose proof (P y Gy) as Py. rewrite <- S in Py. destruct (sign_SF x).
    + rewrite Rabs_left1 in A by lra. lra.
    + rewrite Rabs_pos_eq in A by lra. lra.
Qed.
Lemma good_pi : good double_pi. Proof. split; reflexivity. Qed.
Lemma pi_range : 3 < real double_pi < 4.
Proof. rewrite pi_real. unfold Q2R. cbn [Qnum Qden]. split; lra. Qed.
Lemma pi_format : rnd (real double_pi) = real double_pi.
Proof. apply (rnd_id 53 1024). apply (good_format 53 1024). exact good_pi. Qed.
Lemma cut_bounds (a b x : R) : 0 <= a -> a <= b -> Rabs (cut (- a) a x - cut (- b) b x) <= b - a.
Proof.
  intros A B. unfold cut, Rmax, Rmin. destruct (Rle_dec a x), (Rle_dec b x);
  repeat match goal with |- context [Rle_dec ?p ?q] => destruct (Rle_dec p q) end; apply Rabs_le; lra.
Qed.
Lemma angle_near (x d : double) : good x -> good d ->
  let r := double_clamp (double_add x d) (SFopp double_pi) double_pi in
  good r /\ - PI < real r < PI /\ Rabs (real r - cut (- PI) PI (real x + real d)) <= 7 * u.
Proof.
  intros Gx Gd. cbv zeta. pose proof pi_near as N. pose proof pi_range as W. pose proof u_pos as U. pose proof eta_u as Eu.
  destruct (opp_real _ good_pi) as [Eo Go]. set (p := real double_pi) in *. set (v := real x + real d).
  assert (Big : 4 <= bpow radix2 1000) by (change 4 with (bpow radix2 2); apply bpow_le; lia).
  assert (K : good (double_clamp (double_add x d) (SFopp double_pi) double_pi) /\
    - p <= real (double_clamp (double_add x d) (SFopp double_pi) double_pi) <= p /\
    Rabs (real (double_clamp (double_add x d) (SFopp double_pi) double_pi) - cut (- p) p v) <= 4 * u + eta).
  { destruct (add_any x d Gx Gd) as [[G E]|[s [-> L]]].
    - destruct (clamp_real _ _ _ G Go good_pi) as [G' E']; [rewrite Eo; fold p; lra|]. split; [exact G'|]. rewrite E', Eo, E. fold p v.
      split; [apply cut_range; lra|].
      assert (P1 : rnd p = p) by apply pi_format.
      assert (P2 : rnd (- p) = - p) by (rewrite round_NE_opp, P1; reflexivity).
      destruct (Rle_or_lt v p) as [V1|V1].
      + destruct (Rle_or_lt (- p) v) as [V2|V2].
        * assert (M1 : rnd v <= p) by (rewrite <- P1; apply (rnd_mono 53 1024 _); exact V1).
          assert (M2 : - p <= rnd v) by (rewrite <- P2; apply (rnd_mono 53 1024 _); exact V2).
          unfold cut. rewrite !Rmin_right, !Rmax_right by lra.
          assert (V : Rabs v <= 4) by (apply Rabs_le; lra).
          destruct (rnd_bound v 4 V Big) as [_ K]. lra.
        * assert (M2 : rnd v <= - p) by (rewrite <- P2; apply (rnd_mono 53 1024 _); lra).
          unfold cut. rewrite !Rmin_right, !Rmax_left by lra. rewrite Rminus_diag_eq, Rabs_R0 by reflexivity. pose proof eta_pos. lra.
      + assert (M1 : p <= rnd v) by (rewrite <- P1 at 1; apply (rnd_mono 53 1024 _); lra).
        unfold cut. rewrite !Rmin_left, !Rmax_right by lra. rewrite Rminus_diag_eq, Rabs_R0 by reflexivity. pose proof eta_pos. lra.
    - pose proof eta_pos as E0. fold v in L. destruct s.
      + change (double_clamp (S754_infinity true) (SFopp double_pi) double_pi) with (SFopp double_pi). split; [exact Go|]. rewrite Eo. split; [lra|].
        unfold cut. rewrite Rmin_right, Rmax_left by lra. rewrite Rminus_diag_eq, Rabs_R0 by reflexivity. lra.
      + change (double_clamp (S754_infinity false) (SFopp double_pi) double_pi) with double_pi. split; [exact good_pi|]. fold p. split; [lra|].
        unfold cut. rewrite Rmin_left, Rmax_right by lra. rewrite Rminus_diag_eq, Rabs_R0 by reflexivity. lra. }
  destruct K as [G [R E]]. split; [exact G|]. split; [lra|].
  pose proof (cut_bounds p PI v ltac:(lra) ltac:(lra)) as C.
  set (r := real (double_clamp _ _ _)) in *.
  replace (r - cut (- PI) PI v) with ((r - cut (- p) p v) + (cut (- p) p v - cut (- PI) PI v)) by ring.
  eapply Rle_trans; [apply Rabs_triang|]. lra.
Qed.

(** ** NaN *)
Lemma nan_mul (x : double) : double_mul x S754_nan = S754_nan.
Proof. destruct x; reflexivity. Qed.
Lemma nan_stays (d : double) : double_yaw_plus nan_quat d = nan_quat.
Proof. unfold double_yaw_plus, double_product, nan_quat. cbn [dqw dqx dqy dqz]. rewrite !nan_mul. reflexivity. Qed.
Lemma nan_steps (q : dquat) (l : list double) : In S754_nan l -> fold_left double_yaw_plus l q = nan_quat.
Proof.
  assert (K : forall l, fold_left double_yaw_plus l nan_quat = nan_quat).
  { clear. induction l as [|d l IH]; [reflexivity|]. cbn [fold_left]. rewrite nan_stays. exact IH. }
  revert q. induction l as [|d l IH]; intros q H; [contradiction|]. cbn [fold_left]. destruct H as [->|H]; [|apply IH; exact H].
  rewrite nan_step. apply K.
Qed.

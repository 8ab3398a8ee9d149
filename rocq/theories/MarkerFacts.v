From Coq Require Import Reals List Lra Lia Nsatz.
From Verif Require Import MatchModel MatchSpec MatchFacts MarkerModel MarkerSpec.
Open Scope R_scope.

(** ** The quaternion of a rotation matrix *)
Section Rotation.
(** Rows a b c, d e f, g h i. *)
Variables a b c d e f g h i : R.
Hypothesis H00 : a*a+d*d+g*g=1.
Hypothesis H11 : b*b+e*e+h*h=1.
Hypothesis H22 : c*c+f*f+i*i=1.
Hypothesis H01 : a*b+d*e+g*h=0.
Hypothesis H02 : a*c+d*f+g*i=0.
Hypothesis H12 : b*c+e*f+h*i=0.
Hypothesis HD : a*(e*i-f*h) - b*(d*i-f*g) + c*(d*h-e*g) = 1.

(** The matrix 4 q q^T in the order w x y z has rank one. *)
Let a0 := 1+a+e+i. Let a1 := 1+a-e-i. Let a2 := 1-a+e-i. Let a3 := 1-a-e+i.
Let b01 := h-f. Let b02 := c-g. Let b03 := d-b. Let b12 := d+b. Let b13 := g+c. Let b23 := h+f.

Lemma rank_one :
  (b01*b01 = a0*a1 /\ b02*b02 = a0*a2 /\ b03*b03 = a0*a3 /\ b12*b12 = a1*a2 /\ b13*b13 = a1*a3 /\ b23*b23 = a2*a3) /\
  (b01*b02 = a0*b12 /\ b01*b03 = a0*b13 /\ b02*b03 = a0*b23) /\
  (b01*b12 = a1*b02 /\ b01*b13 = a1*b03 /\ b12*b13 = a1*b23) /\
  (b02*b12 = a2*b01 /\ b02*b23 = a2*b03 /\ b12*b23 = a2*b13) /\
  (b03*b13 = a3*b01 /\ b03*b23 = a3*b02 /\ b13*b23 = a3*b12).
Proof. unfold a0, a1, a2, a3, b01, b02, b03, b12, b13, b23. repeat split; nsatz. Qed.
End Rotation.

(** Quaternion with [4 q q^T] given. *)
Lemma four_products (w x y z a e i : R) (b c d f g h : R) :
  4*w*w = 1+a+e+i -> 4*x*x = 1+a-e-i -> 4*y*y = 1-a+e-i -> 4*z*z = 1-a-e+i ->
  4*w*x = h-f -> 4*w*y = c-g -> 4*w*z = d-b -> 4*x*y = d+b -> 4*x*z = g+c -> 4*y*z = h+f ->
  unit_quat {| qw := w; qx := x; qy := y; qz := z |} /\
  forall v0 v1 v2, rotate {| qw := w; qx := x; qy := y; qz := z |} (v0, v1, v2) =
    (a*v0+b*v1+c*v2, d*v0+e*v1+f*v2, g*v0+h*v1+i*v2).
Proof.
  intros. unfold unit_quat, rotate. cbn [qw qx qy qz]. split; [lra|]. intros v0 v1 v2.
  f_equal; [f_equal|]; (f_equal; [f_equal|]); f_equal; lra.
Qed.

(** From one row of [4 q q^T] with positive diagonal entry [p]: the products. *)
Lemma row_products (p : R) : 0 < p ->
  4 * (1/2 * sqrt p) * (1/2 * sqrt p) = p /\
  (forall q, 4 * (1/2 * sqrt p) * (q * ((1/2) / sqrt p)) = q) /\
  (forall q, 4 * (q * ((1/2) / sqrt p)) * (1/2 * sqrt p) = q) /\
  (forall q r s, q * r = p * s -> 4 * (q * ((1/2) / sqrt p)) * (r * ((1/2) / sqrt p)) = s).
Proof.
  intros Hp. pose proof (sqrt_lt_R0 p Hp) as Hs. pose proof (sqrt_sqrt p (Rlt_le _ _ Hp)) as Hq.
  split; [lra|]. split; [|split].
  - intros q'. field. lra.
  - intros q'. field. lra.
  - intros q' r' s E. replace (4 * (q' * (1 / 2 / sqrt p)) * (r' * (1 / 2 / sqrt p))) with (q' * r' / (sqrt p * sqrt p)) by (field; lra).
    rewrite Hq, E. field. lra.
Qed.

Ltac by_row p :=
  let R1 := fresh in let R2 := fresh in let R3 := fresh in let R4 := fresh in
  destruct (row_products p ltac:(lra)) as [R1 [R2 [R3 R4]]];
  apply four_products; first [rewrite R1; lra | rewrite R2; lra | rewrite R3; lra | apply R4; lra].

Lemma eigen_quaternion_spec (m : mat) : orthonormal m -> det m = 1 ->
  unit_quat (eigen_quaternion m) /\ forall v, rotate (eigen_quaternion m) v = apply m v.
Proof.
  intros HO HD. unfold det in HD.
  assert (H00 := HO 0%nat 0%nat ltac:(lia) ltac:(lia)). assert (H11 := HO 1%nat 1%nat ltac:(lia) ltac:(lia)).
  assert (H22 := HO 2%nat 2%nat ltac:(lia) ltac:(lia)). assert (H01 := HO 0%nat 1%nat ltac:(lia) ltac:(lia)).
  assert (H02 := HO 0%nat 2%nat ltac:(lia) ltac:(lia)). assert (H12 := HO 1%nat 2%nat ltac:(lia) ltac:(lia)).
  cbn [column dot Nat.eqb] in *. unfold eigen_quaternion, trace.
  set (a := m 0%nat 0%nat) in *. set (b := m 0%nat 1%nat) in *. set (c := m 0%nat 2%nat) in *.
  set (d := m 1%nat 0%nat) in *. set (e := m 1%nat 1%nat) in *. set (f := m 1%nat 2%nat) in *.
  set (g := m 2%nat 0%nat) in *. set (h := m 2%nat 1%nat) in *. set (i := m 2%nat 2%nat) in *.
  destruct (rank_one a b c d e f g h i H00 H11 H22 H01 H02 H12 HD) as
    [[S01 [S02 [S03 [S12 [S13 S23]]]]] [[P012 [P013 P023]] [[P112 [P113 P123]] [[P212 [P223 P213]] [P313 [P323 P312]]]]]].
  assert (A : forall q, unit_quat q /\ (forall v0 v1 v2, rotate q (v0, v1, v2) =
    (a*v0+b*v1+c*v2, d*v0+e*v1+f*v2, g*v0+h*v1+i*v2)) -> unit_quat q /\ forall v, rotate q v = apply m v).
  { intros q [U V]. split; [exact U|]. intros [[v0 v1] v2]. rewrite V. reflexivity. }
  destruct (Rlt_dec 0 (a + e + i)) as [Ht|Ht].
  - apply A. by_row (a + e + i + 1).
  - destruct (Rlt_dec a e) as [H1|H1]; cbv zeta.
    + fold e. destruct (Rlt_dec e i) as [H2|H2]; cbn -[Rmult Rplus Rminus Rdiv sqrt]; fold a b c d e f g h i; apply A.
      * by_row (i - a - e + 1).
      * by_row (e - i - a + 1).
    + fold a. destruct (Rlt_dec a i) as [H2|H2]; cbn -[Rmult Rplus Rminus Rdiv sqrt]; fold a b c d e f g h i; apply A.
      * by_row (i - a - e + 1).
      * by_row (a - e - i + 1).
Qed.

(** ** Orthonormal matrices *)
Definition applyT (m : mat) (v : vec) : vec := (dot (column m 0) v, dot (column m 1) v, dot (column m 2) v).

Lemma orthonormal_eqs (m : mat) : orthonormal m ->
  dot (column m 0) (column m 0) = 1 /\ dot (column m 1) (column m 1) = 1 /\ dot (column m 2) (column m 2) = 1 /\
  dot (column m 0) (column m 1) = 0 /\ dot (column m 0) (column m 2) = 0 /\ dot (column m 1) (column m 2) = 0.
Proof.
  intros H. split; [apply (H 0 0)%nat; lia|]. split; [apply (H 1 1)%nat; lia|]. split; [apply (H 2 2)%nat; lia|].
  split; [apply (H 0 1)%nat; lia|]. split; [apply (H 0 2)%nat; lia|apply (H 1 2)%nat; lia].
Qed.

Lemma ortho_dot (m : mat) (u w : vec) : orthonormal m -> dot (apply m u) (apply m w) = dot u w.
Proof.
  intros H. apply orthonormal_eqs in H. destruct u as [[u0 u1] u2], w as [[w0 w1] w2].
  cbn [column dot apply] in *. destruct H as [H0 [H1 [H2 [H3 [H4 H5]]]]]. nsatz.
Qed.

Lemma ortho_inv (m : mat) (v : vec) : orthonormal m -> det m = 1 -> apply m (applyT m v) = v.
Proof.
  intros H HD. apply orthonormal_eqs in H. destruct v as [[x y] z]. unfold det in HD.
  cbn [column dot apply applyT] in *. destruct H as [H0 [H1 [H2 [H3 [H4 H5]]]]].
  set (a := m 0%nat 0%nat) in *. set (b := m 0%nat 1%nat) in *. set (c := m 0%nat 2%nat) in *.
  set (d := m 1%nat 0%nat) in *. set (e := m 1%nat 1%nat) in *. set (f := m 1%nat 2%nat) in *.
  set (g := m 2%nat 0%nat) in *. set (h := m 2%nat 1%nat) in *. set (i := m 2%nat 2%nat) in *.
  assert (Q : a*a+b*b+c*c = 1 /\ d*d+e*e+f*f = 1 /\ g*g+h*h+i*i=1 /\ a*d+b*e+c*f = 0 /\ a*g+b*h+c*i=0 /\ d*g+e*h+f*i=0).
  { repeat split; nsatz. }
  clearbody a b c d e f g h i. clear - Q. destruct Q as [Q0 [Q1 [Q2 [Q3 [Q4 Q5]]]]].
  f_equal; [f_equal|].
  - replace (a * (a * x + d * y + g * z) + b * (b * x + e * y + h * z) + c * (c * x + f * y + i * z))
      with ((a*a+b*b+c*c) * x + (a*d+b*e+c*f) * y + (a*g+b*h+c*i) * z) by ring. rewrite Q0, Q3, Q4. ring.
  - replace (d * (a * x + d * y + g * z) + e * (b * x + e * y + h * z) + f * (c * x + f * y + i * z))
      with ((a*d+b*e+c*f) * x + (d*d+e*e+f*f) * y + (d*g+e*h+f*i) * z) by ring. rewrite Q1, Q3, Q5. ring.
  - replace (g * (a * x + d * y + g * z) + h * (b * x + e * y + h * z) + i * (c * x + f * y + i * z))
      with ((a*g+b*h+c*i) * x + (d*g+e*h+f*i) * y + (g*g+h*h+i*i) * z) by ring. rewrite Q2, Q4, Q5. ring.
Qed.

Definition scaled (l : nat -> R) (v : vec) : vec := let '(x, y, z) := v in (l 0%nat * x, l 1%nat * y, l 2%nat * z).

Lemma eigen_apply (cov : mat) (eval : nat -> R) (evec : mat) (w : vec) :
  eigenpairs cov eval evec -> apply cov (apply evec w) = apply evec (scaled eval w).
Proof.
  intros [_ H]. pose proof (H 0%nat ltac:(lia)) as H0. pose proof (H 1%nat ltac:(lia)) as H1. pose proof (H 2%nat ltac:(lia)) as H2.
  clear H. destruct w as [[x y] z]. cbn [column apply scaled] in *.
  injection H0 as A0 A1 A2. injection H1 as B0 B1 B2. injection H2 as C0 C1 C2.
  f_equal; [f_equal|]; nsatz.
Qed.

Lemma axis_scale_sqrt (l : R) : 1 / 400000000 <= l -> axis_scale l / 2 = sqrt l.
Proof.
  intros H. unfold axis_scale. assert (1 / 20000 <= sqrt l).
  { replace (1 / 20000) with (sqrt (1 / 400000000)); [apply sqrt_le_1_alt; exact H|].
    replace (1 / 400000000) with ((1 / 20000) * (1 / 20000)) by lra. apply sqrt_square. lra. }
  rewrite Rmax_right by lra. lra.
Qed.

Lemma drawn_3d (rotation : quat) (p : vec) (cov : mat) (eval : nat -> R) (evec : mat) :
  unit_quat rotation -> eigenpairs cov eval evec -> det evec = 1 ->
  (forall k, (k < 3)%nat -> 1 / 400000000 <= eval k) ->
  unit_quat (orientation (shape_3d rotation p eval evec)) /\
  forall x, drawn (shape_3d rotation p eval evec) x <->
    exists z, ellipsoid cov z /\ x = vadd p (rotate rotation z).
Proof.
  intros HU HE HD HL. pose proof HE as [HO _].
  destruct (eigen_quaternion_spec evec HO HD) as [UV RV].
  split; [apply product_unit; assumption|].
  assert (L : forall k, (k < 3)%nat -> 0 < sqrt (eval k) /\ sqrt (eval k) * sqrt (eval k) = eval k).
  { intros k Hk. specialize (HL k Hk). split; [apply sqrt_lt_R0; lra|apply sqrt_sqrt; lra]. }
  destruct (L 0%nat ltac:(lia)) as [P0 S0]. destruct (L 1%nat ltac:(lia)) as [P1 S1]. destruct (L 2%nat ltac:(lia)) as [P2 S2].
  intros x. unfold drawn, shape_3d. cbn [position orientation scale].
  set (sg := fun k => sqrt (eval k)).
  assert (Q : forall u0 u1 u2, rotate (quaternion_product rotation (eigen_quaternion evec))
      (axis_scale (eval 0%nat) / 2 * u0, axis_scale (eval 1%nat) / 2 * u1, axis_scale (eval 2%nat) / 2 * u2)
    = rotate rotation (apply evec (scaled sg (u0, u1, u2)))).
  { intros u0 u1 u2. rewrite rotate_product, RV by assumption.
    rewrite !axis_scale_sqrt by (apply HL; lia). reflexivity. }
  split.
  - intros [[[u0 u1] u2] [Hu ->]]. rewrite Q. exists (apply evec (scaled sg (u0, u1, u2))). split; [|reflexivity].
    exists (apply evec (scaled (fun k => / sg k) (u0, u1, u2))).
    rewrite (eigen_apply cov eval evec _ HE).
    assert (E : scaled eval (scaled (fun k => / sg k) (u0, u1, u2)) = scaled sg (u0, u1, u2)).
    { cbn [scaled]. unfold sg. f_equal; [f_equal|]; [rewrite <- S0 at 1|rewrite <- S1 at 1|rewrite <- S2 at 1]; field; lra. }
    rewrite E. split; [reflexivity|]. rewrite ortho_dot by exact HO. cbn [scaled dot]. unfold sg.
    cbn [dot] in Hu.
    replace (/ sqrt (eval 0%nat) * u0 * (sqrt (eval 0%nat) * u0) + / sqrt (eval 1%nat) * u1 * (sqrt (eval 1%nat) * u1)
      + / sqrt (eval 2%nat) * u2 * (sqrt (eval 2%nat) * u2)) with (u0 * u0 + u1 * u1 + u2 * u2) by (field; lra).
    exact Hu.
  - intros [z [[a [-> Ha]] ->]]. destruct (applyT evec a) as [[t0 t1] t2] eqn:Et.
    assert (Ea : a = apply evec (t0, t1, t2)) by (rewrite <- Et; symmetry; apply ortho_inv; assumption).
    exists (scaled sg (t0, t1, t2)). subst a. rewrite (eigen_apply cov eval evec _ HE) in *.
    rewrite ortho_dot in Ha by exact HO. split.
    + cbn [scaled dot] in *. unfold sg.
      replace (sqrt (eval 0%nat) * t0 * (sqrt (eval 0%nat) * t0) + sqrt (eval 1%nat) * t1 * (sqrt (eval 1%nat) * t1)
        + sqrt (eval 2%nat) * t2 * (sqrt (eval 2%nat) * t2))
        with ((sqrt (eval 0%nat) * sqrt (eval 0%nat)) * t0 * t0 + (sqrt (eval 1%nat) * sqrt (eval 1%nat)) * t1 * t1
          + (sqrt (eval 2%nat) * sqrt (eval 2%nat)) * t2 * t2) by ring.
      rewrite S0, S1, S2. lra.
    + assert (E2 : scaled eval (t0, t1, t2) = scaled sg (sg 0%nat * t0, sg 1%nat * t1, sg 2%nat * t2)).
      { cbn [scaled]. unfold sg. rewrite <- !Rmult_assoc, S0, S1, S2. reflexivity. }
      rewrite E2, <- Q. reflexivity.
Qed.

(** Eigenvalues below the square of half of the smallest thickness are raised to it. *)
Lemma axis_scale_raised (l : R) : 0 <= l -> axis_scale l = axis_scale (Rmax (1 / 400000000) l).
Proof.
  intros H. destruct (Rle_dec (1 / 400000000) l) as [G|G]; [rewrite Rmax_right by exact G; reflexivity|].
  rewrite Rmax_left by lra.
  assert (S : sqrt (1 / 400000000) = 1 / 20000).
  { replace (1 / 400000000) with ((1 / 20000) * (1 / 20000)) by lra. apply sqrt_square. lra. }
  assert (sqrt l <= 1 / 20000) by (rewrite <- S; apply sqrt_le_1_alt; lra).
  unfold axis_scale. rewrite S, !Rmax_left by lra. reflexivity.
Qed.

(** ** The plane *)
Definition flat_cov (cov : mat) : mat :=
  fun r c => if (Nat.ltb r 2 && Nat.ltb c 2)%bool then cov r c else if Nat.eqb r c then 1 / 400000000 else 0.
Definition flat_eval (eval : nat -> R) (k : nat) : R := if Nat.ltb k 2 then eval k else 1 / 400000000.

Lemma axis_scale_flat : axis_scale (1 / 400000000) = 1 / 10000.
Proof. pose proof (axis_scale_sqrt (1 / 400000000) ltac:(lra)) as H.
  assert (S : sqrt (1 / 400000000) = 1 / 20000).
  { replace (1 / 400000000) with ((1 / 20000) * (1 / 20000)) by lra. apply sqrt_square. lra. }
  rewrite S in H. lra.
Qed.

Lemma shape_2d_3d (yaw : R) (p : R * R) (eval : nat -> R) (evec : mat) :
  shape_2d yaw p eval evec =
  shape_3d {| qw := cos (yaw / 2); qx := 0; qy := 0; qz := sin (yaw / 2) |} (fst p, snd p, 0) (flat_eval eval) (embed evec).
Proof. unfold shape_2d, shape_3d, flat_eval. cbn [Nat.ltb Nat.leb]. rewrite axis_scale_flat. reflexivity. Qed.

Lemma flat_eigenpairs (cov : mat) (eval : nat -> R) (evec : mat) :
  eigenpairs_2d cov eval evec -> eigenpairs (flat_cov cov) (flat_eval eval) (embed evec).
Proof.
  intros [[O0 [O1 O2]] HE]. destruct (HE 0%nat ltac:(lia)) as [E00 E01]. destruct (HE 1%nat ltac:(lia)) as [E10 E11]. split.
  - intros i j Hi Hj.
    destruct i as [|[|[|i]]]; try lia; destruct j as [|[|[|j]]]; try lia;
      unfold embed; cbn [column dot Nat.ltb Nat.leb andb Nat.eqb]; lra.
  - intros k Hk. destruct k as [|[|[|k]]]; try lia; unfold embed, flat_cov, flat_eval;
      cbn [column apply Nat.ltb Nat.leb andb Nat.eqb]; (f_equal; [f_equal|]); lra.
Qed.

Lemma drawn_2d (yaw : R) (p : R * R) (cov : mat) (eval : nat -> R) (evec : mat) :
  eigenpairs_2d cov eval evec -> det_2d evec = 1 ->
  (forall k, (k < 2)%nat -> 1 / 400000000 <= eval k) ->
  unit_quat (orientation (shape_2d yaw p eval evec)) /\
  forall x y, (exists z, drawn (shape_2d yaw p eval evec) (x, y, z)) <->
    exists w, ellipse cov w /\ x = fst p + fst (turn yaw w) /\ y = snd p + snd (turn yaw w).
Proof.
  intros HE HD HL. rewrite shape_2d_3d.
  assert (HU : unit_quat {| qw := cos (yaw / 2); qx := 0; qy := 0; qz := sin (yaw / 2) |}) by apply axis_unit.
  destruct (drawn_3d _ (fst p, snd p, 0) _ _ _ HU (flat_eigenpairs cov eval evec HE)) as [A B].
  { unfold det, embed. cbn [Nat.ltb Nat.leb andb Nat.eqb]. unfold det_2d in HD. lra. }
  { intros k Hk. unfold flat_eval. destruct (Nat.ltb_spec k 2); [apply HL; assumption|lra]. }
  split; [exact A|]. intros x y.
  assert (T : forall v, rotate {| qw := cos (yaw / 2); qx := 0; qy := 0; qz := sin (yaw / 2) |} v = rot_z yaw v).
  { intros v. rewrite axis_z. f_equal. lra. }
  split.
  - intros [z Hz]. apply B in Hz. destruct Hz as [w [[[[a b] c] [-> Hc]] E]]. rewrite T in E.
    unfold flat_cov in E, Hc. cbn [apply rot_z vadd dot Nat.ltb Nat.leb andb Nat.eqb] in E, Hc. injection E as E1 E2 E3.
    exists (cov 0%nat 0%nat * a + cov 0%nat 1%nat * b, cov 1%nat 0%nat * a + cov 1%nat 1%nat * b). split.
    + exists a, b. split; [reflexivity|]. cbn [fst snd]. pose proof (Rle_0_sqr c) as Sc. unfold Rsqr in Sc. lra.
    + unfold turn. cbn [fst snd]. lra.
  - intros [[w0 w1] [[a [b [E Hc]]] [-> ->]]]. injection E as -> ->. cbn [fst snd] in Hc.
    exists 0. apply B. eexists. split.
    + exists (a, b, 0). split; [reflexivity|]. unfold flat_cov. cbn [apply dot Nat.ltb Nat.leb andb Nat.eqb]. lra.
    + rewrite T. unfold flat_cov, turn. cbn [apply rot_z vadd fst snd Nat.ltb Nat.leb andb Nat.eqb].
      f_equal; [f_equal|]; ring.
Qed.

Lemma left_handed_2d (evec : mat) : orthonormal_2d evec -> det_2d evec = -1 ->
  eigen_quaternion (embed evec) = {| qw := sqrt 2 / 2; qx := 0; qy := 0; qz := 0 |}.
Proof.
  intros [O0 [O1 O2]] HD. unfold det_2d in HD.
  assert (E1 : evec 1%nat 1%nat = - evec 0%nat 0%nat) by nsatz.
  assert (E2 : evec 1%nat 0%nat = evec 0%nat 1%nat) by nsatz.
  unfold eigen_quaternion, trace, embed. cbn [Nat.ltb Nat.leb andb Nat.eqb]. rewrite E1, E2.
  replace (evec 0%nat 0%nat + - evec 0%nat 0%nat + 1) with 1 by ring.
  destruct (Rlt_dec 0 1) as [_|H]; [|lra]. replace (1 + 1) with 2 by ring.
  f_equal; lra.
Qed.

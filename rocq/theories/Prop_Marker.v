(** C69: the ellipsoids in the marker arrays. *)
From Coq Require Import Reals List Lra Lia.
From Verif Require Import MatchModel MatchSpec MatchFacts MarkerModel MarkerSpec MarkerFacts.
Import ListNotations.
Open Scope R_scope.

(** C69 (partial): in 3D, if the eigenvectors form a right-handed frame and no standard deviation is
    below 0.05 mm, the orientation is a unit quaternion and the marker fills the ellipsoid of one
    standard deviation of the distribution, turned and moved by the origin. *)
Theorem C69_marker_3d_partial (rotation : quat) (t mean : vec) (cov : mat) (eval : nat -> R) (evec : mat) :
  unit_quat rotation -> eigenpairs cov eval evec -> det evec = 1 ->
  (forall k, (k < 3)%nat -> (1 / 20000) * (1 / 20000) <= eval k) ->
  let s := shape_3d rotation (vadd t (rotate rotation mean)) eval evec in
  unit_quat (orientation s) /\
  forall x, drawn s x <-> exists z, ellipsoid cov z /\ x = vadd t (rotate rotation (vadd mean z)).
Proof.
  intros HU HE HD HL s.
  destruct (drawn_3d rotation (vadd t (rotate rotation mean)) cov eval evec HU HE HD) as [A B].
  { intros k Hk. specialize (HL k Hk). lra. }
  split; [exact A|]. intros x. unfold s. rewrite B.
  assert (E : forall z, vadd (vadd t (rotate rotation mean)) (rotate rotation z) = vadd t (rotate rotation (vadd mean z))).
  { intros [[z0 z1] z2]. destruct t as [[t0 t1] t2], mean as [[m0 m1] m2]. unfold rotate, vadd. f_equal; [f_equal|]; ring. }
  split; intros [z [H ->]]; exists z; (split; [exact H|]); [apply E|symmetry; apply E].
Qed.
Print Assumptions C69_marker_3d_partial.

(** C69 (partial): in 2D, under the same conditions, the marker seen from above fills the ellipse of
    one standard deviation. *)
Theorem C69_marker_2d_partial (yaw : R) (t mean : R * R) (cov : mat) (eval : nat -> R) (evec : mat) :
  eigenpairs_2d cov eval evec -> det_2d evec = 1 ->
  (forall k, (k < 2)%nat -> (1 / 20000) * (1 / 20000) <= eval k) ->
  let s := shape_2d yaw (fst t + fst (turn yaw mean), snd t + snd (turn yaw mean)) eval evec in
  unit_quat (orientation s) /\
  forall x y, (exists z, drawn s (x, y, z)) <->
    exists w, ellipse cov w /\
      let moved := turn yaw (fst mean + fst w, snd mean + snd w) in
      x = fst t + fst moved /\ y = snd t + snd moved.
Proof.
  intros HE HD HL s.
  destruct (drawn_2d yaw (fst t + fst (turn yaw mean), snd t + snd (turn yaw mean)) cov eval evec HE HD) as [A B].
  { intros k Hk. specialize (HL k Hk). lra. }
  split; [exact A|]. intros x y. unfold s. rewrite B. unfold turn. cbn [fst snd].
  split; intros [w [H [-> ->]]]; exists w; (split; [exact H|]); split; ring.
Qed.
Print Assumptions C69_marker_2d_partial.

(** C69 (partial): thinner distributions are drawn with standard deviations of 0.05 mm along the thin
    axes, that is with a thickness of 0.1 mm, and unchanged along the others: [thick] is the
    covariance with the same eigenvectors and the eigenvalues raised to the square of 0.05 mm. *)
Definition raised (eval : nat -> R) (k : nat) : R := Rmax ((1 / 20000) * (1 / 20000)) (eval k).

Theorem C69_thin_3d_partial (rotation : quat) (t mean : vec) (thick : mat) (eval : nat -> R) (evec : mat) :
  unit_quat rotation -> (forall k, (k < 3)%nat -> 0 <= eval k) ->
  eigenpairs thick (raised eval) evec -> det evec = 1 ->
  let s := shape_3d rotation (vadd t (rotate rotation mean)) eval evec in
  unit_quat (orientation s) /\
  forall x, drawn s x <-> exists z, ellipsoid thick z /\ x = vadd t (rotate rotation (vadd mean z)).
Proof.
  intros HU HP HE HD s.
  assert (E : s = shape_3d rotation (vadd t (rotate rotation mean)) (raised eval) evec).
  { unfold s, shape_3d, raised. replace ((1 / 20000) * (1 / 20000)) with (1 / 400000000) by lra.
    rewrite (axis_scale_raised (eval 0%nat)), (axis_scale_raised (eval 1%nat)), (axis_scale_raised (eval 2%nat))
      by (apply HP; lia). reflexivity. }
  rewrite E. apply C69_marker_3d_partial; try assumption. intros k _. apply Rmax_l.
Qed.
Print Assumptions C69_thin_3d_partial.

Theorem C69_thin_2d_partial (yaw : R) (t mean : R * R) (thick : mat) (eval : nat -> R) (evec : mat) :
  (forall k, (k < 2)%nat -> 0 <= eval k) ->
  eigenpairs_2d thick (raised eval) evec -> det_2d evec = 1 ->
  let s := shape_2d yaw (fst t + fst (turn yaw mean), snd t + snd (turn yaw mean)) eval evec in
  unit_quat (orientation s) /\
  forall x y, (exists z, drawn s (x, y, z)) <->
    exists w, ellipse thick w /\
      let moved := turn yaw (fst mean + fst w, snd mean + snd w) in
      x = fst t + fst moved /\ y = snd t + snd moved.
Proof.
  intros HP HE HD s.
  assert (E : s = shape_2d yaw (fst t + fst (turn yaw mean), snd t + snd (turn yaw mean)) (raised eval) evec).
  { unfold s, shape_2d, raised. replace ((1 / 20000) * (1 / 20000)) with (1 / 400000000) by lra.
    rewrite (axis_scale_raised (eval 0%nat)), (axis_scale_raised (eval 1%nat)) by (apply HP; lia). reflexivity. }
  rewrite E. apply C69_marker_2d_partial; try assumption. intros k _. apply Rmax_l.
Qed.
Print Assumptions C69_thin_2d_partial.

(** A wall seen edge-on: 10 along the wall, nothing across. *)
Definition wall_eval (k : nat) : R := match k with O => 100 | _ => 0 end.
Definition wall_frame : mat := fun r c =>
  match r, c with O, O => 0 | O, _ => -1 | _, O => 1 | _, _ => 0 end.
Definition wall_thick : mat := fun r c =>
  match r, c with O, O => (1 / 20000) * (1 / 20000) | S O, S O => 100 | _, _ => 0 end.
Example C69_thin_example :
  (forall k, (k < 2)%nat -> 0 <= wall_eval k) /\ eigenpairs_2d wall_thick (raised wall_eval) wall_frame /\
  det_2d wall_frame = 1 /\ ellipse wall_thick (1 / 20000, 0) /\ ellipse wall_thick (0, 10).
Proof.
  assert (R0 : raised wall_eval 0%nat = 100) by (unfold raised, wall_eval; rewrite Rmax_right; lra).
  assert (R1 : raised wall_eval 1%nat = (1 / 20000) * (1 / 20000)) by (unfold raised, wall_eval; rewrite Rmax_left; lra).
  split; [|split; [|split; [|split]]].
  - intros [|[|k]] Hk; try lia; unfold wall_eval; lra.
  - split; [unfold orthonormal_2d, wall_frame; lra|].
    intros [|[|k]] Hk; try lia; rewrite ?R0, ?R1; unfold wall_thick, wall_frame; lra.
  - unfold det_2d, wall_frame. lra.
  - exists 20000, 0. unfold wall_thick. cbn [fst snd]. split; [f_equal; lra|lra].
  - exists 0, (1 / 10). unfold wall_thick. cbn [fst snd]. split; [f_equal; lra|lra].
Qed.

(** A slanted covariance with standard deviations 10 and 1 and its eigenvectors, right-handed and
    left-handed. *)
Definition slanted : mat := fun r c =>
  match r, c with O, O => 1609 / 25 | S O, S O => 916 / 25 | _, _ => 1188 / 25 end.
Definition slanted_eval (k : nat) : R := match k with O => 100 | _ => 1 end.
Definition right_frame : mat := fun r c =>
  match r, c with O, O => 4 / 5 | O, _ => - (3 / 5) | _, O => 3 / 5 | _, _ => 4 / 5 end.
Definition left_frame : mat := fun r c =>
  match r, c with O, O => 4 / 5 | O, _ => 3 / 5 | _, O => 3 / 5 | _, _ => - (4 / 5) end.

Example C69_example :
  eigenpairs_2d slanted slanted_eval right_frame /\ det_2d right_frame = 1 /\
  eigenpairs_2d slanted slanted_eval left_frame /\
  (forall k, (k < 2)%nat -> (1 / 20000) * (1 / 20000) <= slanted_eval k) /\
  exists z, drawn (shape_2d 0 (0, 0) slanted_eval right_frame) (36 / 5, 27 / 5, z).
Proof.
  assert (P : eigenpairs_2d slanted slanted_eval right_frame).
  { split; [unfold orthonormal_2d, right_frame; lra|]. intros [|[|k]] Hk; try lia; unfold slanted, slanted_eval, right_frame; lra. }
  assert (Q : eigenpairs_2d slanted slanted_eval left_frame).
  { split; [unfold orthonormal_2d, left_frame; lra|]. intros [|[|k]] Hk; try lia; unfold slanted, slanted_eval, left_frame; lra. }
  assert (D : det_2d right_frame = 1) by (unfold det_2d, right_frame; lra).
  assert (L : forall k, (k < 2)%nat -> (1 / 20000) * (1 / 20000) <= slanted_eval k).
  { intros [|[|k]] Hk; try lia; unfold slanted_eval; lra. }
  split; [exact P|]. split; [exact D|]. split; [exact Q|]. split; [exact L|].
  destruct (drawn_2d 0 (0, 0) slanted slanted_eval right_frame P D) as [_ B].
  { intros k Hk. specialize (L k Hk). lra. }
  apply B. exists (36 / 5, 27 / 5). split.
  - exists (9 / 125), (27 / 500). split; [|cbn; lra]. unfold slanted. f_equal; lra.
  - unfold turn. cbn [fst snd]. rewrite cos_0, sin_0. lra.
Qed.

(** The same in 3D, with standard deviations 3, 2 and 1 and no axis along a coordinate axis. *)
Definition tilted : mat := fun r c =>
  match r, c with
  | O, O => 44 / 9 | O, S O => 26 / 9 | O, _ => - (22 / 9)
  | S O, O => 26 / 9 | S O, S O => 53 / 9 | S O, _ => - (4 / 9)
  | _, O => - (22 / 9) | _, S O => - (4 / 9) | _, _ => 29 / 9
  end.
Definition tilted_eval (k : nat) : R := match k with O => 9 | S O => 4 | _ => 1 end.
Definition tilted_frame : mat := fun r c =>
  match r, c with
  | O, O => 2 / 3 | O, S O => - (1 / 3) | O, _ => 2 / 3
  | S O, O => 2 / 3 | S O, S O => 2 / 3 | S O, _ => - (1 / 3)
  | _, O => - (1 / 3) | _, S O => 2 / 3 | _, _ => 2 / 3
  end.
Example C69_example_3d :
  unit_quat {| qw := 4 / 5; qx := 0; qy := 3 / 5; qz := 0 |} /\ eigenpairs tilted tilted_eval tilted_frame /\ det tilted_frame = 1 /\
  (forall k, (k < 3)%nat -> (1 / 20000) * (1 / 20000) <= tilted_eval k) /\ ellipsoid tilted (2, 2, -1).
Proof.
  split; [unfold unit_quat; cbn; lra|]. split; [|split; [|split]].
  - split.
    + intros [|[|[|i]]] [|[|[|j]]] Hi Hj; try lia; unfold dot, column, tilted_frame; cbn; lra.
    + intros [|[|[|k]]] Hk; try lia; unfold apply, column, tilted, tilted_eval, tilted_frame; f_equal; [f_equal| |f_equal| |f_equal|]; lra.
  - unfold det, tilted_frame. lra.
  - intros [|[|[|k]]] Hk; try lia; unfold tilted_eval; lra.
  - exists (2 / 9, 2 / 9, - (1 / 9)). split; [unfold apply, tilted; f_equal; [f_equal|]; lra|].
    unfold dot, apply, tilted. lra.
Qed.

(** C69: nothing makes the frame right-handed. In 2D the orientation computed from a left-handed
    frame is never normalised and does not depend on the eigenvectors at all. *)
Theorem C69_left_handed_2d (yaw : R) (p : R * R) (eval : nat -> R) (evec : mat) :
  orthonormal_2d evec -> det_2d evec = -1 ->
  orientation (shape_2d yaw p eval evec) =
    {| qw := sqrt 2 / 2 * cos (yaw / 2); qx := 0; qy := 0; qz := sqrt 2 / 2 * sin (yaw / 2) |} /\
  ~ unit_quat (orientation (shape_2d yaw p eval evec)).
Proof.
  intros HO HD.
  assert (E : orientation (shape_2d yaw p eval evec) =
    {| qw := sqrt 2 / 2 * cos (yaw / 2); qx := 0; qy := 0; qz := sqrt 2 / 2 * sin (yaw / 2) |}).
  { unfold shape_2d. cbn [orientation]. rewrite (left_handed_2d evec HO HD). unfold quaternion_product.
    cbn [qw qx qy qz]. f_equal; ring. }
  split; [exact E|]. rewrite E. unfold unit_quat. cbn [qw qx qy qz]. intros H.
  pose proof (sin2_cos2 (yaw / 2)) as S. unfold Rsqr in S. pose proof (sqrt_sqrt 2 ltac:(lra)) as Q.
  assert (sqrt 2 / 2 * cos (yaw / 2) * (sqrt 2 / 2 * cos (yaw / 2)) + 0 * 0 + 0 * 0 +
     sqrt 2 / 2 * sin (yaw / 2) * (sqrt 2 / 2 * sin (yaw / 2)) = 1 / 2); [|lra].
  replace (sqrt 2 / 2 * cos (yaw / 2) * (sqrt 2 / 2 * cos (yaw / 2)) + 0 * 0 + 0 * 0 +
     sqrt 2 / 2 * sin (yaw / 2) * (sqrt 2 / 2 * sin (yaw / 2)))
    with (sqrt 2 * sqrt 2 / 4 * (sin (yaw / 2) * sin (yaw / 2) + cos (yaw / 2) * cos (yaw / 2))) by field.
  rewrite S, Q. lra.
Qed.
Print Assumptions C69_left_handed_2d.

(** C69 is false: for a left-handed frame the orientation is not normalised, and a display that
    normalises it does not show a point inside of the ellipse. *)
Theorem C69_left_handed_refuted :
  exists cov eval evec, eigenpairs_2d cov eval evec /\
    (forall k, (k < 2)%nat -> (1 / 20000) * (1 / 20000) <= eval k) /\
    let s := shape_2d 0 (0, 0) eval evec in
    ~ unit_quat (orientation s) /\
    forall q, normalised (orientation s) q ->
      exists w, ellipse cov w /\
        ~ exists z, drawn {| position := position s; orientation := q; scale := scale s |} (fst w, snd w, z).
Proof.
  exists slanted, slanted_eval, left_frame. destruct C69_example as [_ [_ [P [L _]]]].
  split; [exact P|]. split; [exact L|].
  destruct (C69_left_handed_2d 0 (0, 0) slanted_eval left_frame (proj1 P)) as [E N].
  { unfold det_2d, left_frame. lra. }
  cbv zeta. split; [exact N|]. rewrite E. intros q [U [r [Hr [W [X [Y Z]]]]]]. cbn [qw qx qy qz] in W, X, Y, Z.
  replace (0 / 2) with 0 in * by lra. rewrite cos_0 in W. rewrite sin_0 in Z.
  assert (QX : qx q = 0) by nra. assert (QY : qy q = 0) by nra. assert (QZ : qz q = 0) by nra.
  exists (36 / 5, 27 / 5). split.
  - exists (9 / 125), (27 / 500). split; [|cbn; lra]. unfold slanted. f_equal; lra.
  - intros [z [[[u0 u1] u2] [Hu Hd]]]. cbn [fst snd shape_2d position scale orientation] in Hd.
    unfold rotate, vadd in Hd. rewrite QX, QY, QZ in Hd. injection Hd as _ H1 _.
    assert (S1 : axis_scale 1 = 2).
    { unfold axis_scale. rewrite sqrt_1. rewrite Rmax_right; lra. }
    rewrite S1 in H1. cbn [dot] in Hu. assert (u1 = 27 / 5) by lra. subst u1.
    pose proof (Rle_0_sqr u0). pose proof (Rle_0_sqr u2). unfold Rsqr in *. lra.
Qed.
Print Assumptions C69_left_handed_refuted.

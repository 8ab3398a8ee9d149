(** Facts about the objective functions of the nlopt and alglib matchers. *)
From Coq Require Import Reals Lra Lia List.
From Verif Require Import MatchModel MatchSpec MatchFacts ObjectiveModel ObjectiveSpec.
Import ListNotations.
Open Scope R_scope.

Lemma fold_left_sum {A : Type} (f : A -> R) (l : list A) (a : R) :
  fold_left (fun acc p => acc + f p) l a = a + fold_right Rplus 0 (map f l).
Proof. revert a; induction l as [|x l IH]; intros a; cbn; [ring|]. rewrite IH. ring. Qed.

Lemma sum_map_ext {A : Type} (f g : A -> R) (l : list A) :
  (forall x, In x l -> f x = g x) -> fold_right Rplus 0 (map f l) = fold_right Rplus 0 (map g l).
Proof.
  induction l as [|x l IH]; intros H; cbn; [reflexivity|]. rewrite (H x) by (left; reflexivity).
  rewrite IH; [reflexivity|]. intros y Hy; apply H; right; exact Hy.
Qed.
Lemma sum_map_affine {A : Type} (f : A -> R) (a b : R) (l : list A) :
  fold_right Rplus 0 (map (fun x => a + b * f x) l) = a * INR (length l) + b * fold_right Rplus 0 (map f l).
Proof.
  induction l as [|x l IH]; [cbn; ring|]. cbn [map fold_right length]. rewrite IH, S_INR. ring.
Qed.

Section Score.
Context {pose point : Type}.
Variable score : pose -> point -> option R.
Definition present (x : pose) (p : point) : R := match score x p with Some v => v | None => 0 end.
Lemma map_sum_mean (x : pose) (l : list point) :
  l <> [] -> map_sum score x l / INR (length l) = 1 - mean_score score x l.
Proof.
  intros Hl. assert (HN : INR (length l) <> 0) by (apply not_0_INR; destruct l; [congruence|discriminate]).
  unfold map_sum, mean_score. rewrite fold_left_sum. fold (present x).
  rewrite (sum_map_ext _ (fun p => 1 + -1 * present x p)).
  - rewrite sum_map_affine. field. exact HN.
  - intros p _. unfold map_cost, present. destruct (score x p); ring.
Qed.

Lemma nlopt_roundtrip (f : functor pose point) (x : pose) (td rd : R) :
  map_weight_ f <> 0 -> points_ f <> [] ->
  nlopt_score f (nlopt_total f (map_sum score x (points_ f)) td rd) td rd = mean_score score x (points_ f).
Proof.
  intros Hw Hl. unfold nlopt_score, nlopt_total, size.
  replace (map_weight_ f * map_sum score x (points_ f) / INR (length (points_ f)))
    with (map_weight_ f * (1 - mean_score score x (points_ f))).
  - field. exact Hw.
  - rewrite <- (map_sum_mean x _ Hl). unfold Rdiv. ring.
Qed.

Lemma skipping_mean (x : pose) (l : list point) :
  map_sum_skipping score x l =
  map_sum score x l - INR (length (filter (fun p => match score x p with None => true | _ => false end) l)).
Proof.
  unfold map_sum_skipping, map_sum.
  assert (G : forall a b, fold_left (fun fi p => match score x p with Some v => fi + (1 - v) | None => fi end) l a =
              fold_left (fun fi p => fi + map_cost (score x p)) l b
              - INR (length (filter (fun p => match score x p with None => true | _ => false end) l)) + (a - b)).
  { induction l as [|p l IH]; intros a b; cbn [fold_left filter length]; [cbn; ring|].
    destruct (score x p) as [v|] eqn:E; cbn [map_cost].
    - rewrite (IH (a + (1 - v)) (b + (1 - v))). ring.
    - rewrite (IH a (b + 1)). cbn [length]. rewrite S_INR. ring. }
  rewrite (G 0 0). ring.
Qed.

(** With missing scores left out of the sum, every missing score counts as 1. *)
Lemma nlopt_skipping (f : functor pose point) (x : pose) (td rd : R) :
  map_weight_ f <> 0 -> points_ f <> [] ->
  nlopt_score f (nlopt_total f (map_sum_skipping score x (points_ f)) td rd) td rd =
  mean_score (fun y p => Some (match score y p with Some v => v | None => 1 end)) x (points_ f).
Proof.
  intros Hw Hl. unfold nlopt_score, nlopt_total, size.
  assert (HN : INR (length (points_ f)) <> 0) by (apply not_0_INR; destruct (points_ f); [congruence|discriminate]).
  assert (E : map_sum_skipping score x (points_ f) =
              INR (length (points_ f)) * (1 - mean_score (fun y p => Some (match score y p with Some v => v | None => 1 end)) x (points_ f))).
  { unfold map_sum_skipping, mean_score.
    transitivity (fold_left (fun acc p => acc + (1 + -1 * match score x p with Some v => v | None => 1 end)) (points_ f) 0).
    - generalize 0. generalize (points_ f). induction l as [|p l IH]; intros a; cbn [fold_left]; [reflexivity|].
      rewrite <- IH. f_equal. destruct (score x p); ring.
    - rewrite fold_left_sum, sum_map_affine. field. exact HN. }
  rewrite E. field. split; assumption.
Qed.

Lemma alglib_roundtrip (f : functor pose point) (x : pose) (rest : list R) :
  map_weight_ f <> 0 -> points_ f <> [] ->
  alglib_score f (alglib_points score f x ++ rest) = mean_score score x (points_ f).
Proof.
  intros Hw Hl. unfold alglib_score.
  assert (HN : INR (length (points_ f)) <> 0) by (apply not_0_INR; destruct (points_ f); [congruence|discriminate]).
  replace (firstn (length (points_ f)) (alglib_points score f x ++ rest)) with (alglib_points score f x).
  2: { rewrite firstn_app. unfold alglib_points at 2 3. rewrite map_length, Nat.sub_diag. cbn [firstn].
       rewrite app_nil_r. symmetry. replace (length (points_ f)) with (length (alglib_points score f x)) by apply map_length.
       apply firstn_all. }
  rewrite fold_left_sum. unfold alglib_points. rewrite map_map. unfold mean_score, size. fold (present x).
  rewrite (sum_map_ext _ (fun p => 0 + / INR (length (points_ f)) * present x p)).
  - rewrite sum_map_affine. field. exact HN.
  - intros p _. unfold map_cost, present. destruct (score x p); field; split; assumption.
Qed.
End Score.

(** ** Penalties *)
Lemma sqrt_zero (a : R) : 0 <= a -> sqrt a = 0 -> a = 0.
Proof. intros H E. apply sqrt_eq_0; assumption. Qed.
Lemma hypot2_zero (a b : R) : hypot2 a b = 0 <-> a = 0 /\ b = 0.
Proof.
  unfold hypot2. split.
  - intros E. apply sqrt_zero in E; [|nra]. split; nra.
  - intros [-> ->]. replace (0 * 0 + 0 * 0) with 0 by ring. apply sqrt_0.
Qed.
Lemma hypot3_zero (a b c : R) : hypot3 a b c = 0 <-> a = 0 /\ b = 0 /\ c = 0.
Proof.
  unfold hypot3. split.
  - intros E. apply sqrt_zero in E; [|nra]. repeat split; nra.
  - intros [-> [-> ->]]. replace (0 * 0 + 0 * 0 + 0 * 0) with 0 by ring. apply sqrt_0.
Qed.
Lemma hypot_pos2 a b : 0 <= hypot2 a b. Proof. apply sqrt_pos. Qed.
Lemma hypot_pos3 a b c : 0 <= hypot3 a b c. Proof. apply sqrt_pos. Qed.

Lemma weighted_sum_zero (a b s t : R) :
  0 < a -> 0 < b -> 0 <= s -> a * s + b * Rabs t = 0 <-> (0 <= s -> s = 0 /\ t = 0).
Proof.
  intros Ha Hb Hs. split.
  - intros E _. generalize (Rabs_pos t); intros Ht. assert (E1 : Rabs t = 0) by nra. split; [nra|].
    destruct (Req_dec t 0) as [|N]; [assumption|]. generalize (Rabs_no_R0 t N); lra.
  - intros H. destruct (H Hs) as [-> ->]. rewrite Rabs_R0. ring.
Qed.

Section Penalty.
Context {point : Type}.
Variable difference : R -> R -> R.
Hypothesis Hd0 : difference_ok difference.
Let Hd : forall a b, difference a b = 0 <-> congruent a b := Hd0.

Lemma nlopt2_penalty score (f : functor pose2 point) (x : pose2) :
  weights_ok f ->
  0 <= nlopt2_apply difference score f x /\
  (nlopt2_apply difference score f x = 0 <-> at_guess2 x (initial_guess_ f)).
Proof.
  intros [Ht [Hr Hm]]. unfold nlopt2_apply, nlopt_total. rewrite Hm.
  replace (0 * map_sum score x (points_ f) / size (points_ f)) with 0 by (unfold Rdiv; ring).
  generalize (hypot_pos2 (px x - px (initial_guess_ f)) (py x - py (initial_guess_ f))).
  unfold trans_diff2, rot_diff2, at_guess2. intros Hh.
  generalize (Rabs_pos (difference (pyaw x) (pyaw (initial_guess_ f)))); intros Hp.
  split; [nra|]. rewrite Rplus_0_l, weighted_sum_zero, <- Hd by assumption. split.
  - intros H. destruct (H Hh) as [H1 H2]. apply hypot2_zero in H1 as [H1 H3]. repeat split; [lra|lra|exact H2].
  - intros [E1 [E2 E3]] _. split; [|exact E3]. apply hypot2_zero. lra.
Qed.

Lemma nlopt6_penalty score (f : functor pose6 point) (x : pose6) (skipping : bool) :
  weights_ok f ->
  let apply := if skipping then nlopt6_occupancy_apply difference score f x else nlopt6_apply difference score f x in
  0 <= apply /\ (apply = 0 <-> at_guess6 x (initial_guess_ f)).
Proof.
  intros [Ht [Hr Hm]]. cbn.
  assert (E : (if skipping then nlopt6_occupancy_apply difference score f x else nlopt6_apply difference score f x) =
     translation_weight_ f * trans_diff6 x (initial_guess_ f) +
     rotation_weight_ f * Rabs (rot_diff6 difference x (initial_guess_ f))).
  { destruct skipping; unfold nlopt6_occupancy_apply, nlopt6_apply, nlopt_total; rewrite Hm; unfold Rdiv; ring. }
  rewrite E. clear E.
  assert (Hh : 0 <= trans_diff6 x (initial_guess_ f)) by apply hypot_pos3.
  generalize (Rabs_pos (rot_diff6 difference x (initial_guess_ f))); intros Hp.
  split; [nra|]. rewrite weighted_sum_zero by assumption.
  unfold trans_diff6, rot_diff6, at_guess6 in *. rewrite <- !Hd. split.
  - intros H. destruct (H Hh) as [H1 H2]. apply hypot3_zero in H1 as [H1 [H3 H4]]. apply hypot3_zero in H2 as [H5 [H6 H7]].
    repeat split; lra.
  - intros [E1 [E2 [E3 [E4 [E5 E6]]]]] _. split; apply hypot3_zero; lra.
Qed.

Lemma sum_squares_app l k : sum_squares (l ++ k) = sum_squares l + sum_squares k.
Proof. unfold sum_squares. induction l as [|a l IH]; cbn [app fold_right]; [ring|]. rewrite IH. ring. Qed.
Lemma sum_squares_pos l : 0 <= sum_squares l.
Proof. unfold sum_squares. induction l as [|a l IH]; cbn [fold_right]; nra. Qed.
Lemma alglib_points_zero {pose : Type} score (f : functor pose point) (x : pose) :
  map_weight_ f = 0 -> sum_squares (alglib_points score f x) = 0.
Proof.
  intros H. unfold alglib_points. rewrite H. generalize (size (points_ f)). intros n.
  unfold sum_squares. induction (points_ f) as [|p l IH]; cbn [map fold_right]; [reflexivity|]. rewrite IH. unfold Rdiv. ring.
Qed.
Lemma abs_square (w a : R) : w * Rabs a * (w * Rabs a) = (w * a) * (w * a).
Proof. unfold Rabs. destruct (Rcase_abs a); ring. Qed.
Lemma scaled_zero (w a : R) : 0 < w -> (w * a) * (w * a) = 0 -> a = 0.
Proof. intros Hw H. assert (w * a = 0) by nra. nra. Qed.
Lemma square_pos (a : R) : 0 <= a * a. Proof. nra. Qed.

Lemma alglib2_penalty score (f : functor pose2 point) (x : pose2) :
  weights_ok f -> (sum_squares (alglib2_apply difference score f x) = 0 <-> at_guess2 x (initial_guess_ f)).
Proof.
  intros [Ht [Hr Hm]]. unfold alglib2_apply. rewrite sum_squares_app, alglib_points_zero by exact Hm.
  unfold sum_squares, at_guess2, rot_diff2; cbn [fold_right]. rewrite abs_square, <- Hd.
  set (a := px x - _). set (b := py x - _). set (d := difference _ _). split.
  - intros E. generalize (square_pos (translation_weight_ f * a)) (square_pos (translation_weight_ f * b)) (square_pos (rotation_weight_ f * d)).
    intros P1 P2 P3.
    assert (A : a = 0) by (apply (scaled_zero (translation_weight_ f)); [assumption|lra]).
    assert (B : b = 0) by (apply (scaled_zero (translation_weight_ f)); [assumption|lra]).
    assert (D : d = 0) by (apply (scaled_zero (rotation_weight_ f)); [assumption|lra]).
    unfold a, b in *. repeat split; [lra|lra|exact D].
  - intros [E1 [E2 E3]]. rewrite E3. assert (A : a = 0) by (unfold a; lra). assert (B : b = 0) by (unfold b; lra).
    rewrite A, B. ring.
Qed.
Lemma alglib6_penalty score (f : functor pose6 point) (x : pose6) :
  weights_ok f -> (sum_squares (alglib6_apply difference score f x) = 0 <-> at_guess6 x (initial_guess_ f)).
Proof.
  intros [Ht [Hr Hm]]. unfold alglib6_apply. rewrite sum_squares_app, alglib_points_zero by exact Hm.
  unfold sum_squares, at_guess6; cbn [fold_right]. rewrite !abs_square, <- !Hd.
  set (a := tx x - _). set (b := ty x - _). set (c := tz x - _).
  set (d := difference (r0 x) _). set (e := difference (r1 x) _). set (g := difference (r2 x) _). split.
  - intros E. generalize (square_pos (translation_weight_ f * a)) (square_pos (translation_weight_ f * b))
      (square_pos (translation_weight_ f * c)) (square_pos (rotation_weight_ f * d)) (square_pos (rotation_weight_ f * e))
      (square_pos (rotation_weight_ f * g)). intros P1 P2 P3 P4 P5 P6.
    assert (A : a = 0) by (apply (scaled_zero (translation_weight_ f)); [assumption|lra]).
    assert (B : b = 0) by (apply (scaled_zero (translation_weight_ f)); [assumption|lra]).
    assert (C : c = 0) by (apply (scaled_zero (translation_weight_ f)); [assumption|lra]).
    assert (D : d = 0) by (apply (scaled_zero (rotation_weight_ f)); [assumption|lra]).
    assert (F : e = 0) by (apply (scaled_zero (rotation_weight_ f)); [assumption|lra]).
    assert (G : g = 0) by (apply (scaled_zero (rotation_weight_ f)); [assumption|lra]).
    unfold a, b, c in *. repeat split; lra.
  - intros [E1 [E2 [E3 [E4 [E5 E6]]]]]. rewrite E4, E5, E6.
    assert (A : a = 0) by (unfold a; lra). assert (B : b = 0) by (unfold b; lra). assert (C : c = 0) by (unfold c; lra).
    rewrite A, B, C. ring.
Qed.
End Penalty.

(** At the guess itself, the quaternion version of alglib has a constant positive penalty. *)
Lemma alglib7_at_guess {point : Type} score (f : functor pose7 point) :
  map_weight_ f = 0 -> unit_quat (sq (initial_guess_ f)) ->
  forall x, unit_quat (sq x) ->
  sum_squares (alglib7_apply score f x) =
  rotation_weight_ f * rotation_weight_ f +
  translation_weight_ f * translation_weight_ f *
    ((sx x - sx (initial_guess_ f)) * (sx x - sx (initial_guess_ f)) +
     (sy x - sy (initial_guess_ f)) * (sy x - sy (initial_guess_ f)) +
     (sz x - sz (initial_guess_ f)) * (sz x - sz (initial_guess_ f))).
Proof.
  intros Hm Hg x Hx. unfold alglib7_apply. rewrite !sum_squares_app, alglib_points_zero by exact Hm.
  rewrite alglib_cost by assumption. unfold sum_squares; cbn [fold_right]. ring.
Qed.

(** Half a turn: the yaw angle pi is compared with the z component 1 of the quaternion. *)
Lemma half_turn_rpy (f : R -> R -> R) : atan2_ok f ->
  exists yaw, quaternion_rpy f {| qw := 0; qx := 0; qy := 0; qz := 1 |} = (f 0 1, asin 0, yaw) /\
              - PI <= yaw <= PI /\ cos yaw = -1.
Proof.
  intros Hf. unfold quaternion_rpy; cbn [qw qx qy qz].
  replace (2 * (0 * 0 + 0 * 1)) with 0 by ring. replace (1 - 2 * (0 * 0 + 0 * 0)) with 1 by ring.
  replace (2 * (0 * 0 - 1 * 0)) with 0 by ring. replace (2 * (0 * 1 + 0 * 0)) with 0 by ring.
  replace (1 - 2 * (0 * 0 + 1 * 1)) with (-1) by ring.
  exists (f 0 (-1)). destruct (Hf 0 (-1)) as [H1 [H2 H3]]; [ring|]. auto.
Qed.

Lemma nlopt7_half_turn {point : Type} (difference : R -> R -> R) (f : R -> R -> R) score (F : functor pose7 point) :
  difference_ok difference -> atan2_ok f ->
  0 < rotation_weight_ F -> 0 <= translation_weight_ F -> map_weight_ F = 0 ->
  initial_guess_ F = {| sx := 0; sy := 0; sz := 0; sq := {| qw := 0; qx := 0; qy := 0; qz := 1 |} |} ->
  0 < nlopt7_apply difference (quaternion_rpy f) score F (initial_guess_ F).
Proof.
  intros Hd Hf Hr Ht Hm Hg. unfold nlopt7_apply, nlopt_total. rewrite Hm.
  replace (0 * map_sum score (initial_guess_ F) (points_ F) / size (points_ F)) with 0 by (unfold Rdiv; ring).
  rewrite Hg. unfold trans_diff7; cbn [sx sy sz].
  assert (P : 0 <= hypot3 (0 - 0) (0 - 0) (0 - 0)) by apply hypot_pos3.
  destruct (half_turn_rpy f Hf) as [yaw [E [R C]]].
  assert (N : rot_diff7 difference (quaternion_rpy f)
    {| sx := 0; sy := 0; sz := 0; sq := {| qw := 0; qx := 0; qy := 0; qz := 1 |} |}
    {| sx := 0; sy := 0; sz := 0; sq := {| qw := 0; qx := 0; qy := 0; qz := 1 |} |} <> 0).
  { unfold rot_diff7; cbn [sq]. rewrite E. cbn [qx qy qz]. intros Z. apply hypot3_zero in Z as [_ [_ Z]].
    apply Hd in Z. apply congruent_sin_cos in Z as [_ Z]. rewrite C in Z.
    assert (cos PI < cos 1) by (apply cos_decreasing_1; generalize pi_gt_3; lra). rewrite cos_PI in *. lra. }
  apply Rabs_pos_lt in N. nra.
Qed.

Lemma ceres_difference_ok : difference_ok (angle_difference acos_atan2).
Proof. intros a b. apply angle_difference_zero, acos_atan2_ok. Qed.

Lemma nlopt2_occupancy_penalty {point : Type} (difference : R -> R -> R) :
  difference_ok difference -> forall score (f : functor pose2 point) (x : pose2),
  weights_ok f ->
  0 <= nlopt2_occupancy_apply difference score f x /\
  (nlopt2_occupancy_apply difference score f x = 0 <-> at_guess2 x (initial_guess_ f)).
Proof.
  intros Hd score f x [Ht [Hr Hm]]. unfold nlopt2_occupancy_apply.
  assert (Z : fold_left (fun fi p => fi + / 2 * map_weight_ f *
     (map_cost (score x p) / size (points_ f) * (map_cost (score x p) / size (points_ f)))) (points_ f) 0 = 0).
  { rewrite Hm. generalize (size (points_ f)). intros n. generalize (points_ f). induction l as [|p l IH]; cbn [fold_left]; [reflexivity|].
    match goal with |- fold_left _ l ?a = 0 => replace a with 0 by ring end. exact IH. }
  rewrite Z. unfold rot_diff2, at_guess2. rewrite <- (Hd (pyaw x) (pyaw (initial_guess_ f))).
  set (a := px x - _). set (b := py x - _). set (d := difference _ _).
  generalize (square_pos a) (square_pos b) (square_pos d); intros P1 P2 P3. split; [nra|]. split.
  - intros E. assert (d * d = 0) by nra. assert (a * a = 0) by nra. assert (b * b = 0) by nra.
    assert (a = 0) by nra. assert (b = 0) by nra. assert (d = 0) by nra. unfold a, b in *. repeat split; lra.
  - intros [E1 [E2 E3]]. rewrite E3. replace a with 0 by (unfold a; lra). replace b with 0 by (unfold b; lra). ring.
Qed.

Lemma occupancy2_differs :
  exists (difference : R -> R -> R) (score : pose2 -> nat -> option R) (f : functor pose2 nat) (x : pose2),
    difference_ok difference /\ map_weight_ f <> 0 /\ points_ f <> [] /\
    mean_score score x (points_ f) = 1 / 2 /\
    nlopt2_mapScore difference f x (nlopt2_occupancy_apply difference score f x) = 31 / 32.
Proof.
  exists (angle_difference acos_atan2), (fun _ _ => Some (1 / 2)),
    {| points_ := [0; 1]%nat; initial_guess_ := {| px := 0; py := 0; pyaw := 0 |};
       translation_weight_ := 1; rotation_weight_ := 1; map_weight_ := 1 |}, {| px := 0; py := 0; pyaw := 0 |}.
  split; [exact ceres_difference_ok|]. split; [cbn; lra|]. split; [discriminate|]. split; [unfold mean_score; cbn; lra|].
  unfold nlopt2_mapScore, nlopt2_occupancy_apply, nlopt_score, trans_diff2, rot_diff2; cbn [points_ initial_guess_ px py pyaw
    translation_weight_ rotation_weight_ map_weight_ fold_left map_cost].
  assert (D : angle_difference acos_atan2 0 0 = 0) by (apply ceres_difference_ok; exists 0%Z; lra).
  assert (H : hypot2 (0 - 0) (0 - 0) = 0) by (apply hypot2_zero; lra).
  rewrite D, H, Rabs_R0. unfold size; cbn. field.
Qed.

Lemma occupancy3_differs :
  exists (difference : R -> R -> R) (score : pose6 -> nat -> option R) (f : functor pose6 nat) (x : pose6),
    difference_ok difference /\ map_weight_ f <> 0 /\ points_ f <> [] /\
    mean_score score x (points_ f) = 0 /\
    nlopt6_mapScore difference f x (nlopt6_occupancy_apply difference score f x) = 1.
Proof.
  exists (angle_difference acos_atan2), (fun _ _ => None),
    {| points_ := [0; 1]%nat; initial_guess_ := {| tx := 0; ty := 0; tz := 0; r0 := 0; r1 := 0; r2 := 0 |};
       translation_weight_ := 1; rotation_weight_ := 1; map_weight_ := 1 |}, {| tx := 1; ty := 0; tz := 0; r0 := 0; r1 := 0; r2 := 0 |}.
  split; [exact ceres_difference_ok|]. split; [cbn; lra|]. split; [discriminate|]. split; [unfold mean_score; cbn; lra|].
  unfold nlopt6_mapScore, nlopt6_occupancy_apply. rewrite nlopt_skipping by (cbn; [lra|discriminate] || (cbn; lra) || discriminate).
  unfold mean_score; cbn. lra.
Qed.

Definition half_turn_guess : functor pose7 unit :=
  {| points_ := [tt];
     initial_guess_ := {| sx := 0; sy := 0; sz := 0; sq := {| qw := 0; qx := 0; qy := 0; qz := 1 |} |};
     translation_weight_ := 1; rotation_weight_ := 1; map_weight_ := 0 |}.
Lemma half_turn_ok : unit_quat (sq (initial_guess_ half_turn_guess)) /\ weights_ok half_turn_guess.
Proof. unfold unit_quat, weights_ok; cbn. repeat split; lra. Qed.

Lemma nlopt7_positive_at_guess :
  exists (f : functor pose7 unit), unit_quat (sq (initial_guess_ f)) /\ weights_ok f /\
    forall difference atan2 score, difference_ok difference -> atan2_ok atan2 ->
      0 < nlopt7_apply difference (quaternion_rpy atan2) score f (initial_guess_ f).
Proof.
  exists half_turn_guess. destruct half_turn_ok as [U W]. split; [exact U|]. split; [exact W|].
  intros difference atan2 score Hd Ha. apply nlopt7_half_turn; cbn; try assumption; try lra. reflexivity.
Qed.
Lemma alglib7_positive :
  exists (f : functor pose7 unit), unit_quat (sq (initial_guess_ f)) /\ weights_ok f /\
    forall score x, unit_quat (sq x) -> 0 < sum_squares (alglib7_apply score f x).
Proof.
  exists half_turn_guess. destruct half_turn_ok as [U W]. split; [exact U|]. split; [exact W|].
  intros score x Hx. rewrite alglib7_at_guess; [|reflexivity|exact U|exact Hx]. cbn [rotation_weight_ translation_weight_ half_turn_guess].
  set (a := sx x - _). set (b := sy x - _). set (d := sz x - _). nra.
Qed.

(** C41, C50: the objective functions of the nlopt and alglib matchers. *)
From Coq Require Import Reals Lra List.
From Verif Require Import MatchModel MatchSpec MatchFacts ObjectiveModel ObjectiveSpec ObjectiveFacts.
Import ListNotations.
Open Scope R_scope.

(** C41, full statement for the 2D occupancy map with nlopt: false, [apply] squares and halves, which
    [mapScore] does not undo. Two points with scores 1/2, pose at the guess: 31/32 instead of 1/2. *)
Theorem C41_occupancy2_refuted :
  exists (difference : R -> R -> R) (score : pose2 -> nat -> option R) (f : functor pose2 nat) (x : pose2),
    difference_ok difference /\ map_weight_ f <> 0 /\ points_ f <> [] /\
    mean_score score x (points_ f) = 1 / 2 /\
    nlopt2_mapScore difference f x (nlopt2_occupancy_apply difference score f x) = 31 / 32.
Proof. exact occupancy2_differs. Qed.
Print Assumptions C41_occupancy2_refuted.

(** C41, full statement for the 3D occupancy map with nlopt: false, a missing score adds no cost and
    so counts as a perfect 1: a scan that hits nothing has score 1. *)
Theorem C41_occupancy3_refuted :
  exists (difference : R -> R -> R) (score : pose6 -> nat -> option R) (f : functor pose6 nat) (x : pose6),
    difference_ok difference /\ map_weight_ f <> 0 /\ points_ f <> [] /\
    mean_score score x (points_ f) = 0 /\
    nlopt6_mapScore difference f x (nlopt6_occupancy_apply difference score f x) = 1.
Proof. exact occupancy3_differs. Qed.
Print Assumptions C41_occupancy3_refuted.

Theorem C41_occupancy3_missing_counts_as_one_partial {point : Type} (difference : R -> R -> R) (rpy : quat -> R * R * R)
  (s6 : pose6 -> point -> option R) (f6 : functor pose6 point) (x6 : pose6)
  (s7 : pose7 -> point -> option R) (f7 : functor pose7 point) (x7 : pose7) :
  (map_weight_ f6 <> 0 -> points_ f6 <> [] ->
   nlopt6_mapScore difference f6 x6 (nlopt6_occupancy_apply difference s6 f6 x6) =
   mean_score (fun y p => Some (match s6 y p with Some v => v | None => 1 end)) x6 (points_ f6)) /\
  (map_weight_ f7 <> 0 -> points_ f7 <> [] ->
   nlopt7_mapScore difference rpy f7 x7 (nlopt7_occupancy_apply difference rpy s7 f7 x7) =
   mean_score (fun y p => Some (match s7 y p with Some v => v | None => 1 end)) x7 (points_ f7)).
Proof. exact (conj (nlopt_skipping s6 f6 x6 _ _) (nlopt_skipping s7 f7 x7 _ _)). Qed.
Print Assumptions C41_occupancy3_missing_counts_as_one_partial.

(** C41, what holds: the law for the maps without occupancy with nlopt, in 2D and in 3D with both kinds
    of rotation, for every pose, point cloud and score ... *)
Theorem C41_nlopt_partial {point : Type} (difference : R -> R -> R) (rpy : quat -> R * R * R)
  (s2 : pose2 -> point -> option R) (f2 : functor pose2 point) (x2 : pose2)
  (s6 : pose6 -> point -> option R) (f6 : functor pose6 point) (x6 : pose6)
  (s7 : pose7 -> point -> option R) (f7 : functor pose7 point) (x7 : pose7) :
  (map_weight_ f2 <> 0 -> points_ f2 <> [] ->
   nlopt2_mapScore difference f2 x2 (nlopt2_apply difference s2 f2 x2) = mean_score s2 x2 (points_ f2)) /\
  (map_weight_ f6 <> 0 -> points_ f6 <> [] ->
   nlopt6_mapScore difference f6 x6 (nlopt6_apply difference s6 f6 x6) = mean_score s6 x6 (points_ f6)) /\
  (map_weight_ f7 <> 0 -> points_ f7 <> [] ->
   nlopt7_mapScore difference rpy f7 x7 (nlopt7_apply difference rpy s7 f7 x7) = mean_score s7 x7 (points_ f7)).
Proof. exact (conj (nlopt_roundtrip s2 f2 x2 _ _) (conj (nlopt_roundtrip s6 f6 x6 _ _) (nlopt_roundtrip s7 f7 x7 _ _))). Qed.
Print Assumptions C41_nlopt_partial.

(** ... and for all alglib functions, with and without occupancy. *)
Theorem C41_alglib_partial {point : Type} (difference : R -> R -> R)
  (s2 : pose2 -> point -> option R) (f2 : functor pose2 point) (x2 : pose2)
  (s6 : pose6 -> point -> option R) (f6 : functor pose6 point) (x6 : pose6)
  (s7 : pose7 -> point -> option R) (f7 : functor pose7 point) (x7 : pose7) :
  (map_weight_ f2 <> 0 -> points_ f2 <> [] ->
   alglib_score f2 (alglib2_apply difference s2 f2 x2) = mean_score s2 x2 (points_ f2)) /\
  (map_weight_ f6 <> 0 -> points_ f6 <> [] ->
   alglib_score f6 (alglib6_apply difference s6 f6 x6) = mean_score s6 x6 (points_ f6)) /\
  (map_weight_ f7 <> 0 -> points_ f7 <> [] ->
   alglib_score f7 (alglib7_apply s7 f7 x7) = mean_score s7 x7 (points_ f7)).
Proof. exact (conj (alglib_roundtrip s2 f2 x2 _) (conj (alglib_roundtrip s6 f6 x6 _) (alglib_roundtrip s7 f7 x7 _))). Qed.
Print Assumptions C41_alglib_partial.

(** A cloud of three points, one of which misses the map: mean (1/2 + 1/4 + 0) / 3, away from the guess. *)
Example C41_example :
  let score (x : pose2) (p : nat) := match p with 0%nat => Some (1 / 2) | 1%nat => Some (1 / 4) | _ => None end in
  let f := {| points_ := [0; 1; 2]%nat; initial_guess_ := {| px := 1; py := 0; pyaw := 0 |};
              translation_weight_ := 3; rotation_weight_ := 5; map_weight_ := 2 |} in
  let x := {| px := 0; py := 2; pyaw := 1 |} in
  map_weight_ f <> 0 /\ points_ f <> [] /\
  nlopt2_mapScore (angle_difference acos_atan2) f x (nlopt2_apply (angle_difference acos_atan2) score f x) = 1 / 4.
Proof.
  intros score f x. assert (Hw : map_weight_ f <> 0) by (cbn; lra). assert (Hp : points_ f <> []) by discriminate.
  split; [exact Hw|]. split; [exact Hp|]. unfold nlopt2_mapScore, nlopt2_apply. rewrite nlopt_roundtrip by assumption.
  unfold mean_score; cbn. lra.
Qed.

(** C50: without map term, the 2D objectives and the 3D objectives with angles are zero exactly at the
    initial guess (angles up to whole turns), and never negative. *)
Theorem C50_penalty_zero_at_guess_partial {point : Type} (difference : R -> R -> R)
  (s2 : pose2 -> point -> option R) (f2 : functor pose2 point) (x2 : pose2)
  (s6 : pose6 -> point -> option R) (f6 : functor pose6 point) (x6 : pose6) :
  difference_ok difference -> weights_ok f2 -> weights_ok f6 ->
  (0 <= nlopt2_apply difference s2 f2 x2 /\
   (nlopt2_apply difference s2 f2 x2 = 0 <-> at_guess2 x2 (initial_guess_ f2))) /\
  (0 <= nlopt2_occupancy_apply difference s2 f2 x2 /\
   (nlopt2_occupancy_apply difference s2 f2 x2 = 0 <-> at_guess2 x2 (initial_guess_ f2))) /\
  (0 <= nlopt6_apply difference s6 f6 x6 /\
   (nlopt6_apply difference s6 f6 x6 = 0 <-> at_guess6 x6 (initial_guess_ f6))) /\
  (0 <= nlopt6_occupancy_apply difference s6 f6 x6 /\
   (nlopt6_occupancy_apply difference s6 f6 x6 = 0 <-> at_guess6 x6 (initial_guess_ f6))) /\
  (sum_squares (alglib2_apply difference s2 f2 x2) = 0 <-> at_guess2 x2 (initial_guess_ f2)) /\
  (sum_squares (alglib6_apply difference s6 f6 x6) = 0 <-> at_guess6 x6 (initial_guess_ f6)).
Proof.
  exact (fun Hd H2 H6 =>
    conj (nlopt2_penalty difference Hd s2 f2 x2 H2) (conj (nlopt2_occupancy_penalty difference Hd s2 f2 x2 H2)
     (conj (nlopt6_penalty difference Hd s6 f6 x6 false H6) (conj (nlopt6_penalty difference Hd s6 f6 x6 true H6)
      (conj (alglib2_penalty difference Hd s2 f2 x2 H2) (alglib6_penalty difference Hd s6 f6 x6 H6)))))).
Qed.
Print Assumptions C50_penalty_zero_at_guess_partial.

(** C50, full statement for quaternions: false for nlopt, which compares roll, pitch and yaw of the pose
    with the x, y, z of the guess's quaternion. At a guess turned by half a turn the penalty is positive,
    whatever the angle functions do at their end points ... *)
Theorem C50_nlopt_quaternion_refuted :
  exists (f : functor pose7 unit), unit_quat (sq (initial_guess_ f)) /\ weights_ok f /\
    forall difference atan2 score, difference_ok difference -> atan2_ok atan2 ->
      0 < nlopt7_apply difference (quaternion_rpy atan2) score f (initial_guess_ f).
Proof. exact nlopt7_positive_at_guess. Qed.
Print Assumptions C50_nlopt_quaternion_refuted.

(** ... and for alglib, whose rotational part is the same constant for every rotation. *)
Theorem C50_alglib_quaternion_refuted :
  exists (f : functor pose7 unit), unit_quat (sq (initial_guess_ f)) /\ weights_ok f /\
    forall score x, unit_quat (sq x) -> 0 < sum_squares (alglib7_apply score f x).
Proof. exact alglib7_positive. Qed.
Print Assumptions C50_alglib_quaternion_refuted.

Theorem C50_alglib_quaternion_constant {point : Type} (score : pose7 -> point -> option R) (f : functor pose7 point) (x : pose7) :
  map_weight_ f = 0 -> unit_quat (sq (initial_guess_ f)) -> unit_quat (sq x) ->
  sum_squares (alglib7_apply score f x) =
  rotation_weight_ f * rotation_weight_ f +
  translation_weight_ f * translation_weight_ f *
    ((sx x - sx (initial_guess_ f)) * (sx x - sx (initial_guess_ f)) +
     (sy x - sy (initial_guess_ f)) * (sy x - sy (initial_guess_ f)) +
     (sz x - sz (initial_guess_ f)) * (sz x - sz (initial_guess_ f))).
Proof. exact (fun Hm Hg => alglib7_at_guess score f Hm Hg x). Qed.
Print Assumptions C50_alglib_quaternion_constant.

(** The angle difference of the ceres functors is such a [difference]. *)
Example C50_example :
  difference_ok (angle_difference acos_atan2) /\
  weights_ok (point:=nat) {| points_ := [1%nat]; initial_guess_ := {| px := 1; py := 0; pyaw := 0 |};
              translation_weight_ := 3; rotation_weight_ := 5; map_weight_ := 0 |} /\
  at_guess2 {| px := 1; py := 0; pyaw := 0 + IZR 1 * (2 * PI) |} {| px := 1; py := 0; pyaw := 0 |}.
Proof.
  split; [exact (fun a b => angle_difference_zero acos_atan2 a b acos_atan2_ok)|].
  split; [unfold weights_ok; cbn; lra|]. unfold at_guess2; cbn. repeat split. exists 1%Z. reflexivity.
Qed.

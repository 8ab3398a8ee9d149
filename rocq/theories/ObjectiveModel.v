(** The objective functions of the nlopt and alglib matchers: apply and mapScore of
    cslibs_ndt_2d/matching/{nlopt,alglib}/{,occupancy_}gridmap_function.hpp and of the same four files
    of cslibs_ndt_3d. Numbers are exact reals. Left out: the checks for a null functor and for a wanted
    gradient (both print a message and return 0). alglib's output array is the list of values in the
    order of the [fi\[i++\] = ...] statements. Definitions only. *)
From Coq Require Import Reals List.
From Verif Require Import MatchModel.
Import ListNotations.
Open Scope R_scope.

(** A pose of the 2D functions: x, y, yaw; of the 3D functions: x, y, z with roll, pitch, yaw or with a
    quaternion (stored x y z w). *)
Record pose2 : Type := { px : R; py : R; pyaw : R }.
Record pose6 : Type := { tx : R; ty : R; tz : R; r0 : R; r1 : R; r2 : R }.
Record pose7 : Type := { sx : R; sy : R; sz : R; sq : quat }.

Section Objective.
Context {pose point : Type}.
(** [map.sampleNonNormalized(current_transform * p)] for the pose and the point: [None] is a value that
    is not [std::isnormal] (0, subnormal, infinite or NaN). *)
Variable score : pose -> point -> option R.

(** The members of [Functor] (gridmap_function.hpp 2D nlopt:23-31); the map is [score]. *)
Record functor : Type := {
  points_ : list point;
  initial_guess_ : pose;
  translation_weight_ : R;
  rotation_weight_ : R;
  map_weight_ : R }.

Definition size (l : list point) : R := INR (length l).

(** 2D nlopt/gridmap_function.hpp:56-61, also 3D nlopt/gridmap_function.hpp:63-68 and 135-140:
    [fi += std::isnormal(score) ? (1.0 - score) : 1.0]. *)
Definition map_cost (s : option R) : R := match s with Some v => 1 - v | None => 1 end.
Definition map_sum (x : pose) (l : list point) : R := fold_left (fun fi p => fi + map_cost (score x p)) l 0.
(** 3D nlopt/occupancy_gridmap_function.hpp:65-71 and 139-145: [if (isnormal(score)) fi += 1.0 - score]. *)
Definition map_sum_skipping (x : pose) (l : list point) : R :=
  fold_left (fun fi p => match score x p with Some v => fi + (1 - v) | None => fi end) l 0.

(** The last statements of every nlopt [apply] except the 2D occupancy one (2D gridmap_function.hpp:69-73):
    [fi] is the sum over the points, the differences to the guess are given. *)
Definition nlopt_total (f : functor) (fi trans_diff rot_diff : R) : R :=
  map_weight_ f * fi / size (points_ f) + translation_weight_ f * trans_diff + rotation_weight_ f * Rabs rot_diff.
(** The last statement of every nlopt [mapScore] (2D gridmap_function.hpp:91-95). *)
Definition nlopt_score (f : functor) (fi trans_diff rot_diff : R) : R :=
  1 - (fi - translation_weight_ f * trans_diff - rotation_weight_ f * Rabs rot_diff) / map_weight_ f.

(** 2D alglib/gridmap_function.hpp:53-60 (occupancy 55-62, 3D 57-63, 121-127, ...). *)
Definition alglib_points (f : functor) (x : pose) : list R :=
  map (fun p => map_weight_ f * map_cost (score x p) / size (points_ f)) (points_ f).
(** 2D alglib/gridmap_function.hpp:78-89, the same text in every alglib [mapScore]: a loop over the
    first [num_points] entries. *)
Definition alglib_score (f : functor) (fi : list R) : R :=
  fold_left (fun acc v => acc + (1 / size (points_ f) - v * (1 / map_weight_ f)))
            (firstn (length (points_ f)) fi) 0.
End Objective.
Arguments functor : clear implicits.

Definition hypot2 (x y : R) : R := sqrt (x * x + y * y).
(** 3D nlopt/gridmap_function.hpp:34-38 [hypot]. *)
Definition hypot3 (x y z : R) : R := sqrt (x * x + y * y + z * z).

Section Functions.
Context {point : Type}.
(** [cslibs_math::common::angle::difference]. *)
Variable difference : R -> R -> R.
(** [roll()], [pitch()], [yaw()] of [cslibs_math_3d::Quaternion]. *)
Variable rpy : quat -> R * R * R.

(** 2D nlopt/gridmap_function.hpp:63-66 and 85-89: differences to the initial guess. *)
Definition trans_diff2 (x g : pose2) : R := hypot2 (px x - px g) (py x - py g).
Definition rot_diff2 (x g : pose2) : R := difference (pyaw x) (pyaw g).
(** 3D nlopt/gridmap_function.hpp:70-75 and 94-100. *)
Definition trans_diff6 (x g : pose6) : R := hypot3 (tx x - tx g) (ty x - ty g) (tz x - tz g).
Definition rot_diff6 (x g : pose6) : R :=
  hypot3 (difference (r0 x) (r0 g)) (difference (r1 x) (r1 g)) (difference (r2 x) (r2 g)).
(** 3D nlopt/gridmap_function.hpp:142-147 and 167-173: the angles of the current rotation are compared
    with entries 3, 4, 5 of the guess, which hold the x, y, z of a quaternion. *)
Definition trans_diff7 (x g : pose7) : R := hypot3 (sx x - sx g) (sy x - sy g) (sz x - sz g).
Definition rot_diff7 (x g : pose7) : R :=
  let '(roll, pitch, yaw) := rpy (sq x) in
  hypot3 (difference roll (qx (sq g))) (difference pitch (qy (sq g))) (difference yaw (qz (sq g))).

(** 2D nlopt/gridmap_function.hpp:33-74 and 76-96. *)
Definition nlopt2_apply (score : pose2 -> point -> option R) (f : functor pose2 point) (x : pose2) : R :=
  nlopt_total f (map_sum score x (points_ f)) (trans_diff2 x (initial_guess_ f)) (rot_diff2 x (initial_guess_ f)).
Definition nlopt2_mapScore (f : functor pose2 point) (x : pose2) (fi : R) : R :=
  nlopt_score f fi (trans_diff2 x (initial_guess_ f)) (rot_diff2 x (initial_guess_ f)).
(** 2D nlopt/occupancy_gridmap_function.hpp:34-81 [apply]; its [mapScore] (83-103) is [nlopt2_mapScore]. *)
Definition nlopt2_occupancy_apply (score : pose2 -> point -> option R) (f : functor pose2 point) (x : pose2) : R :=
  let square v := v * v in
  let g := initial_guess_ f in
  let fi := fold_left (fun fi p => fi + / 2 * map_weight_ f * square (map_cost (score x p) / size (points_ f)))
                      (points_ f) 0 in
  / 2 * (fi + translation_weight_ f * (square (px x - px g) + square (py x - py g))
            + rotation_weight_ f * square (rot_diff2 x g)).
(** 3D nlopt/gridmap_function.hpp:40-83 [applyRPY], 85-107 [mapScoreRPY]. *)
Definition nlopt6_apply (score : pose6 -> point -> option R) (f : functor pose6 point) (x : pose6) : R :=
  nlopt_total f (map_sum score x (points_ f)) (trans_diff6 x (initial_guess_ f)) (rot_diff6 x (initial_guess_ f)).
Definition nlopt6_mapScore (f : functor pose6 point) (x : pose6) (fi : R) : R :=
  nlopt_score f fi (trans_diff6 x (initial_guess_ f)) (rot_diff6 x (initial_guess_ f)).
(** 3D nlopt/gridmap_function.hpp:109-155 [applyQuaternion], 157-180 [mapScoreQuaternion]. *)
Definition nlopt7_apply (score : pose7 -> point -> option R) (f : functor pose7 point) (x : pose7) : R :=
  nlopt_total f (map_sum score x (points_ f)) (trans_diff7 x (initial_guess_ f)) (rot_diff7 x (initial_guess_ f)).
Definition nlopt7_mapScore (f : functor pose7 point) (x : pose7) (fi : R) : R :=
  nlopt_score f fi (trans_diff7 x (initial_guess_ f)) (rot_diff7 x (initial_guess_ f)).
(** 3D nlopt/occupancy_gridmap_function.hpp:41-86 [applyRPY] and 112-160 [applyQuaternion]; its mapScore
    functions (88-110, 162-185) are those above. *)
Definition nlopt6_occupancy_apply (score : pose6 -> point -> option R) (f : functor pose6 point) (x : pose6) : R :=
  nlopt_total f (map_sum_skipping score x (points_ f))
              (trans_diff6 x (initial_guess_ f)) (rot_diff6 x (initial_guess_ f)).
Definition nlopt7_occupancy_apply (score : pose7 -> point -> option R) (f : functor pose7 point) (x : pose7) : R :=
  nlopt_total f (map_sum_skipping score x (points_ f))
              (trans_diff7 x (initial_guess_ f)) (rot_diff7 x (initial_guess_ f)).

(** 2D alglib/gridmap_function.hpp:33-67, occupancy_gridmap_function.hpp:34-69. *)
Definition alglib2_apply (score : pose2 -> point -> option R) (f : functor pose2 point) (x : pose2) : list R :=
  let g := initial_guess_ f in
  alglib_points score f x ++
  [translation_weight_ f * (px x - px g); translation_weight_ f * (py x - py g);
   rotation_weight_ f * Rabs (rot_diff2 x g)].
(** 3D alglib/gridmap_function.hpp:36-73, occupancy_gridmap_function.hpp:37-75 [applyRPY]. *)
Definition alglib6_apply (score : pose6 -> point -> option R) (f : functor pose6 point) (x : pose6) : list R :=
  let g := initial_guess_ f in
  alglib_points score f x ++
  [translation_weight_ f * (tx x - tx g); translation_weight_ f * (ty x - ty g); translation_weight_ f * (tz x - tz g);
   rotation_weight_ f * Rabs (difference (r0 x) (r0 g)); rotation_weight_ f * Rabs (difference (r1 x) (r1 g));
   rotation_weight_ f * Rabs (difference (r2 x) (r2 g))].
(** 3D alglib/gridmap_function.hpp:98-143, occupancy_gridmap_function.hpp:100-146 [applyQuaternion]. *)
Definition alglib7_apply (score : pose7 -> point -> option R) (f : functor pose7 point) (x : pose7) : list R :=
  let g := initial_guess_ f in
  alglib_points score f x ++
  [translation_weight_ f * (sx x - sx g); translation_weight_ f * (sy x - sy g); translation_weight_ f * (sz x - sz g)] ++
  alglib_rotation_quaternion (rotation_weight_ f) (sq g) (sq x).
End Functions.

(** For examples: what [roll()], [pitch()], [yaw()] are (cslibs_math_3d, not part of /repo), given an
    [atan2] for every argument. *)
Definition quaternion_rpy (atan2 : R -> R -> R) (q : quat) : R * R * R :=
  (atan2 (2 * (qw q * qx q + qy q * qz q)) (1 - 2 * (qx q * qx q + qy q * qy q)),
   asin (2 * (qw q * qy q - qz q * qx q)),
   atan2 (2 * (qw q * qz q + qx q * qy q)) (1 - 2 * (qy q * qy q + qz q * qz q))).

(** The nlopt objective functions of occupancy maps in the arithmetic of [double]s, as ObjFloatModel does for maps
    of distributions. The scores of the points and the deviations from the initial guess are arguments. Left out, as
    there: the checks for a null functor and for a wanted gradient. [mapScore] of these functions has the text of
    [double_mapScore]. Definitions only. *)
From Coq Require Import ZArith List Floats.SpecFloat.
From Verif Require Import ResidualModel RoundModel FloatModel ObjFloatModel.
Import ListNotations.
Open Scope Z_scope.

(** 3D nlopt/occupancy_gridmap_function.hpp:66-71 and 140-145: the loop, which passes over scores that are not normal. *)
Definition double_occ_sum (scores : list double) : double :=
  fold_left (fun fi score => if double_isnormal score then double_add fi (double_sub double_one score) else fi) scores double_zero.
(** 3D nlopt/occupancy_gridmap_function.hpp:62-85 and 133-159. *)
Definition double_occ_apply_3d (w : double_weights) (scores : list double) (trans_diff rot_diff : double) : double :=
  let fi := double_occ_sum scores in
  double_add
    (double_add (double_div (double_mul (dw_map w) fi) (double_size (length scores)))
                (double_mul (dw_translation w) trans_diff))
    (double_mul (dw_rotation w) (SFabs rot_diff)).

(** 2D nlopt/occupancy_gridmap_function.hpp:59 [sq]. *)
Definition double_sq (x : double) : double := double_mul x x.
(** 2D nlopt/occupancy_gridmap_function.hpp:60-66: the loop. *)
Definition double_occ_squares (w : double_weights) (scores : list double) : double :=
  let num_points := double_size (length scores) in
  fold_left
    (fun fi score => double_add fi (double_mul (double_mul double_half (dw_map w)) (double_sq (double_div (double_cost score) num_points))))
    scores double_zero.
(** 2D nlopt/occupancy_gridmap_function.hpp:55-80, with [dx], [dy] for [x\[0\] - initial_guess\[0\]],
    [x\[1\] - initial_guess\[1\]]. *)
Definition double_occ_apply_2d (w : double_weights) (scores : list double) (dx dy rot_diff : double) : double :=
  let fi := double_occ_squares w scores in
  let fi := double_add fi (double_mul (dw_translation w) (double_add (double_sq dx) (double_sq dy))) in
  let fi := double_add fi (double_mul (dw_rotation w) (double_sq rot_diff)) in
  double_mul double_half fi.

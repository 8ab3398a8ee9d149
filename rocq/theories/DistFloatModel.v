(** Distance maps and likelihood fields from grids of scores in IEEE-754 arithmetic of either precision:
    cslibs_ndt_2d/conversion/distance_gridmap.hpp:17-129 and likelihood_field_gridmap.hpp:17-147. The grid is that of
    GridFloatModel.v; LikelihoodModel.v has the same conversion in exact numbers. The distances that the transform computes
    from the rounded scores are exact reals, and so are the likelihoods. Definitions only. *)
From Coq Require Import QArith Reals Floats.SpecFloat.
From Verif Require Import Base SeqModel IndexModel MapModel BackendModel SysModel ExtentModel GridModel RoundModel FloatModel GridFloatModel LikelihoodModel.
Open Scope Z_scope.

Section Format.
Variables prec emax : Z.
Context {P : Type}.
Variable c : config P.
Variable bres sres : spec_float.
Variable dsample : P -> list spec_float -> spec_float.
(** cslibs_gridmaps' DistanceTransform (not part of /repo), constructed with [sampling_resolution], [maximum_distance] and
    [threshold]: the distance it writes at a pixel of a grid of scores. *)
Variable transform : spec_float -> spec_float -> spec_float -> float_grid -> Z -> Z -> R.

(** distance_gridmap.hpp:17-69; the grid starts with 0. *)
Definition float_to_distances (maximum_distance threshold : spec_float) (allocate_all bilinear : bool) (m0 : cmap c) : outcome (cmap c * field) :=
  let* r := float_to_grid prec emax c bres sres dsample allocate_all bilinear float_zero m0 in
  Ok (fst r, {| f_width := fg_width (snd r); f_height := fg_height (snd r); f_at := transform sres maximum_distance threshold (snd r) |}).
(** likelihood_field_gridmap.hpp:17-78; the assertions on [threshold] (lines 30-31) are taken as switched on. *)
Definition float_to_likelihoods (maximum_distance : spec_float) (sigma_hit : R) (threshold : spec_float) (allocate_all bilinear : bool)
  (m0 : cmap c) : outcome (cmap c * field) :=
  if Qle_bool (float_value threshold) 1 && Qle_bool 0 (float_value threshold) then
    let* r := float_to_distances maximum_distance threshold allocate_all bilinear m0 in
    Ok (fst r, {| f_width := f_width (snd r); f_height := f_height (snd r); f_at := fun u v => likelihood sigma_hit (f_at (snd r) u v) |})
  else Throw.
End Format.

(** distance_gridmap.hpp:71-129 and likelihood_field_gridmap.hpp:80-147: the same for occupancy maps; without inverse model
    nothing happens. *)
Definition float_occ_to_distances (prec emax : Z) {P D M : Type} (c : config P) (bres sres : spec_float) (inner : P -> option D)
  (sample : D -> list spec_float -> spec_float) (occupancy : M -> P -> spec_float)
  (transform : spec_float -> spec_float -> spec_float -> float_grid -> Z -> Z -> R) (ivm : option M)
  (maximum_distance threshold : spec_float) (allocate_all bilinear : bool) (m0 : cmap c) : outcome (cmap c * option field) :=
  match ivm with
  | None => Ok (m0, None)
  | Some model =>
      let* r := float_to_distances prec emax c bres sres (float_contribution prec emax inner sample occupancy model) transform
                  maximum_distance threshold allocate_all bilinear m0 in
      Ok (fst r, Some (snd r))
  end.
Definition float_occ_to_likelihoods (prec emax : Z) {P D M : Type} (c : config P) (bres sres : spec_float) (inner : P -> option D)
  (sample : D -> list spec_float -> spec_float) (occupancy : M -> P -> spec_float)
  (transform : spec_float -> spec_float -> spec_float -> float_grid -> Z -> Z -> R) (ivm : option M)
  (maximum_distance : spec_float) (sigma_hit : R) (threshold : spec_float) (allocate_all bilinear : bool) (m0 : cmap c) :
  outcome (cmap c * option field) :=
  match ivm with
  | None => Ok (m0, None)
  | Some model =>
      let* r := float_to_likelihoods prec emax c bres sres (float_contribution prec emax inner sample occupancy model) transform
                  maximum_distance sigma_hit threshold allocate_all bilinear m0 in
      Ok (fst r, Some (snd r))
  end.

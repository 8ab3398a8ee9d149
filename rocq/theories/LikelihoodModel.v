(** The likelihood fields and distance maps made from grids: cslibs_ndt_2d/conversion/likelihood_field_gridmap.hpp:17-147
    and distance_gridmap.hpp:17-129. The loops over the bundles are those of GridModel.v; here what is done with the
    finished grid. Distances and likelihoods are exact reals. Definitions only. *)
From Coq Require Import QArith Reals Floats.SpecFloat.
From Verif Require Import Base SeqModel IndexModel OctreeSpec MapModel BackendModel SysModel ExtentModel SampleModel GridModel ResidualModel RoundModel.
Open Scope Z_scope.

(** The finished grid of reals. *)
Record field : Type := { f_width : Z; f_height : Z; f_at : Z -> Z -> R }.

Section Likelihood.
Context {P : Type}.
Variable c : config P.
Variable bres sres : Q.
Variable dsample : P -> list Q -> Q.
(** cslibs_gridmaps' DistanceTransform (not part of /repo), constructed with [sampling_resolution],
    [maximum_distance] and [threshold]: the distance it writes at a pixel of a grid of scores. *)
Variable transform : Q -> Q -> Q -> grid -> Z -> Z -> R.

(** distance_gridmap.hpp:65-68, likelihood_field_gridmap.hpp:70-73. *)
Definition distances (maximum_distance threshold : Q) (g : grid) : field :=
  {| f_width := g_width g; f_height := g_height g; f_at := transform sres maximum_distance threshold g |}.
(** likelihood_field_gridmap.hpp:32 and 75-77: [exp_factor_hit] and the function applied to every pixel. *)
Definition exp_factor_hit (sigma_hit : R) : R := (1 / 2 / (sigma_hit * sigma_hit))%R.
Definition likelihood (sigma_hit : R) (z : R) : R := exp (- z * z * exp_factor_hit sigma_hit)%R.

(** distance_gridmap.hpp:17-69; the grid starts with 0. *)
Definition to_distances (maximum_distance threshold : Q) (allocate_all bilinear : bool) (m0 : cmap c) :
  outcome (cmap c * field) :=
  let* r := to_grid c bres sres dsample allocate_all bilinear 0 m0 in
  Ok (fst r, distances maximum_distance threshold (snd r)).
(** likelihood_field_gridmap.hpp:17-78; the assertions on [threshold] (lines 30-31) are taken as
    switched on, a failing one as an exception. *)
Definition to_likelihoods (maximum_distance : Q) (sigma_hit : R) (threshold : Q) (allocate_all bilinear : bool) (m0 : cmap c) :
  outcome (cmap c * field) :=
  if Qle_bool threshold 1 && Qle_bool 0 threshold then
    let* r := to_grid c bres sres dsample allocate_all bilinear 0 m0 in
    let d := distances maximum_distance threshold (snd r) in
    Ok (fst r, {| f_width := f_width d; f_height := f_height d; f_at := fun u v => likelihood sigma_hit (f_at d u v) |})
  else Throw.

End Likelihood.

(** likelihood_field_gridmap.hpp:83-147: the same for occupancy maps; without inverse model nothing happens. *)
Definition occ_to_likelihoods {P D M : Type} (c : config P) (bres sres : Q) (inner : P -> option D) (sample : D -> list Q -> Q)
  (occupancy : M -> P -> Q) (transform : Q -> Q -> Q -> grid -> Z -> Z -> R) (ivm : option M)
  (maximum_distance : Q) (sigma_hit : R) (threshold : Q) (allocate_all bilinear : bool) (m0 : cmap c) :
  outcome (cmap c * option field) :=
  match ivm with
  | None => Ok (m0, None)
  | Some model =>
      let* r := to_likelihoods c bres sres (occ_contribution inner sample occupancy model) transform
                  maximum_distance sigma_hit threshold allocate_all bilinear m0 in
      Ok (fst r, Some (snd r))
  end.

(** likelihood_field_gridmap.hpp:32 and 77 in doubles ([T = double]), up to the call of [std::exp]: the factor
    and the argument of the exponential. *)
Definition double_factor (sigma_hit : double) : double := double_div double_half (double_mul sigma_hit sigma_hit).
Definition double_exponent (sigma_hit z : double) : double :=
  double_mul (double_mul (SFopp z) z) (double_factor sigma_hit).

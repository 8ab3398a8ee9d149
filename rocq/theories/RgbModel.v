(** The coloured point cloud of a 3D occupancy map:
    cslibs_ndt_3d/conversion/sensor_msgs_pointcloud2_rgb.hpp. Reals are exact. Not modelled: the colour scale
    itself (cslibs_math) and the conversion of the cloud to a message (cslibs_math_ros). The version for maps
    of distributions (30-59) calls [d.data()], which [Distribution] does not have, so it has no instance.
    Definitions only. *)
From Coq Require Import Reals.
From Verif Require Import Base IndexModel MapModel SysModel CloudModel.
Open Scope R_scope.

(** One point of the cloud and the arguments of [interpolateColor] for it (14-20); [alpha] is 1 (19). *)
Record rgb_point : Type := { position : nat -> R; scale_at : R; scale_from : R; scale_to : R; opacity : R }.

Section Rgb.
(** [PointcloudRGB3<T>::min()] and [max()] (cslibs_math): component-wise over all inserted points; [top] and
    [bottom] are the values of an empty cloud, the greatest and the least number of the type. *)
Variables top bottom : R.
Definition cloud_min (cloud : list (nat -> R)) (d : nat) : R := fold_left (fun a p => Rmin a (p d)) cloud top.
Definition cloud_max (cloud : list (nat -> R)) (d : nat) : R := fold_left (fun a p => Rmax a (p d)) cloud bottom.

(** sensor_msgs_pointcloud2_rgb.hpp:13-25 [ColorTransform::apply]. *)
Definition color_transform (min_z max_z : R) (p : nat -> R) : rgb_point :=
  {| position := p; scale_at := p 2%nat; scale_from := min_z; scale_to := max_z; opacity := 1 |}.

Context {D P M : Type}.
Variable c : config P.
Variable mean : D -> nat -> R.
Variable origin : (nat -> R) -> nat -> R.
Variable inner : P -> option D.
Variable occupancy : M -> P -> R.

(** sensor_msgs_pointcloud2_rgb.hpp:76-111 [rgbFrom]; the map afterwards and the coloured cloud. *)
Definition rgb_from (ivm : option M) (threshold : R) (allocate_all : bool) (m : cmap c) :
  outcome (cmap c * list rgb_point) :=
  let* r := cloud_convert c (show_occupancy_rgb mean origin inner occupancy ivm threshold) allocate_all m in
  let cloud := snd r in
  let min_z := cloud_min cloud 2%nat in
  let max_z := cloud_max cloud 2%nat in
  Ok (fst r, map (color_transform min_z max_z) cloud).
End Rgb.

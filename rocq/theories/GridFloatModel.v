(** Conversion of 2D maps to grids in IEEE-754 arithmetic of either precision: the sizes, positions, weights and
    scores of cslibs_ndt_2d/conversion/probability_gridmap.hpp:15-178 (likelihood_field_gridmap.hpp:17-68 and
    distance_gridmap.hpp:17-63 use the same lines) as the compiled code computes them. GridModel.v is the same
    conversion in exact numbers. The distance transform of the other two conversions is not modelled. Definitions only. *)
From Coq Require Import QArith Qround Floats.SpecFloat.
From Verif Require Import Base SeqModel IndexModel MapModel BackendModel SysModel ExtentModel GridModel RoundModel FloatModel.
Open Scope Z_scope.

(** cslibs_gridmaps' grid (not part of /repo) of numbers of the format: an access outside of it is an error. *)
Record float_grid : Type := { fg_width : Z; fg_height : Z; fg_at : Z -> Z -> spec_float }.
Definition float_grid_set (g : float_grid) (u v : Z) (x : spec_float) : outcome float_grid :=
  if (0 <=? u) && (u <? fg_width g) && (0 <=? v) && (v <? fg_height g)
  then Ok {| fg_width := fg_width g; fg_height := fg_height g;
             fg_at := fun a b => if (a =? u) && (b =? v) then x else fg_at g a b |}
  else UB.

Section Format.
Variables prec emax : Z.
Notation fdiv := (SFdiv prec emax).

(** probability_gridmap.hpp:40-41, for one axis: [std::ceil(extent / sampling_resolution)] converted to
    [std::size_t]; undefined for an infinity, NaN and numbers outside of [std::size_t]. *)
Definition float_pixels (extent sres : spec_float) : outcome Z :=
  let q := fdiv extent sres in
  if float_finite q then to_size (Qceiling (float_value q)) else UB.
(** probability_gridmap.hpp:45: the conversion to [int] truncates. *)
Definition float_chunk_step (bres sres : spec_float) : outcome Z :=
  let q := fdiv bres sres in
  if float_finite q then to_int (qtrunc (float_value q)) else UB.
(** probability_gridmap.hpp:55-56, one coordinate. *)
Definition float_chunk_coordinate (bres sres : spec_float) (b k : Z) : spec_float :=
  fadd prec emax (fmul prec emax (float_of_int prec emax b) bres) (fmul prec emax (float_of_int prec emax k) sres).
(** probability_gridmap.hpp:60-64. *)
Definition float_chunk_weight (b k cs : Z) : spec_float :=
  let r := fdiv (float_of_int prec emax k) (float_of_int prec emax cs) in
  if Z.odd b then r else fsub prec emax (float_one prec emax) r.

Section Grid.
Context {P : Type}.
Variable c : config P.
(** [bundle_resolution_] and [sampling_resolution]. *)
Variable bres sres : spec_float.
(** What one stored distribution contributes at a point given in map coordinates. *)
Variable dsample : P -> list spec_float -> spec_float.

(** abstract_map.hpp:185-193 [getHeight] (axis 1) and [getWidth] (axis 0): the [int] is converted to [T]. *)
Definition float_extent (m : cmap c) (d : nat) : outcome spec_float :=
  let* n := to_int (nth d (max_bi m) 0 - nth d (min_bi m) 0) in
  let* n1 := to_int (n + 1) in
  Ok (fmul prec emax (float_of_int prec emax n1) bres).

(** probability_gridmap.hpp:55-67, the body of both loops. *)
Definition float_write_pixel (bilinear : bool) (m : cmap c) (mn : idx) (cs : Z) (bi : idx) (b : bundle)
  (k : Z) (g : float_grid) (l : Z) : outcome float_grid :=
  let p := [float_chunk_coordinate bres sres (nth 0 bi 0) k; float_chunk_coordinate bres sres (nth 1 bi 0) l] in
  let* u := pixel_index (nth 0 bi 0) (nth 0 mn 0) cs k in
  let* v := pixel_index (nth 1 bi 0) (nth 1 mn 0) cs l in
  let* x := if bilinear
            then float_weighted_sum prec emax c dsample m b
                   (float_weight prec emax [float_chunk_weight (nth 0 bi 0) k cs; float_chunk_weight (nth 1 bi 0) l cs]) p
            else float_weighted_sum prec emax c dsample m b (fun _ => float_div_count prec emax c) p in
  float_grid_set g u v x.

(** probability_gridmap.hpp:51-70: the function given to [traverse]. *)
Definition float_write_bundle (bilinear : bool) (m : cmap c) (mn : idx) (cs : Z) (g : float_grid) (e : idx * bundle) : outcome float_grid :=
  ofold (fun g k => ofold (float_write_pixel bilinear m mn cs (fst e) (snd e) k) (int_range cs) g) (int_range cs) g.

(** probability_gridmap.hpp:26-71; returns the map as well because [allocate_all] changes it. *)
Definition float_to_grid (allocate_all bilinear : bool) (default_value : spec_float) (m0 : cmap c) : outcome (cmap c * float_grid) :=
  let* m := if allocate_all then cact c m0 ExpandAll else Ok m0 in
  let* h := float_extent m 1 in
  let* gh := float_pixels h sres in
  let* w := float_extent m 0 in
  let* gw := float_pixels w sres in
  let g := {| fg_width := gw; fg_height := gh; fg_at := fun _ _ => default_value |} in
  let* cs := float_chunk_step bres sres in
  let* es := cbundles c m in
  let* g' := ofold (float_write_bundle bilinear m (min_bi m) cs) es g in
  Ok (m, g').
End Grid.

(** probability_gridmap.hpp:76-124 and 129-178: without inverse model nothing happens. *)
Definition float_occ_to_grid {P D M : Type} (c : config P) (bres sres : spec_float) (inner : P -> option D)
  (sample : D -> list spec_float -> spec_float) (occupancy : M -> P -> spec_float) (ivm : option M)
  (allocate_all bilinear : bool) (default_value : spec_float) (m0 : cmap c) : outcome (cmap c * option float_grid) :=
  match ivm with
  | None => Ok (m0, None)
  | Some model =>
      let* r := float_to_grid c bres sres (float_contribution prec emax inner sample occupancy model) allocate_all bilinear default_value m0 in
      Ok (fst r, Some (snd r))
  end.
End Format.

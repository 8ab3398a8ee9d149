(** Conversion of 2D maps to grids: cslibs_ndt_2d/conversion/probability_gridmap.hpp:15-178,
    likelihood_field_gridmap.hpp:17-147 and distance_gridmap.hpp:17-129. Numbers are exact rationals
    (rounding is not modelled here). The distance transform and the exponential that the likelihood and
    distance conversions apply to the finished grid are part of cslibs_gridmaps and not modelled.
    Definitions only. *)
From Coq Require Import QArith Qround.
From Verif Require Import Base SeqModel IndexModel OctreeSpec MapModel BackendModel SysModel ExtentModel SampleModel.
Open Scope Z_scope.

(** cslibs_gridmaps' grid (not part of /repo): size and contents; an access outside of it is an
    error. *)
Record grid : Type := { g_width : Z; g_height : Z; g_at : Z -> Z -> Q }.
Definition grid_set (g : grid) (u v : Z) (x : Q) : outcome grid :=
  if (0 <=? u) && (u <? g_width g) && (0 <=? v) && (v <? g_height g)
  then Ok {| g_width := g_width g; g_height := g_height g;
             g_at := fun a b => if (a =? u) && (b =? v) then x else g_at g a b |}
  else UB.

(** Conversion of a double to [std::size_t] and to [int] (truncation). *)
Definition to_size (z : Z) : outcome Z := if (0 <=? z) && (z <? 2 ^ 64) then Ok z else UB.
Definition qtrunc (q : Q) : Z := if Qle_bool 0 q then Qfloor q else Qceiling q.

(** probability_gridmap.hpp:57-58: [(bi[d] - min_bi[d]) * chunk_step + k], [int] arithmetic stored in
    a [std::size_t]. *)
Definition pixel_index (b mn cs k : Z) : outcome Z :=
  let* a := to_int (b - mn) in
  let* s := to_int (a * cs) in
  let* u := to_int (s + k) in
  Ok (u mod 2 ^ 64).

(** The loop [for (int k = 0 ; k < n ; ++ k)]. *)
Definition int_range (n : Z) : list Z := map Z.of_nat (seq 0 (Z.to_nat n)).

Section Grid.
Context {P : Type}.
Variable c : config P.
(** [bundle_resolution_] and [sampling_resolution]. *)
Variable bres sres : Q.
(** What one stored distribution contributes at a point in map coordinates (Sample of SampleModel.v);
    for occupancy maps this includes the inverse model (probability_gridmap.hpp:118 and 120). *)
Variable dsample : P -> list Q -> Q.

(** probability_gridmap.hpp:55-56. *)
Definition chunk_point (bi : idx) (k l : Z) : list Q :=
  [inject_Z (nth 0 bi 0%Z) * bres + inject_Z k * sres; inject_Z (nth 1 bi 0%Z) * bres + inject_Z l * sres]%Q.
(** probability_gridmap.hpp:60-64. *)
Definition chunk_weight (b k cs : Z) : Q :=
  if Z.odd b then (inject_Z k / inject_Z cs)%Q else (1 - inject_Z k / inject_Z cs)%Q.

(** probability_gridmap.hpp:55-67, the body of both loops. *)
Definition write_pixel (bilinear : bool) (m : cmap c) (mn : idx) (cs : Z) (bi : idx) (b : bundle)
  (k : Z) (g : grid) (l : Z) : outcome grid :=
  let p := chunk_point bi k l in
  let* u := pixel_index (nth 0 bi 0) (nth 0 mn 0) cs k in
  let* v := pixel_index (nth 1 bi 0) (nth 1 mn 0) cs l in
  let* x := if bilinear
            then weighted_sum c dsample m b
                   (to_bilinear_interpolation_weight [chunk_weight (nth 0 bi 0) k cs; chunk_weight (nth 1 bi 0) l cs]) p
            else weighted_sum c dsample m b (fun _ => div_count c) p in
  grid_set g u v x.

(** probability_gridmap.hpp:51-70: the function given to [traverse]. *)
Definition write_bundle (bilinear : bool) (m : cmap c) (mn : idx) (cs : Z) (g : grid) (e : idx * bundle) : outcome grid :=
  ofold (fun g k => ofold (write_pixel bilinear m mn cs (fst e) (snd e) k) (int_range cs) g) (int_range cs) g.

(** probability_gridmap.hpp:26-71 (likelihood_field_gridmap.hpp:17-68 and distance_gridmap.hpp:17-63 with
    [default_value] 0); returns the map as well because [allocate_all] changes it. *)
Definition to_grid (allocate_all bilinear : bool) (default_value : Q) (m0 : cmap c) : outcome (cmap c * grid) :=
  let* m := if allocate_all then cact c m0 ExpandAll else Ok m0 in
  let* h := getExtent c bres m 1 in
  let* gh := to_size (Qceiling (h / sres)) in
  let* w := getExtent c bres m 0 in
  let* gw := to_size (Qceiling (w / sres)) in
  let g := {| g_width := gw; g_height := gh; g_at := fun _ _ => default_value |} in
  let* cs := to_int (qtrunc (bres / sres)) in
  let* es := cbundles c m in
  let* g' := ofold (write_bundle bilinear m (min_bi m) cs) es g in
  Ok (m, g').

End Grid.

(** probability_gridmap.hpp:76-124 and 129-178: without inverse model nothing happens. *)
Definition occ_to_grid {P D M : Type} (c : config P) (bres sres : Q) (inner : P -> option D) (sample : D -> list Q -> Q)
  (occupancy : M -> P -> Q) (ivm : option M) (allocate_all bilinear : bool) (default_value : Q) (m0 : cmap c) :
  outcome (cmap c * option grid) :=
  match ivm with
  | None => Ok (m0, None)
  | Some model =>
      let* r := to_grid c bres sres (occ_contribution inner sample occupancy model) allocate_all bilinear default_value m0 in
      Ok (fst r, Some (snd r))
  end.

(** The objective of a scan against a map, both in floating-point arithmetic: FloatModel for the scores in
    the number type [T] of the map, ObjFloatModel for the sum in [double]s. Definitions only. *)
From Coq Require Import Floats.SpecFloat.
From Verif Require Import Base SysModel ExtentModel ResidualModel FloatModel ObjFloatModel.
Open Scope Z_scope.

Section Scan.
Variables prec emax : Z.
Context {P : Type}.
Variable c : config P.
(** [bundle_resolution_inv_]. *)
Variable inv : spec_float.
Variable dsample : P -> list spec_float -> spec_float.

(** [const double score = map.sampleNonNormalized(q)] for every point (2D nlopt/gridmap_function.hpp:57-59,
    3D :64-66); the points are already in map coordinates, the transformation is left out. *)
Definition scan_scores (m : cmap c) (points : list (list spec_float)) : outcome (list double) :=
  omap (fun p => let* s := float_sampleNonNormalized prec emax c inv dsample m p in Ok (widen s)) points.
(** 2D nlopt/gridmap_function.hpp:33-74 [apply] and 76-96 [mapScore] of its result (3D alike). *)
Definition scan_objective (w : double_weights) (m : cmap c) (points : list (list spec_float)) (td rd : double) : outcome double :=
  let* scores := scan_scores m points in Ok (double_apply w scores td rd).
Definition scan_mapScore (w : double_weights) (m : cmap c) (points : list (list spec_float)) (td rd : double) : outcome double :=
  let* fi := scan_objective w m points td rd in Ok (double_mapScore w fi td rd).
(** 2D alglib/gridmap_function.hpp: [mapScore] of what [apply] wrote, followed by the penalties [rest]. *)
Definition scan_alglib_mapScore (w : double_weights) (m : cmap c) (points : list (list spec_float)) (rest : list double) : outcome double :=
  let* scores := scan_scores m points in
  Ok (double_alglib_score w (length points) (double_alglib_points w scores ++ rest)).
End Scan.

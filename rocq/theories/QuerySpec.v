(** When two maps, of possibly different kinds, answer every query alike. *)
From Coq Require Import QArith Qround Floats.SpecFloat.
From Verif Require Import Base MapModel SysModel ExtentModel SampleModel FloatModel GridModel.
Open Scope Z_scope.

(** The indices a map can tell apart: any of a static map, 16 bits per axis of a dynamic map (C06). *)
Definition told_apart {P : Type} (c : config P) (bi : idx) : Prop :=
  length bi = dimc c /\ (kindc c = Dynamic -> Forall (fun z => -32768 <= z <= 32767) bi).

(** The plain and the bilinear score of every point exist and are the same, whatever a distribution
    contributes. *)
Definition same_scores {P : Type} (c c' : config P) (m : cmap c) (m' : cmap c') : Prop :=
  forall (inv : Q) (contribution : P -> list Q -> Q) (p : list Q) (bi : idx),
    toBundleIndex inv p = Ok bi -> told_apart c bi -> told_apart c' bi ->
    exists s t,
      sampleNonNormalized c inv contribution m p = Ok s /\ sampleNonNormalized c' inv contribution m' p = Ok s /\
      sampleNonNormalizedBilinear c inv contribution m p = Ok t /\ sampleNonNormalizedBilinear c' inv contribution m' p = Ok t.
(** With an inverse model. *)
Definition same_occupancy_scores {P : Type} (c c' : config P) (m : cmap c) (m' : cmap c') : Prop :=
  forall (D M : Type) (inv : Q) (inner : P -> option D) (sample : D -> list Q -> Q) (occupancy : M -> P -> Q) (ivm : M)
    (p : list Q) (bi : idx),
    toBundleIndex inv p = Ok bi -> told_apart c bi -> told_apart c' bi ->
    exists s t,
      occ_sampleNonNormalized c inv inner sample occupancy m p (Some ivm) = Ok s /\
      occ_sampleNonNormalized c' inv inner sample occupancy m' p (Some ivm) = Ok s /\
      occ_sampleNonNormalizedBilinear c inv inner sample occupancy m p (Some ivm) = Ok t /\
      occ_sampleNonNormalizedBilinear c' inv inner sample occupancy m' p (Some ivm) = Ok t.
(** In the arithmetic of [float] and [double] every bit of the scores. *)
Definition same_float_scores {P : Type} (c c' : config P) (m : cmap c) (m' : cmap c') : Prop :=
  forall (prec emax : Z) (inv : spec_float) (contribution : P -> list spec_float -> spec_float) (p : list spec_float) (bi : idx),
    float_bundle_index prec emax inv p = Ok bi -> told_apart c bi -> told_apart c' bi ->
    exists s t,
      float_sampleNonNormalized prec emax c inv contribution m p = Ok s /\
      float_sampleNonNormalized prec emax c' inv contribution m' p = Ok s /\
      float_sampleNonNormalizedBilinear prec emax c inv contribution m p = Ok t /\
      float_sampleNonNormalizedBilinear prec emax c' inv contribution m' p = Ok t.
(** The grids made of the maps have the same size and pixels, if the map has at most
    INT_MAX pixels per axis. *)
Definition same_grids {P : Type} (c c' : config P) (m : cmap c) (m' : cmap c') : Prop :=
  forall (bres sres : Q) (contribution : P -> list Q -> Q) (bilinear : bool) (default_value : Q) (w0 w1 : Q),
    (0 < bres)%Q -> (0 < sres)%Q -> (bres <= inject_Z INT_MAX * sres)%Q ->
    getExtent c bres m 0 = Ok w0 -> getExtent c bres m 1 = Ok w1 ->
    (0 <= w0 /\ w0 <= inject_Z INT_MAX * sres)%Q -> (0 <= w1 /\ w1 <= inject_Z INT_MAX * sres)%Q ->
    exists g g',
      to_grid c bres sres contribution false bilinear default_value m = Ok (m, g) /\
      to_grid c' bres sres contribution false bilinear default_value m' = Ok (m', g') /\
      g_width g' = g_width g /\ g_height g' = g_height g /\ forall u v, g_at g' u v = g_at g u v.
Definition same_queries {P : Type} (c c' : config P) (m : cmap c) (m' : cmap c') : Prop :=
  same_scores c c' m m' /\ same_occupancy_scores c c' m m' /\ same_float_scores c c' m m'.

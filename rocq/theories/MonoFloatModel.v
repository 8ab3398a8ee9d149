(** Conversion of the grid map with one distribution per cell to a probability grid in IEEE-754 arithmetic of either
    precision: conversion/probability_gridmap.hpp:14-21 and 180-217 with static_maps/mono_gridmap.hpp:199-204 and
    225-238. MonoModel.v has the same conversion in exact numbers. The contents of the map come from the operations of
    MonoModel.v, which find the cell of an inserted point exactly. Definitions only. *)
From Coq Require Import QArith Qround Floats.SpecFloat.
From Verif Require Import Base SeqModel IndexModel MapModel BackendModel SysModel ExtentModel GridModel MonoModel RoundModel FloatModel GridFloatModel.
Open Scope Z_scope.

Section Format.
Variables prec emax : Z.

(** probability_gridmap.hpp:14-21 [validate]: [T()] for numbers above 1 and numbers that are not normal
    ([std::isnormal]: neither zero, subnormal, infinite nor NaN). *)
Definition float_validate (v : spec_float) : spec_float :=
  match v with
  | S754_finite _ m _ => if (Z.pos (digits2_pos m) =? prec) && Qle_bool (float_value v) 1 then v else float_zero
  | _ => float_zero
  end.

(** mono_gridmap.hpp:230-238 [getHeight] (axis 1) and [getWidth] (axis 0): [size_[d] * resolution_], the
    [std::size_t] is converted to [T]. *)
Definition float_mono_extent (res : spec_float) (n : Z) : spec_float := fmul prec emax (float_of_int prec emax n) res.
(** probability_gridmap.hpp:203-207, one axis: [static_cast<int>(p(d) / src.getResolution())] for
    [p(d) = u * sampling_resolution]; undefined for numbers that are no [int]. *)
Definition float_mono_cell (res sres : spec_float) (u : Z) : outcome Z :=
  let q := SFdiv prec emax (fmul prec emax (float_of_int prec emax u) sres) res in
  if float_finite q then to_int (qtrunc (float_value q)) else UB.

Section Grid.
Context {V W : Type}.
Variable merge : V -> V -> V.
(** [sampleNonNormalized] of a distribution; [src.getOrigin() * p]. *)
Variable dsample : V -> W -> spec_float.
Variable from_grid : list spec_float -> W.
Variables res sres : spec_float.

(** mono_gridmap.hpp:199-204. *)
Definition float_mono_sample_at (m : mono V) (p : W) (i : idx) : outcome spec_float :=
  let* o := bget (array_backend merge) (mo_store m) i in
  Ok (match o with Some d => dsample d p | None => float_zero end).

(** probability_gridmap.hpp:203-212, the body of both loops. *)
Definition float_mono_pixel (m : mono V) (v : Z) (g : float_grid) (u : Z) : outcome float_grid :=
  let p := [fmul prec emax (float_of_int prec emax u) sres; fmul prec emax (float_of_int prec emax v) sres] in
  let* a := float_mono_cell res sres u in
  let* b := float_mono_cell res sres v in
  let* i := to_int (nth 0 (mo_min m) 0 + a) in
  let* j := to_int (nth 1 (mo_min m) 0 + b) in
  let* x := float_mono_sample_at m (from_grid p) [i; j] in
  let y := float_validate x in
  if Qle_bool 0 (float_value y) then float_grid_set g u v y else Ok g.

(** probability_gridmap.hpp:180-217. *)
Definition float_mono_to_grid (m : mono V) : outcome float_grid :=
  let* gh := float_pixels prec emax (float_mono_extent res (nth 1 (mo_size m) 0)) sres in
  let* gw := float_pixels prec emax (float_mono_extent res (nth 0 (mo_size m) 0)) sres in
  ofold (fun g v => ofold (float_mono_pixel m v) (int_range gw) g) (int_range gh)
    {| fg_width := gw; fg_height := gh; fg_at := fun _ _ => float_zero |}.
End Grid.
End Format.

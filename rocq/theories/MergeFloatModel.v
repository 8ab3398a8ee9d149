(** Creation of the grid map with one distribution per cell from a dynamic map in IEEE-754 arithmetic of either precision:
    conversion/merge.hpp:10-41 with the resolutions as the compiled code computes them. Definitions only. *)
From Coq Require Import QArith Floats.SpecFloat.
From Verif Require Import Base SeqModel IndexModel MapModel BackendModel SysModel ExtentModel MonoModel RoundModel FloatModel MonoFloatModel MonoPointModel.
Open Scope Z_scope.

Section Format.
Variables prec emax : Z.

(** conversion/merge.hpp:26-29: the resolution of the created map is [src->getBundleResolution()]
    (cslibs_ndt/map/abstract_map.hpp:175-178). *)
Definition float_merged_resolution (resolution : spec_float) : spec_float := float_resolution prec emax resolution.
(** conversion/merge.hpp:10-41 for a source that is not null and was constructed with [resolution]. *)
Definition float_merge_map {P : Type} (c : config P) (resolution : spec_float) (plus : P -> P -> P) (m : cmap c) : outcome (mono P) :=
  merge_map c (float_value (float_merged_resolution resolution)) plus m.
(** static_maps/mono_gridmap.hpp:53, [resolution_inv_] of the created map. *)
Definition float_merged_inv (resolution : spec_float) : spec_float := float_mono_inv prec emax (float_merged_resolution resolution).
End Format.

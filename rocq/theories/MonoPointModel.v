(** Points in the grid map with one distribution per cell in IEEE-754 arithmetic of either precision:
    static_maps/mono_gridmap.hpp:48-56, 168-213 and 301-309 as the compiled code computes them. MonoModel.v has the same
    functions in exact numbers. The point in map coordinates, [m_T_w_ * p_w], is a parameter. Definitions only. *)
From Coq Require Import QArith Floats.SpecFloat.
From Verif Require Import Base SeqModel IndexModel MapModel BackendModel SysModel ExtentModel MonoModel RoundModel FloatModel MonoFloatModel.
Open Scope Z_scope.

Section Format.
Variables prec emax : Z.

(** mono_gridmap.hpp:53 and 75: [resolution_inv_(1.0 / resolution_)], the division is one of [double]s. *)
Definition float_mono_inv (res : spec_float) : spec_float := narrow prec emax (double_div double_one (widen res)).

Section Mono.
Context {V W : Type}.
Variable default : V.
Variable merge : V -> V -> V.
Variable to_m : W -> list spec_float.
Variable add : V -> W -> V.
Variable dsample : V -> W -> spec_float.
(** [resolution_inv_]. *)
Variable inv : spec_float.

(** mono_gridmap.hpp:301-309 [toIndex]; [None]: returns false. *)
Definition float_mono_toIndex (m : mono V) (p : W) : outcome (option idx) :=
  let* i := float_bundle_index prec emax inv (to_m p) in
  Ok (if (nth 0 (mo_min m) 0 <=? nth 0 i 0) && (nth 0 i 0 <=? nth 0 (mo_max m) 0) &&
         ((nth 1 (mo_min m) 0 <=? nth 1 i 0) && (nth 1 i 0 <=? nth 1 (mo_max m) 0))
      then Some i else None).
(** mono_gridmap.hpp:168-176 [insert]. *)
Definition float_mono_insert (m : mono V) (p : W) : outcome (mono V) :=
  let* o := float_mono_toIndex m p in
  match o with
  | None => Ok m
  | Some i => mono_modify default merge m i (fun d => add d p)
  end.
(** mono_gridmap.hpp:206-213 [get]. *)
Definition float_mono_get (m : mono V) (p : W) : outcome (option V) :=
  let* o := float_mono_toIndex m p in
  match o with None => Ok None | Some i => bget (array_backend merge) (mo_store m) i end.
(** mono_gridmap.hpp:178-182 and 193-197 [sample] and [sampleNonNormalized]. *)
Definition float_mono_sample (m : mono V) (p : W) : outcome spec_float :=
  let* o := float_mono_toIndex m p in
  match o with None => Ok float_zero | Some i => float_mono_sample_at merge dsample m p i end.

(** A history: points inserted, cells changed through [getDistribution]. *)
Definition float_mono_step (m : mono V) (o : mono_op (V:=V) (W:=W)) : outcome (mono V) :=
  match o with
  | MInsert p => float_mono_insert m p
  | MModify i f => mono_modify default merge m i f
  end.
Definition float_mono_run (ops : list (mono_op (V:=V) (W:=W))) (m : mono V) : outcome (mono V) := ofold float_mono_step ops m.
End Mono.
End Format.

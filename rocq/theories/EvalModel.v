(** What the ceres cost functors evaluate at a point: the DIRECT functors of
    cslibs_ndt_2d/matching/ceres/map/{,occupancy_}gridmap_cost_functor.hpp (the 3D ones are the same
    text with three coordinates). [p] is already in map coordinates: the autodiff version computes
    [rot_ * p + trans_] with the inverse of the initial origin (2D gridmap_cost_functor.hpp:30-32, 46), the other one
    [m_T_w_ * p]; only the value part of a Jet is modelled; numbers are exact rationals. Definitions only. *)
From Coq Require Import QArith Qround.
From Verif Require Import Base SeqModel IndexModel MapModel SysModel ExtentModel SampleModel.
Open Scope Z_scope.

Section Evaluate.
Context {P : Type}.
Variable c : config P.
(** [resolution_inv_] = [1.0 / map_.getBundleResolution()] = [bundle_resolution_inv_]. *)
Variable inv : Q.
(** [di->valid()] and the exponential of the squared distance. *)
Variable valid : P -> bool.
Variable kernel : P -> list Q -> Q.

(** [sampleNonNormalized] of cslibs_math's StableDistribution (not part of /repo): 0 unless valid. *)
Definition dsample (d : P) (p : list Q) : Q := if valid d then kernel d p else 0%Q.

(** gridmap_cost_functor.hpp:35-39 [Evaluate] for doubles (numeric differentiation). *)
Definition evaluate_double (m : cmap c) (p : list Q) : outcome Q :=
  let* s := sampleNonNormalized c inv dsample m p in Ok (1 - s)%Q.

(** gridmap_cost_functor.hpp:41-70 [Evaluate] for Jets (automatic differentiation). *)
Definition evaluate_jet (m : cmap c) (p : list Q) : outcome Q :=
  let* bi := toBundleIndex inv p in
  let* ob := cbundle c m bi in
  match ob with
  | None => Ok 1%Q
  | Some b =>
      ofold (fun value i =>
               match nth_error (slots b) i with
               | None => UB
               | Some sl =>
                   let* d := slot_value (bdc c) (bbc c) m i sl in
                   Ok (match d with
                       | Some v => if valid v then value - div_count c * kernel v p else value
                       | None => value
                       end)%Q
               end)
            (seq 0 (bin_count (dimc c))) 1%Q
  end.
End Evaluate.

(** occupancy_gridmap_cost_functor.hpp (2D): the same with the occupancy of the cell. *)
Section OccEvaluate.
Context {P D M : Type}.
Variable c : config P.
Variable inv : Q.
Variable inner : P -> option D.
Variable valid : D -> bool.
Variable kernel : D -> list Q -> Q.
Variable occupancy : M -> P -> Q.

(** occupancy_gridmap_cost_functor.hpp:38-42. *)
Definition occ_evaluate_double (m : cmap c) (p : list Q) (ivm : option M) : outcome Q :=
  let* s := occ_sampleNonNormalized c inv inner (dsample valid kernel) occupancy m p ivm in Ok (1 - s)%Q.

(** occupancy_gridmap_cost_functor.hpp:44-74; [getOccupancy] throws without a model. *)
Definition occ_evaluate_jet (m : cmap c) (p : list Q) (ivm : option M) : outcome Q :=
  let* bi := toBundleIndex inv p in
  let* ob := cbundle c m bi in
  match ob with
  | None => Ok 1%Q
  | Some b =>
      ofold (fun value i =>
               match nth_error (slots b) i with
               | None => UB
               | Some sl =>
                   let* d := slot_value (bdc c) (bbc c) m i sl in
                   match d with
                   | Some v =>
                       match ivm with
                       | None => Throw
                       | Some model =>
                           Ok (match inner v with
                               | Some s => if valid s then value - div_count c * kernel s p * occupancy model v else value
                               | None => value
                               end)%Q
                       end
                   | None => Ok value
                   end
               end)
            (seq 0 (bin_count (dimc c))) 1%Q
  end.
End OccEvaluate.

(** Scoring of points: sampleNonNormalized and sampleNonNormalizedBilinear of the three maps
    (map/impl/gridmap.hpp:100-178, occupancy_gridmap.hpp:243-337, weighted_occupancy_gridmap.hpp:240-334)
    and utility/bilinear_interpolation.hpp. Numbers are exact rationals (rounding is not modelled).
    Definitions only. *)
From Coq Require Import QArith Qround.
From Verif Require Import Base SeqModel IndexModel MapModel SysModel ExtentModel.
Open Scope Z_scope.

(** utility/bilinear_interpolation.hpp:16-37 [get_bilinear_interpolation_weights]. *)
Definition get_bilinear_interpolation_weights (i : idx) (p : list Q) (res_inv : Q) : list Q :=
  map (fun c => if Nat.leb (length i) c then 0%Q
                else if Z.odd (nth c i 0)
                then (nth c p 0 * res_inv - inject_Z (nth c i 0%Z))%Q
                else (1 - (nth c p 0 * res_inv - inject_Z (nth c i 0%Z)))%Q)
      (make_integer_sequence (length p)).

(** utility/bilinear_interpolation.hpp:39-43 [to_bilinear_interpolation_weight_inner]. *)
Definition weight_inner (w : Q) (counter dimension : nat) : Q :=
  if counter_bit counter dimension then w else (1 - w)%Q.

(** utility/bilinear_interpolation.hpp:46-70 [to_bilinear_interpolation_weight(w, counter)]. *)
Definition to_bilinear_interpolation_weight (w : list Q) (counter : nat) : Q :=
  fold_left Qmult
    (map (fun d => weight_inner (nth d w 0%Q) counter d) (make_integer_sequence (length w))) 1%Q.

Section Sample.
Context {P : Type}.
Variable c : config P.
(** [bundle_resolution_inv_]. *)
Variable inv : Q.
(** What one stored distribution contributes at a point given in map coordinates. *)
Variable dsample : P -> list Q -> Q.

(** abstract_map.hpp:44. *)
Definition div_count : Q := (1 / inject_Z (Z.of_nat (bin_count (dimc c))))%Q.

(** The loop [retval += weight * sample(bundle->at(i))], a null pointer contributes 0
    (impl/gridmap.hpp:119-136 and 159-177). *)
Definition weighted_sum (m : cmap c) (b : bundle) (weight : nat -> Q) (p : list Q) : outcome Q :=
  ofold (fun acc i =>
           match nth_error (slots b) i with
           | None => UB
           | Some sl =>
               let* d := slot_value (bdc c) (bbc c) m i sl in
               Ok (acc + weight i * match d with Some v => dsample v p | None => 0 end)%Q
           end)
        (seq 0 (bin_count (dimc c))) 0%Q.

(** impl/gridmap.hpp:107-137 [sampleNonNormalized(p, bi)]. *)
Definition sample_at (m : cmap c) (p : list Q) (bi : idx) : outcome Q :=
  let* ob := cbundle c m bi in
  match ob with
  | None => Ok 0%Q
  | Some b => weighted_sum m b (fun _ => div_count) p
  end.
(** impl/gridmap.hpp:146-178 [sampleNonNormalizedBilinear(p, bi)]. *)
Definition sample_bilinear_at (m : cmap c) (p : list Q) (bi : idx) : outcome Q :=
  let* ob := cbundle c m bi in
  match ob with
  | None => Ok 0%Q
  | Some b =>
      let w := get_bilinear_interpolation_weights bi p inv in
      weighted_sum m b (to_bilinear_interpolation_weight w) p
  end.

(** impl/gridmap.hpp:100-105 and 139-144; [p] is already in map coordinates ([m_T_w_ * p],
    abstract_map.hpp:332-339). *)
Definition sampleNonNormalized (m : cmap c) (p : list Q) : outcome Q :=
  let* bi := toBundleIndex inv p in sample_at m p bi.
Definition sampleNonNormalizedBilinear (m : cmap c) (p : list Q) : outcome Q :=
  let* bi := toBundleIndex inv p in sample_bilinear_at m p bi.

End Sample.

(** Occupancy maps (impl/occupancy_gridmap.hpp:243-337): a cell contributes the sample of its
    distribution times its occupancy, or 0 without distribution; a null inverse model throws. [inner] is
    [getDistribution()], [occupancy] is [getOccupancy(ivm)]. *)
Section OccSample.
Context {P D M : Type}.
Variable c : config P.
Variable inv : Q.
Variable inner : P -> option D.
Variable sample : D -> list Q -> Q.
Variable occupancy : M -> P -> Q.

Definition occ_contribution (ivm : M) (d : P) (p : list Q) : Q :=
  match inner d with Some s => (sample s p * occupancy ivm d)%Q | None => 0%Q end.

Definition occ_sampleNonNormalized (m : cmap c) (p : list Q) (ivm : option M) : outcome Q :=
  let* bi := toBundleIndex inv p in
  match ivm with
  | None => Throw
  | Some model => sample_at c (occ_contribution model) m p bi
  end.
Definition occ_sampleNonNormalizedBilinear (m : cmap c) (p : list Q) (ivm : option M) : outcome Q :=
  let* bi := toBundleIndex inv p in
  match ivm with
  | None => Throw
  | Some model => sample_bilinear_at c inv (occ_contribution model) m p bi
  end.
End OccSample.

(** Index and score of a point in IEEE-754 arithmetic of either precision (Coq's [spec_float]). [prec] and
    [emax] are 24 and 128 for [T = float], 53 and 1024 for [T = double]. Definitions only. *)
From Coq Require Import QArith Qround Floats.SpecFloat.
From Verif Require Import Base SeqModel IndexModel MapModel BackendModel SysModel ExtentModel ResidualModel RoundModel.
Open Scope Z_scope.

(** Conversion to another format: rounds to nearest. *)
Definition float_convert (prec emax : Z) (x : spec_float) : spec_float :=
  match x with
  | S754_finite s m e => binary_normalize prec emax (if s then Z.neg m else Z.pos m) e s
  | _ => x
  end.
(** A [T] in an expression with [double]s. *)
Definition widen (x : spec_float) : double := float_convert 53 1024 x.

Section Format.
Variables prec emax : Z.
(** A [double] stored in a [T]. *)
Definition narrow (x : double) : spec_float := float_convert prec emax x.

(** Arithmetic rounds to nearest, ties to even. *)
Definition fmul : spec_float -> spec_float -> spec_float := SFmul prec emax.
Definition fadd : spec_float -> spec_float -> spec_float := SFadd prec emax.
Definition fsub : spec_float -> spec_float -> spec_float := SFsub prec emax.
(** [static_cast<T>(z)]. *)
Definition float_of_int (z : Z) : spec_float := binary_normalize prec emax z 0 false.
(** [T(0)] and [T(1.)]. *)
Definition float_zero : spec_float := S754_zero false.
Definition float_one : spec_float := float_of_int 1.

(** abstract_map.hpp:66-67 and 84-85: the constants are [double]s. *)
Definition float_resolution (resolution : spec_float) : spec_float := narrow (double_mul double_half (widen resolution)).
Definition float_resolution_inv (resolution : spec_float) : spec_float :=
  narrow (double_div double_one (widen (float_resolution resolution))).
(** abstract_map.hpp:323-330, [p_m] in map coordinates. *)
Definition float_index (inv x : spec_float) : outcome Z := int_floor (fmul x inv).
Definition float_bundle_index (inv : spec_float) (p_m : list spec_float) : outcome idx := omap (float_index inv) p_m.

(** utility/bilinear_interpolation.hpp:16-37 [get_bilinear_interpolation_weights]. *)
Definition float_axis_weights (i : idx) (p : list spec_float) (res_inv : spec_float) : list spec_float :=
  map (fun c => if Nat.leb (length i) c then float_zero
                else let r := fsub (fmul (nth c p float_zero) res_inv) (float_of_int (nth c i 0)) in
                     if Z.odd (nth c i 0) then r else fsub float_one r)
      (make_integer_sequence (length p)).
(** utility/bilinear_interpolation.hpp:39-43 [to_bilinear_interpolation_weight_inner]. *)
Definition float_weight_inner (w : spec_float) (counter dimension : nat) : spec_float :=
  if counter_bit counter dimension then w else fsub float_one w.
(** utility/bilinear_interpolation.hpp:46-70 [to_bilinear_interpolation_weight(w, counter)]. *)
Definition float_weight (w : list spec_float) (counter : nat) : spec_float :=
  fold_left fmul
    (map (fun d => float_weight_inner (nth d w float_zero) counter d) (make_integer_sequence (length w))) float_one.

Section Sample.
Context {P : Type}.
Variable c : config P.
(** [bundle_resolution_inv_]. *)
Variable inv : spec_float.
(** What one stored distribution contributes at a point given in map coordinates. *)
Variable dsample : P -> list spec_float -> spec_float.

(** abstract_map.hpp:44. *)
Definition float_div_count : spec_float := narrow (double_div double_one (widen (float_of_int (Z.of_nat (bin_count (dimc c)))))).

(** The loop [retval += weight * sample(bundle->at(i))], a null pointer contributes 0
    (impl/gridmap.hpp:119-136 and 159-177). *)
Definition float_weighted_sum (m : cmap c) (b : bundle) (weight : nat -> spec_float) (p : list spec_float) : outcome spec_float :=
  ofold (fun acc i =>
           match nth_error (slots b) i with
           | None => UB
           | Some sl =>
               let* d := slot_value (bdc c) (bbc c) m i sl in
               Ok (fadd acc (fmul (weight i) match d with Some v => dsample v p | None => float_zero end))
           end)
        (seq 0 (bin_count (dimc c))) float_zero.

(** impl/gridmap.hpp:107-137 [sampleNonNormalized(p, bi)]. *)
Definition float_sample_at (m : cmap c) (p : list spec_float) (bi : idx) : outcome spec_float :=
  let* ob := cbundle c m bi in
  match ob with
  | None => Ok float_zero
  | Some b => float_weighted_sum m b (fun _ => float_div_count) p
  end.
(** impl/gridmap.hpp:146-178 [sampleNonNormalizedBilinear(p, bi)]. *)
Definition float_sample_bilinear_at (m : cmap c) (p : list spec_float) (bi : idx) : outcome spec_float :=
  let* ob := cbundle c m bi in
  match ob with
  | None => Ok float_zero
  | Some b =>
      let w := float_axis_weights bi p inv in
      float_weighted_sum m b (float_weight w) p
  end.

(** impl/gridmap.hpp:100-105 and 139-144; [p] is already in map coordinates. *)
Definition float_sampleNonNormalized (m : cmap c) (p : list spec_float) : outcome spec_float :=
  let* bi := float_bundle_index inv p in float_sample_at m p bi.
Definition float_sampleNonNormalizedBilinear (m : cmap c) (p : list spec_float) : outcome spec_float :=
  let* bi := float_bundle_index inv p in float_sample_bilinear_at m p bi.
End Sample.

(** Occupancy maps (impl/occupancy_gridmap.hpp:243-337): a cell contributes the sample of its distribution
    times its occupancy, or 0 without distribution. *)
Section Occupancy.
Context {P D M : Type}.
Variable c : config P.
Variable inv : spec_float.
Variable inner : P -> option D.
Variable sample : D -> list spec_float -> spec_float.
Variable occupancy : M -> P -> spec_float.

Definition float_contribution (ivm : M) (d : P) (p : list spec_float) : spec_float :=
  match inner d with Some s => fmul (sample s p) (occupancy ivm d) | None => float_zero end.
Definition float_occ_sampleNonNormalized (m : cmap c) (p : list spec_float) (ivm : option M) : outcome spec_float :=
  let* bi := float_bundle_index inv p in
  match ivm with
  | None => Throw
  | Some model => float_sample_at c (float_contribution model) m p bi
  end.
Definition float_occ_sampleNonNormalizedBilinear (m : cmap c) (p : list spec_float) (ivm : option M) : outcome spec_float :=
  let* bi := float_bundle_index inv p in
  match ivm with
  | None => Throw
  | Some model => float_sample_bilinear_at c inv (float_contribution model) m p bi
  end.
End Occupancy.

End Format.

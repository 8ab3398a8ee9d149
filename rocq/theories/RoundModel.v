(** The index of a point in IEEE-754 arithmetic (Coq's [spec_float]): map/abstract_map.hpp:60-95 and 323-330 for
    [T = double]. Definitions only. *)
From Coq Require Import QArith Qround Floats.SpecFloat.
From Verif Require Import Base MapModel BackendModel SysModel ExtentModel ResidualModel.
Open Scope Z_scope.

(** The number a finite float stands for (0 for infinities and NaN, which have none). *)
Definition float_value (x : spec_float) : Q :=
  match x with
  | S754_finite s m e => (inject_Z (if s then Z.neg m else Z.pos m) * (2 # 1) ^ e)%Q
  | _ => 0%Q
  end.
Definition float_finite (x : spec_float) : bool :=
  match x with S754_finite _ _ _ | S754_zero _ => true | _ => false end.
(** [double] constants. *)
Definition double_one : double := S754_finite false 4503599627370496 (-52).
Definition double_half : double := S754_finite false 4503599627370496 (-53).
Definition double_div : double -> double -> double := SFdiv 53 1024.

(** abstract_map.hpp:66-67 and 84-85. *)
Definition bundle_resolution (resolution : double) : double := double_mul double_half resolution.
Definition bundle_resolution_inv (resolution : double) : double := double_div double_one (bundle_resolution resolution).
(** [static_cast<int>(std::floor(v))]: [std::floor] is exact; casting an infinity, a NaN or a value outside of
    [int] is undefined. *)
Definition int_floor (v : spec_float) : outcome Z :=
  if float_finite v then to_int (Qfloor (float_value v)) else UB.
(** abstract_map.hpp:323-330, one coordinate. *)
Definition double_index (inv : double) (x : double) : outcome Z := int_floor (double_mul x inv).
Definition double_bundle_index (resolution : double) (p_m : list double) : outcome idx :=
  omap (double_index (bundle_resolution_inv resolution)) p_m.

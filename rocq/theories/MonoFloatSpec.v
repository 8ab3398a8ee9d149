(** Specification of the conversion of the grid map with one distribution per cell in floating-point arithmetic. *)
From Coq Require Import QArith Floats.SpecFloat.
From Verif Require Import Base RoundModel FloatModel.
Open Scope Z_scope.

(** A normal number of the format: all [prec] binary digits of the significand are used. *)
Definition normal_number (prec : Z) (x : spec_float) : bool :=
  match x with S754_finite _ m _ => Z.pos (digits2_pos m) =? prec | _ => false end.
(** What a pixel shows of a score: the score if it is a normal number between 0 and 1, otherwise 0. *)
Definition float_probability (prec : Z) (x : spec_float) : spec_float :=
  if normal_number prec x && (Qle_bool 0 (float_value x) && Qle_bool (float_value x) 1) then x else float_zero.

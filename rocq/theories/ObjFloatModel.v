(** The objective functions of the nlopt and alglib matchers in the arithmetic of [double]s (Coq's
    [spec_float], rounding to nearest even). The scores of the points and the deviations from the initial
    guess are arguments: [double]s, also infinite ones and NaN. Left out, as in ObjectiveModel: the checks for
    a null functor and for a wanted gradient. A compiler that keeps intermediate results in a wider format or
    fuses a multiplication with an addition is not covered. Definitions only. *)
From Coq Require Import ZArith List Floats.SpecFloat.
From Verif Require Import ResidualModel RoundModel FloatModel.
Import ListNotations.
Open Scope Z_scope.

Definition double_add : double -> double -> double := fadd 53 1024.
Definition double_sub : double -> double -> double := fsub 53 1024.
(** [double fi = 0;]. *)
Definition double_zero : double := S754_zero false.
(** [std::isnormal]: finite, not zero, not subnormal; a normal number has all 53 bits of the mantissa. *)
Definition double_isnormal (x : double) : bool :=
  match x with S754_finite _ m _ => 2 ^ 52 <=? Z.pos m | _ => false end.
(** [static_cast<double>(points.size())]. *)
Definition double_size (n : nat) : double := float_of_int 53 1024 (Z.of_nat n).

(** 2D nlopt/gridmap_function.hpp:60 (3D :67 and :139, alglib 2D :58, 3D :61 and :125):
    [std::isnormal(score) ? (1.0 - score) : 1.0]. *)
Definition double_cost (score : double) : double :=
  if double_isnormal score then double_sub double_one score else double_one.
(** 2D nlopt/gridmap_function.hpp:57-61, 3D nlopt/gridmap_function.hpp:64-68 and 136-140: the loop over the
    points. *)
Definition double_sum (scores : list double) : double :=
  fold_left (fun fi score => double_add fi (double_cost score)) scores double_zero.

(** The three weights of a [Functor]. *)
Record double_weights : Type := { dw_translation : double; dw_rotation : double; dw_map : double }.

(** 2D nlopt/gridmap_function.hpp:56-73, 3D nlopt/gridmap_function.hpp:63-82 and 135-154. *)
Definition double_apply (w : double_weights) (scores : list double) (trans_diff rot_diff : double) : double :=
  let fi := double_sum scores in
  double_add
    (double_add (double_div (double_mul (dw_map w) fi) (double_size (length scores)))
                (double_mul (dw_translation w) trans_diff))
    (double_mul (dw_rotation w) (SFabs rot_diff)).
(** 2D nlopt/gridmap_function.hpp:91-95, 3D nlopt/gridmap_function.hpp:103-106 and 176-179. *)
Definition double_mapScore (w : double_weights) (fi trans_diff rot_diff : double) : double :=
  double_sub double_one
    (double_div (double_sub (double_sub fi (double_mul (dw_translation w) trans_diff))
                            (double_mul (dw_rotation w) (SFabs rot_diff)))
                (dw_map w)).

(** 2D alglib/gridmap_function.hpp:54-60, 3D alglib/gridmap_function.hpp:57-63 and 121-127: the entries of the
    points. *)
Definition double_alglib_points (w : double_weights) (scores : list double) : list double :=
  map (fun score => double_div (double_mul (dw_map w) (double_cost score)) (double_size (length scores))) scores.
(** 2D alglib/gridmap_function.hpp:78-89, the same text in the other alglib functions. [n] is the number of
    points; [i<num_points] compares with a [double], exact below [2^53]. *)
Definition double_alglib_score (w : double_weights) (n : nat) (fi : list double) : double :=
  let scale := double_div double_one (dw_map w) in
  let absolute := double_div double_one (double_size n) in
  fold_left (fun score v => double_add score (double_sub absolute (double_mul v scale))) (firstn n fi) double_zero.

(** 3D nlopt/gridmap_function.hpp:34-38 [hypot]. *)
Definition double_hypot (x y z : double) : double :=
  SFsqrt 53 1024 (double_add (double_add (double_mul x x) (double_mul y y)) (double_mul z z)).

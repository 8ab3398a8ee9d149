(** The exact values of the objective functions of occupancy maps, independent of the implementation. *)
From Coq Require Import Reals List Floats.SpecFloat.
From Flocq Require Import Core BinarySingleNaN.
From Verif Require Import ResidualModel ObjFloatModel ObjFloatSpec.
Import ListNotations.
Open Scope R_scope.

(** Mean of the scores in three dimensions: a score below the smallest normal number, an infinite one or NaN
    counts as 1. *)
Definition mean_or_one (scores : list double) : R :=
  fold_right (fun s a => (if Rle_dec (bpow radix2 (-1022)) (real s) then real s else 1) + a) 0 scores / INR (length scores).

(** Sum of the squared costs, divided by the square of the number of points; infinite scores and NaN count as 0. *)
Definition squared_costs (scores : list double) : R :=
  fold_right (fun s a => (1 - real s) * (1 - real s) + a) 0 scores / (INR (length scores) * INR (length scores)).
Definition square (x : double) : R := real x * real x.
(** The objective in two dimensions. *)
Definition squared_objective (w : double_weights) (scores : list double) (dx dy rd : double) : R :=
  / 4 * real (dw_map w) * squared_costs scores +
  / 2 * (real (dw_translation w) * (square dx + square dy) + real (dw_rotation w) * square rd).
(** The sizes of its terms. *)
Definition squared_size (w : double_weights) (dx dy rd : double) : R :=
  real (dw_map w) + Rabs (real (dw_translation w)) * (square dx + square dy) + Rabs (real (dw_rotation w)) * square rd.
(** Deviations of moderate size. *)
Definition small_deviation (x : double) : Prop := finite_double x /\ Rabs (real x) <= bpow radix2 98.

(** What the occupancy values stand for in floating-point arithmetic, independent of the implementation. *)
From Coq Require Import Reals List Floats.SpecFloat.
From Flocq Require Import Core BinarySingleNaN.
From Verif Require Import Base OddsModel OddsSpec OddsFloatModel FloatFacts.
Import ListNotations.
Open Scope R_scope.

(** [T] is one of the two formats of C++; the probability is computed in [T] or in [double]. *)
Definition formats (prec emax wprec wemax : Z) : Prop :=
  standard_format prec emax /\ ((wprec = prec /\ wemax = emax)%Z \/ (wprec = 53 /\ wemax = 1024)%Z).

(** What is used of [std::exp]: the result is not negative, a relative error of [eps] apart from
    underflow, infinite only beyond half of the greatest power of two; ... *)
Definition exp_accurate (prec emax : Z) (fexp : spec_float -> spec_float) (eps : R) : Prop :=
  forall x, good_float prec emax x ->
    (fexp x = S754_infinity false /\ bpow radix2 (emax - 1) <= exp (SF2R radix2 x)) \/
    (good_float prec emax (fexp x) /\ 0 <= SF2R radix2 (fexp x) /\
     Rabs (SF2R radix2 (fexp x) - exp (SF2R radix2 x)) <= eps * exp (SF2R radix2 x) + bpow radix2 (2 - emax - prec)).
(** ... and it is monotone. *)
Definition exp_monotone (prec emax : Z) (fexp : spec_float -> spec_float) : Prop :=
  forall x y, good_float prec emax x -> good_float prec emax y -> SF2R radix2 x <= SF2R radix2 y ->
    fexp y = S754_infinity false \/
    (good_float prec emax (fexp x) /\ good_float prec emax (fexp y) /\ 0 <= SF2R radix2 (fexp x) <= SF2R radix2 (fexp y)).

(** Finite log-odds; those of the representable probabilities other than 0 and 1 are below 1024. *)
Definition moderate_odds (prec emax : Z) (l : spec_float) : Prop :=
  good_float prec emax l /\ Rabs (SF2R radix2 l) <= bpow radix2 20.
Definition moderate_model (prec emax : Z) (iv : float_model) : Prop :=
  moderate_odds prec emax (fl_prior iv) /\ moderate_odds prec emax (fl_free iv) /\ moderate_odds prec emax (fl_occupied iv).

(** Probability of log-odds. *)
Definition logistic (x : R) : R := / (1 + exp (- x)).
(** Log-odds of a cell after [m] misses and [n] hits (any numbers or weights), and their size without
    cancellation. *)
Definition evidence (iv : float_model) (m n : R) : R :=
  SF2R radix2 (fl_prior iv) + m * (SF2R radix2 (fl_free iv) - SF2R radix2 (fl_prior iv))
                            + n * (SF2R radix2 (fl_occupied iv) - SF2R radix2 (fl_prior iv)).
Definition evidence_size (iv : float_model) (m n : R) : R :=
  m * Rabs (SF2R radix2 (fl_free iv)) + n * Rabs (SF2R radix2 (fl_occupied iv)) + (m + n + 1) * Rabs (SF2R radix2 (fl_prior iv)).

(** Arguments of updates are [std::size_t]. *)
Definition size_updates (l : list occ_update) : Prop :=
  Forall (fun u => match u with Free n | Hit n => (0 <= n < 2 ^ 64)%Z end) l.
(** Weights are finite, not negative and at most 2^64. *)
Definition weight (prec emax : Z) (w : spec_float) : Prop := good_float prec emax w /\ 0 <= SF2R radix2 w <= bpow radix2 64.
Definition cell_weights (prec emax : Z) (d : float_weighted) : Prop :=
  weight prec emax (fw_free d) /\ (forall w, fw_hit d = Some w -> weight prec emax w).
(** Both counters of a cell are [std::size_t]. *)
Definition counters (d : occupancy) : Prop :=
  (0 <= num_free d < 2 ^ 64)%Z /\ match hits_n d with None => True | Some n => (0 <= n < 2 ^ 64)%Z end.

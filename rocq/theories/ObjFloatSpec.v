(** What finite and accurate mean for the objective functions, independent of the implementation. *)
From Coq Require Import Reals List Floats.SpecFloat.
From Flocq Require Import Core BinarySingleNaN.
From Verif Require Import ResidualModel ObjFloatModel.
Import ListNotations.
Open Scope R_scope.

(** The real number a finite [double] stands for; 0 for the others. *)
Notation real := (SF2R radix2).
(** A [double] as the machine represents it. *)
Definition is_double (x : double) : Prop := valid_binary 53 1024 x = true.
(** ... which is neither infinite nor NaN. *)
Definition finite_double (x : double) : Prop := is_double x /\ is_finite_SF x = true.

(** Mean of the scores; infinite scores and NaN count as 0. *)
Definition mean (scores : list double) : R := fold_right (fun s a => real s + a) 0 scores / INR (length scores).

(** Scores a map can have: between 0 and 2, or infinite, or NaN. *)
Definition scores_ok (scores : list double) : Prop := Forall (fun s => is_double s /\ 0 <= real s <= 2) scores.
(** Weights and deviations of moderate size. *)
Definition moderate (x : double) : Prop := finite_double x /\ Rabs (real x) <= bpow radix2 100.
Definition weights_moderate (w : double_weights) : Prop :=
  moderate (dw_translation w) /\ moderate (dw_rotation w) /\ moderate (dw_map w) /\ bpow radix2 (-100) <= real (dw_map w).

(** The penalty for leaving the initial guess. *)
Definition penalty (w : double_weights) (trans_diff rot_diff : double) : R :=
  real (dw_translation w) * real trans_diff + real (dw_rotation w) * Rabs (real rot_diff).
(** The two parts of the penalty without signs. *)
Definition penalty_size (w : double_weights) (trans_diff rot_diff : double) : R :=
  Rabs (real (dw_translation w) * real trans_diff) + Rabs (real (dw_rotation w) * real rot_diff).
(** Unit roundoff of [double]. *)
Definition roundoff : R := bpow radix2 (-53).

(** C40: NaN residuals of the ceres matchers. *)
From Coq Require Import ZArith List Floats.SpecFloat.
From Verif Require Import ResidualModel ResidualFacts.
Import ListNotations.
Open Scope Z_scope.

(** C40, full statement: a NaN residual is replaced by 0. False: a NaN is never equal to anything, so
    it stays, and it stays a NaN after weighting. *)
Theorem C40_nan_kept_refuted :
  exists (weight : double) (evaluate : nat -> double) (points : list nat),
    evaluate 1%nat = S754_nan /\ In 1%nat points /\
    residuals weight evaluate points = [double_mul weight (evaluate 0%nat); S754_nan].
Proof.
  exists (S754_finite false 4503599627370496 (-52)),
         (fun n => if Nat.eqb n 1 then S754_nan else S754_finite false 4503599627370496 (-53)), [0%nat; 1%nat].
  repeat split. right; left; reflexivity.
Qed.
Print Assumptions C40_nan_kept_refuted.

(** C40: in fact no NaN is ever filtered, with any weight. *)
Theorem C40_no_nan_filtered {P : Type} (weight : double) (evaluate : P -> double) (points : list P) (i : nat) (p : P) :
  nth_error points i = Some p -> evaluate p = S754_nan ->
  nth_error (residuals weight evaluate points) i = Some S754_nan.
Proof. exact (nan_stays weight evaluate points i p). Qed.
Print Assumptions C40_no_nan_filtered.

(** C40, what holds of the second half: every other value is left unchanged, up to the sign of zero. *)
Theorem C40_other_values_kept_partial {P : Type} (weight : double) (evaluate : P -> double) (points : list P) (i : nat) (p : P) :
  nth_error points i = Some p ->
  exists r, nth_error (residuals weight evaluate points) i = Some (double_mul weight r) /\
    (r = evaluate p \/ evaluate p = S754_zero true /\ r = S754_zero false).
Proof. exact (others_kept weight evaluate points i p). Qed.
Print Assumptions C40_other_values_kept_partial.

(** C40: for automatic differentiation it is false too: a residual that is exactly 0 loses its
    derivatives. *)
Theorem C40_derivative_lost_refuted :
  exists (weight : double) (r : jet),
    (forall x, In x (ja r :: jv r) -> x <> S754_nan) /\ jv r = [weight] /\
    jet_residuals weight (fun _ : unit => r) [tt] = [{| ja := S754_zero false; jv := [S754_zero false] |}].
Proof.
  exists (S754_finite false 4503599627370496 (-52)),
    {| ja := S754_zero false; jv := [S754_finite false 4503599627370496 (-52)] |}. split.
  - intros x [<-|[<-|[]]]; discriminate.
  - split; [reflexivity|vm_compute; reflexivity].
Qed.
Print Assumptions C40_derivative_lost_refuted.

(** C40, all cases with derivatives: a residual of value 0 loses them, any other (NaN included) is
    weighted in all parts. *)
Theorem C40_jets {P : Type} (weight : double) (evaluate : P -> jet) (points : list P) (i : nat) (p : P) :
  nth_error points i = Some p ->
  let r := evaluate p in
  exists q, nth_error (jet_residuals weight evaluate points) i = Some q /\
    ((exists s, ja r = S754_zero s) -> ja q = double_mul weight (S754_zero false) /\
       jv q = repeat (double_mul weight (S754_zero false)) (length (jv r))) /\
    ((forall s, ja r <> S754_zero s) -> ja q = double_mul weight (ja r) /\ jv q = map (double_mul weight) (jv r)).
Proof. exact (jet_residual weight evaluate points i p). Qed.
Print Assumptions C40_jets.

Example C40_example :
  nth_error (residuals (S754_finite false 4503599627370496 (-51)) (fun _ : unit => S754_finite true 4503599627370496 (-52)) [tt]) 0
  = Some (S754_finite true 4503599627370496 (-51)).
Proof. vm_compute. reflexivity. Qed.

(** Facts about the NaN test of the ceres matchers. *)
From Coq Require Import ZArith List Floats.SpecFloat.
From Verif Require Import ResidualModel.
Import ListNotations.
Open Scope Z_scope.

Lemma test_true (r : double) : SFeqb r (SFopp r) = true <-> exists s, r = S754_zero s.
Proof.
  split.
  - destruct r as [s|s| |s m e]; cbn; intros H; [eauto|..]; try (destruct s; discriminate); discriminate.
  - intros [s ->]. destruct s; reflexivity.
Qed.
Lemma guard_zero (s : bool) : guard (S754_zero s) = S754_zero false.
Proof. unfold guard. destruct s; reflexivity. Qed.
Lemma guard_other (r : double) : (forall s, r <> S754_zero s) -> guard r = r.
Proof.
  intros H. unfold guard. destruct (SFeqb r (SFopp r)) eqn:E; [|reflexivity].
  apply test_true in E as [s ->]. destruct (H s eq_refl).
Qed.
Lemma guard_nan : guard S754_nan = S754_nan.
Proof. reflexivity. Qed.
Lemma mul_nan (w : double) : double_mul w S754_nan = S754_nan.
Proof. destruct w; reflexivity. Qed.

Lemma jet_guard_zero (s : bool) (v : list double) :
  jet_guard {| ja := S754_zero s; jv := v |} = jet_zero (length v).
Proof. unfold jet_guard, jet_eqb; cbn. destruct s; reflexivity. Qed.
Lemma jet_guard_other (r : jet) : (forall s, ja r <> S754_zero s) -> jet_guard r = r.
Proof.
  intros H. unfold jet_guard, jet_eqb, jet_opp; cbn. destruct (SFeqb (ja r) (SFopp (ja r))) eqn:E; [|reflexivity].
  apply test_true in E as [s E]. destruct (H s E).
Qed.

Lemma nan_stays {P : Type} (weight : double) (evaluate : P -> double) (points : list P) (i : nat) (p : P) :
  nth_error points i = Some p -> evaluate p = S754_nan ->
  nth_error (residuals weight evaluate points) i = Some S754_nan.
Proof.
  intros Hp E. unfold residuals. rewrite (map_nth_error _ _ _ Hp), E, guard_nan, mul_nan. reflexivity.
Qed.
Lemma others_kept {P : Type} (weight : double) (evaluate : P -> double) (points : list P) (i : nat) (p : P) :
  nth_error points i = Some p ->
  exists r, nth_error (residuals weight evaluate points) i = Some (double_mul weight r) /\
    (r = evaluate p \/ evaluate p = S754_zero true /\ r = S754_zero false).
Proof.
  intros Hp. exists (guard (evaluate p)). split; [exact (map_nth_error _ _ _ Hp)|].
  destruct (evaluate p) as [[]| | |] eqn:E.
  - right. split; [reflexivity|apply guard_zero].
  - left. apply guard_zero.
  - left. apply guard_other. discriminate.
  - left. apply guard_other. discriminate.
  - left. apply guard_other. discriminate.
Qed.
Lemma jet_zero_value (r : jet) : (exists s, ja r = S754_zero s) -> jet_guard r = jet_zero (length (jv r)).
Proof. destruct r as [a v]; cbn. intros [s ->]. apply jet_guard_zero. Qed.
Lemma jet_residual {P : Type} (weight : double) (evaluate : P -> jet) (points : list P) (i : nat) (p : P) :
  nth_error points i = Some p ->
  let r := evaluate p in
  exists q, nth_error (jet_residuals weight evaluate points) i = Some q /\
    ((exists s, ja r = S754_zero s) -> ja q = double_mul weight (S754_zero false) /\
       jv q = repeat (double_mul weight (S754_zero false)) (length (jv r))) /\
    ((forall s, ja r <> S754_zero s) -> ja q = double_mul weight (ja r) /\ jv q = map (double_mul weight) (jv r)).
Proof.
  intros Hp r. exists (jet_scale weight (jet_guard r)). split; [exact (map_nth_error _ _ _ Hp)|]. split; intros H.
  - rewrite (jet_zero_value r H). cbn. split; [reflexivity|]. induction (length (jv r)); cbn; congruence.
  - rewrite (jet_guard_other r H). split; reflexivity.
Qed.

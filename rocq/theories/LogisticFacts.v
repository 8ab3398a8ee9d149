(** The logistic function. *)
From Coq Require Import Reals Lra.
From Coquelicot Require Import Coquelicot.
Open Scope R_scope.

Lemma logistic_alt (x : R) : / (1 + exp (- x)) = 1 - / (1 + exp x).
Proof.
  rewrite exp_Ropp. pose proof (exp_pos x) as E. field. lra.
Qed.
Lemma logistic_lipschitz (x y : R) : Rabs (/ (1 + exp (- x)) - / (1 + exp (- y))) <= / 4 * Rabs (x - y).
Proof.
  set (f := fun t => / (1 + exp (- t))).
  assert (D : forall t, is_derive f t (exp (- t) / (1 + exp (- t)) ^ 2)).
  { intros t. unfold f. pose proof (exp_pos (- t)). auto_derive; [lra|]. field. lra. }
  destruct (MVT_gen f y x (fun t => exp (- t) / (1 + exp (- t)) ^ 2)) as [c [_ E]].
  - intros t _. apply D.
  - intros t _. apply continuity_pt_filterlim. apply (ex_derive_continuous f). eexists. apply D.
  - fold (f x) (f y). rewrite E, Rabs_mult. apply Rmult_le_compat_r; [apply Rabs_pos|].
    pose proof (exp_pos (- c)) as P. rewrite Rabs_pos_eq.
    + apply Rle_div_l; [apply pow_lt; lra|]. pose proof (pow2_ge_0 (1 - exp (- c))). nra.
    + apply Rlt_le, Rdiv_lt_0_compat; [exact P|apply pow_lt; lra].
Qed.

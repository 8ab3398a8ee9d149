(** How fast the density of a distribution can change. *)
From Coq Require Import Reals Lra Lia List.
From Verif Require Import JetModel JetSpec.
Open Scope R_scope.

(** ** Sums *)
Lemma rsum_ext (n : nat) (f g : nat -> R) : (forall i, (i < n)%nat -> f i = g i) -> rsum n f = rsum n g.
Proof. induction n as [|n IH]; intros H; cbn [rsum]; [reflexivity|]. rewrite IH by (intros; apply H; lia). rewrite H by lia. reflexivity. Qed.
Lemma rsum_plus (n : nat) (f g : nat -> R) : rsum n (fun i => f i + g i) = rsum n f + rsum n g.
Proof. induction n as [|n IH]; cbn [rsum]; [ring|]. rewrite IH. ring. Qed.
Lemma rsum_scal (n : nat) (a : R) (f : nat -> R) : rsum n (fun i => a * f i) = a * rsum n f.
Proof. induction n as [|n IH]; cbn [rsum]; [ring|]. rewrite IH. ring. Qed.
Lemma rsum_le (n : nat) (f g : nat -> R) : (forall i, (i < n)%nat -> f i <= g i) -> rsum n f <= rsum n g.
Proof. induction n as [|n IH]; intros H; cbn [rsum]; [lra|]. pose proof (H n ltac:(lia)). specialize (IH (fun i Hi => H i ltac:(lia))). lra. Qed.
Lemma rsum_swap (n m : nat) (f : nat -> nat -> R) : rsum n (fun i => rsum m (fun j => f i j)) = rsum m (fun j => rsum n (fun i => f i j)).
Proof.
  induction n as [|n IH]; cbn [rsum].
  - induction m as [|m IH]; cbn [rsum]; [reflexivity|]. rewrite <- IH. ring.
  - rewrite IH, <- rsum_plus. reflexivity.
Qed.

(** ** Quadratic forms *)
Section Form.
Variable n : nat.
Variable inf : nat -> nat -> R.
Definition form (x y : nat -> R) : R := rsum n (fun j => rsum n (fun i => inf i j * x i) * y j).
Hypothesis Sym : forall i j, (i < n)%nat -> (j < n)%nat -> inf i j = inf j i.
Hypothesis Psd : forall x, 0 <= form x x.

Lemma form_sums (x y : nat -> R) : form x y = rsum n (fun j => rsum n (fun i => inf i j * x i * y j)).
Proof. unfold form. apply rsum_ext. intros j _. rewrite Rmult_comm, <- rsum_scal. apply rsum_ext. intros i _. ring. Qed.
Lemma form_sym (x y : nat -> R) : form x y = form y x.
Proof. rewrite !form_sums, rsum_swap. apply rsum_ext. intros j Hj. apply rsum_ext. intros i Hi. rewrite (Sym j i Hj Hi). ring. Qed.
Lemma form_line (x y : nat -> R) (t : R) : form (fun i => x i + t * y i) (fun i => x i + t * y i) = form x x + 2 * t * form x y + t * t * form y y.
Proof.
  replace (2 * t * form x y) with (t * form x y + t * form y x) by (rewrite (form_sym y x); ring).
  rewrite !form_sums, <- !rsum_scal, <- !rsum_plus. apply rsum_ext. intros j _.
  rewrite <- !rsum_scal, <- !rsum_plus. apply rsum_ext. intros i _. ring.
Qed.
Lemma cauchy (x y : nat -> R) : form x y * form x y <= form x x * form y y.
Proof.
  pose proof (Psd x) as A. pose proof (Psd y) as C.
  assert (H : forall t, 0 <= form x x + 2 * t * form x y + t * t * form y y) by (intros t; rewrite <- form_line; apply Psd).
  destruct (Req_dec (form y y) 0) as [Z|Z].
  - destruct (Req_dec (form x y) 0) as [B|B]; [rewrite B, Z; lra|].
    specialize (H (- (form x x + 1) / (2 * form x y))). rewrite Z in H.
    replace (form x x + 2 * (- (form x x + 1) / (2 * form x y)) * form x y + _ * _ * 0) with (-1) in H by (field; exact B). lra.
  - specialize (H (- form x y / form y y)).
    replace (form x x + 2 * (- form x y / form y y) * form x y + - form x y / form y y * (- form x y / form y y) * form y y)
      with ((form x x * form y y - form x y * form x y) / form y y) in H by (field; exact Z).
    apply Rmult_le_compat_r with (r := form y y) in H; [|lra]. unfold Rdiv in H. rewrite Rmult_assoc, Rinv_l in H by exact Z. lra.
Qed.
Definition norm (x : nat -> R) : R := sqrt (form x x).
Lemma norm_triangle (x y : nat -> R) : norm (fun i => x i + 1 * y i) <= norm x + norm y.
Proof.
  pose proof (sqrt_pos (form x x)) as A. pose proof (sqrt_pos (form y y)) as C.
  unfold norm. apply Rsqr_incr_0_var; [|lra]. unfold Rsqr. rewrite sqrt_sqrt by apply Psd. rewrite form_line.
  pose proof (sqrt_sqrt _ (Psd x)) as X. pose proof (sqrt_sqrt _ (Psd y)) as Y.
  assert (B : form x y <= sqrt (form x x) * sqrt (form y y)).
  { apply Rle_trans with (Rabs (form x y)); [apply Rle_abs|]. rewrite <- sqrt_mult by apply Psd. rewrite <- sqrt_Rsqr_abs. apply sqrt_le_1_alt. apply cauchy. }
  lra.
Qed.
Lemma form_ext (x x' : nat -> R) : (forall i, (i < n)%nat -> x i = x' i) -> form x x = form x' x'.
Proof. intros H. rewrite !form_sums. apply rsum_ext. intros j Hj. apply rsum_ext. intros i Hi. rewrite (H i Hi), (H j Hj). reflexivity. Qed.
Lemma norm_diff (x y : nat -> R) : Rabs (norm x - norm y) <= norm (fun i => x i - y i).
Proof.
  pose proof (norm_triangle y (fun i => x i - y i)) as A. pose proof (norm_triangle x (fun i => y i - x i)) as B.
  assert (EA : norm (fun i => y i + 1 * (x i - y i)) = norm x) by (unfold norm; f_equal; apply form_ext; intros; ring).
  assert (EB : norm (fun i => x i + 1 * (y i - x i)) = norm y) by (unfold norm; f_equal; apply form_ext; intros; ring).
  assert (EC : norm (fun i => y i - x i) = norm (fun i => x i - y i)).
  { unfold norm. f_equal. rewrite !form_sums. apply rsum_ext. intros j _. apply rsum_ext. intros i _. ring. }
  cbv beta in A, B. rewrite EA in A. rewrite EB, EC in B. apply Rabs_le. lra.
Qed.
Lemma norm_bound (x : nat -> R) (E L : R) : (forall i, (i < n)%nat -> Rabs (x i) <= E) -> 0 <= E -> 0 <= L ->
  rsum n (fun j => rsum n (fun i => Rabs (inf i j))) <= L * L -> norm x <= L * E.
Proof.
  intros Hx HE HL HS. unfold norm. rewrite <- (sqrt_Rsqr (L * E)) by (apply Rmult_le_pos; assumption). apply sqrt_le_1_alt. unfold Rsqr.
  replace (L * E * (L * E)) with (E * E * (L * L)) by ring. eapply Rle_trans; [|apply Rmult_le_compat_l; [apply Rmult_le_pos; exact HE|exact HS]].
  rewrite form_sums, <- rsum_scal. apply rsum_le. intros j Hj. rewrite <- rsum_scal. apply rsum_le. intros i Hi.
  eapply Rle_trans; [apply Rle_abs|]. rewrite !Rabs_mult. pose proof (Hx i Hi). pose proof (Hx j Hj).
  replace (E * E * Rabs (inf i j)) with (Rabs (inf i j) * E * E) by ring. pose proof (Rabs_pos (inf i j)). pose proof (Rabs_pos (x i)). pose proof (Rabs_pos (x j)).
  apply Rmult_le_compat; try assumption; [apply Rmult_le_pos; assumption|]. apply Rmult_le_compat_l; assumption.
Qed.
End Form.

(** ** The bell curve *)
Lemma bell_slope (s t : R) : Rabs (exp (- (1 / 2) * (s * s)) - exp (- (1 / 2) * (t * t))) <= Rabs (s - t).
Proof.
  assert (M : forall a b, a < b -> Rabs (exp (- (1 / 2) * (b * b)) - exp (- (1 / 2) * (a * a))) <= b - a).
  { intros a b Hab. destruct (MVT_cor2 (fun x => exp (- (1 / 2) * (x * x))) (fun x => - x * exp (- (1 / 2) * (x * x))) a b Hab) as [z [E _]].
    - intros z _. assert (D : derivable_pt_lim (fun x => - (1 / 2) * (x * x)) z (- (1 / 2) * (1 * z + z * 1))).
      { apply (derivable_pt_lim_scal (fun x => x * x)). apply (derivable_pt_lim_mult (fun x => x) (fun x => x)); apply derivable_pt_lim_id. }
      pose proof (derivable_pt_lim_comp _ _ _ _ _ D (derivable_pt_lim_exp _)) as K.
      replace (- z * exp (- (1 / 2) * (z * z))) with (exp (- (1 / 2) * (z * z)) * (- (1 / 2) * (1 * z + z * 1))) by field. exact K.
    - rewrite E, Rabs_mult, (Rabs_pos_eq (b - a)) by lra. rewrite <- (Rmult_1_l (b - a)) at 2. apply Rmult_le_compat_r; [lra|].
      rewrite Rabs_mult, Rabs_Ropp, (Rabs_pos_eq (exp _)) by (left; apply exp_pos).
      replace (- (1 / 2) * (z * z)) with (- (1 / 2 * (z * z))) by ring. rewrite exp_Ropp. apply Rmult_le_reg_r with (exp (1 / 2 * (z * z))); [apply exp_pos|].
      rewrite Rmult_assoc, Rinv_l, Rmult_1_r, Rmult_1_l by (pose proof (exp_pos (1 / 2 * (z * z))); lra).
      eapply Rle_trans; [|apply exp_ineq1_le]. unfold Rabs. destruct (Rcase_abs z); nra. }
  destruct (Rtotal_order s t) as [H|[->|H]].
  - rewrite Rabs_minus_sym, (Rabs_minus_sym s t), (Rabs_pos_eq (t - s)) by lra. apply M. exact H.
  - rewrite !Rminus_diag_eq, Rabs_R0 by reflexivity. lra.
  - rewrite (Rabs_pos_eq (s - t)) by lra. apply M. lra.
Qed.

Lemma exponent_form (dim : nat) (mean : nat -> R) (inf : nat -> nat -> R) (p : nat -> R) :
  exponent real_number dim mean inf p = - (1 / 2) * form dim inf (fun i => p i - mean i) (fun i => p i - mean i).
Proof.
  unfold exponent, form.
  assert (S : forall n f, nsum real_number n f = rsum n f) by (intros n f; induction n as [|n IH]; cbn [nsum rsum]; [reflexivity|rewrite IH; reflexivity]).
  rewrite S, <- rsum_scal. apply rsum_ext. intros j _. rewrite S. cbn [nmul nsub scale of_double real_number].
  rewrite <- Rmult_assoc, <- rsum_scal. f_equal. apply rsum_ext. intros i _. ring.
Qed.

Lemma rsample_steady (dim : nat) (valid : bool) (mean : nat -> R) (inf : nat -> nat -> R) (p q : nat -> R) (E L : R) :
  (forall i j, (i < dim)%nat -> (j < dim)%nat -> inf i j = inf j i) -> semidefinite dim inf ->
  0 <= E -> 0 <= L -> rsum dim (fun j => rsum dim (fun i => Rabs (inf i j))) <= L * L ->
  (forall i, (i < dim)%nat -> Rabs (p i - q i) <= E) ->
  Rabs (rsample dim valid mean inf p - rsample dim valid mean inf q) <= L * E.
Proof.
  intros Sym Psd0 HE HL HS Hpq.
  assert (Psd : forall x, 0 <= form dim inf x x).
  { intros x. rewrite form_sums. erewrite rsum_ext; [apply (Psd0 x)|]. intros j _. apply rsum_ext. intros i _. ring. }
  unfold rsample. destruct valid; [|rewrite Rminus_diag_eq, Rabs_R0 by reflexivity; apply Rmult_le_pos; assumption].
  rewrite !exponent_form. rewrite <- (sqrt_sqrt _ (Psd (fun i => p i - mean i))), <- (sqrt_sqrt _ (Psd (fun i => q i - mean i))).
  cbn [nexp real_number]. eapply Rle_trans; [apply bell_slope|].
  eapply Rle_trans; [apply (norm_diff dim inf Sym Psd)|].
  eapply Rle_trans; [|apply (norm_bound dim inf (fun i => p i - q i) E L Hpq HE HL HS)].
  right. unfold norm. f_equal. apply form_ext. intros; ring.
Qed.

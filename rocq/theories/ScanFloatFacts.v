(** The objective of a scan against a map with any history. *)
From Coq Require Import QArith Qabs Reals Lra Lia Qreals Floats.SpecFloat.
From Flocq Require Import Core BinarySingleNaN.
From Verif Require Import Base IndexModel OctreeSpec MapModel BackendModel SysModel SysSpec ExtentModel SampleModel SampleSpec
  ResidualModel RoundModel FloatModel RoundFacts FloatFacts FloatScoreFacts FloatBoundFacts FloatIndexFacts
  ObjFloatModel ObjFloatSpec ObjFloatFacts HypotFloatFacts ScanFloatModel ScanFloatSpec.
Open Scope R_scope.

Section Scan.
Variables prec emax : Z.
Hypothesis Hf : standard_format prec emax.
Context {P : Type}.
Variable c : config P.
Hypothesis Hc : config_ok c.
Hypothesis HD : (dimc c <= 8)%nat.
Variable dsample : P -> list spec_float -> spec_float.
Variable inv : spec_float.
Variable l : list (map_action (P:=P)).
Variable m : cmap c.
Hypothesis Hl : fits c l.
Hypothesis Em : cact_all c l (new_map c) = Ok m.

Notation tol := (2 * IZR (2 ^ Z.of_nat (dimc c)) * bpow radix2 (- prec)).

Lemma one_point (p : list spec_float) : point_ok prec emax c dsample inv m p ->
  exists s t, (let* s := float_sampleNonNormalized prec emax c inv dsample m p in Ok (widen s)) = Ok s /\ exact_score prec emax c dsample inv m p t /\
    is_double s /\ 0 <= real s <= 1 /\ Rabs (real s - Q2R t) <= tol.
Proof.
  intros [[bi [Eb Ha]] Hu].
  destruct (plain_history prec emax Hf c Hc HD l m Hl Em dsample p Hu bi Ha) as [s [t [Es [Et [[G U] Q]]]]].
  assert (U' : 0 <= real s <= 1).
  { rewrite <- value_val. destruct U as [U1 U2]. apply Qle_Rle in U1, U2. unfold Q2R in U1 at 1. unfold Q2R in U2 at 2. cbn in U1, U2. lra. }
  destruct (widen_exact prec emax Hf s G) as [W GW].
  { rewrite Rabs_pos_eq by apply U'. apply Rle_lt_trans with 1; [apply U'|]. change 1 with (bpow radix2 0). apply bpow_lt. reflexivity. }
  exists (widen s), t. unfold float_sampleNonNormalized. rewrite Eb. cbn [obind]. rewrite Es. cbn [obind].
  split; [reflexivity|]. split; [exists bi; split; assumption|]. split; [apply GW|]. rewrite W. split; [exact U'|].
  rewrite <- value_val. apply Qle_Rle in Q. rewrite <- Q2R_minus.
  assert (A : Q2R (Qabs (float_value s - t)) = Rabs (Q2R (float_value s - t))).
  { apply Qabs_case; intros H; apply Qle_Rle in H; rewrite ?Q2R_opp.
    - rewrite Rabs_pos_eq; [reflexivity|]. unfold Q2R in *; cbn in *; lra.
    - rewrite Rabs_left1; [reflexivity|]. unfold Q2R in *; cbn in *; lra. }
  rewrite A in Q. rewrite !Q2R_mult, pow_bpow, Q2R_inject, Q2R_2 in Q. exact Q.
Qed.

Lemma all_points (points : list (list spec_float)) : Forall (point_ok prec emax c dsample inv m) points ->
  exists scores exact, scan_scores prec emax c inv dsample m points = Ok scores /\
    length scores = length points /\ Forall2 (exact_score prec emax c dsample inv m) points exact /\ scores_ok scores /\
    Rabs (fold_right (fun s a => real s + a) 0 scores - fold_right (fun q a => Q2R q + a) 0 exact) <= INR (length points) * tol.
Proof.
  induction 1 as [|p points Hp _ [scores [exact [E [L [F [O R]]]]]]].
  - exists [], []. split; [reflexivity|]. split; [reflexivity|]. split; [constructor|]. split; [constructor|].
    cbn [fold_right length INR]. rewrite Rminus_diag_eq by reflexivity. rewrite Rabs_R0. lra.
  - destruct (one_point p Hp) as [s [t [Es [Et [V [U T]]]]]]. exists (s :: scores), (t :: exact).
    unfold scan_scores in *. cbn [omap]. rewrite Es. cbn [obind]. rewrite E. cbn [obind].
    split; [reflexivity|]. split; [cbn [length]; rewrite L; reflexivity|]. split; [constructor; assumption|].
    split; [constructor; [split; [exact V|lra]|exact O]|].
    cbn [fold_right]. change (length (p :: points)) with (S (length points)). rewrite S_INR.
    match goal with |- Rabs (?a + ?b - (?a' + ?b')) <= _ => replace (a + b - (a' + b')) with ((a - a') + (b - b')) by ring end.
    eapply Rle_trans; [apply Rabs_triang|]. lra.
Qed.

Lemma means_near (points : list (list spec_float)) (scores : list double) (exact : list Q) : points <> [] ->
  length scores = length points -> length exact = length points ->
  Rabs (fold_right (fun s a => real s + a) 0 scores - fold_right (fun q a => Q2R q + a) 0 exact) <= INR (length points) * tol ->
  Rabs (mean scores - exact_mean exact) <= tol.
Proof.
  intros N L1 L2 R. assert (Pn : 0 < INR (length points)) by (apply lt_0_INR; destruct points; [contradiction|cbn; lia]).
  unfold mean, exact_mean. rewrite L1, L2. unfold Rdiv. rewrite <- Rmult_minus_distr_r, Rabs_mult.
  rewrite (Rabs_pos_eq (/ INR (length points))) by (apply Rlt_le, Rinv_0_lt_compat; exact Pn).
  apply Rmult_le_reg_r with (INR (length points)); [exact Pn|]. rewrite Rmult_assoc, Rinv_l, Rmult_1_r by lra. lra.
Qed.
Lemma same_length {A B : Type} (R : A -> B -> Prop) (a : list A) (b : list B) : Forall2 R a b -> length b = length a.
Proof. induction 1; cbn; congruence. Qed.

Lemma scan_nlopt (w : double_weights) (points : list (list spec_float)) (td rd : double) :
  Forall (point_ok prec emax c dsample inv m) points -> points <> [] -> (Z.of_nat (length points) <= 2 ^ 50)%Z ->
  weights_moderate w -> moderate td -> moderate rd ->
  exists exact fi score, Forall2 (exact_score prec emax c dsample inv m) points exact /\
    scan_objective prec emax c inv dsample w m points td rd = Ok fi /\
    scan_mapScore prec emax c inv dsample w m points td rd = Ok score /\
    finite_double fi /\ finite_double score /\
    Rabs (real fi - (real (dw_map w) * (1 - exact_mean exact) + penalty w td rd))
      <= (INR (length points) + 16) * roundoff * (real (dw_map w) + penalty_size w td rd) + real (dw_map w) * tol /\
    Rabs (real score - exact_mean exact)
      <= (INR (length points) + 40) * roundoff * (1 + penalty_size w td rd / real (dw_map w)) + tol.
Proof.
  intros Hp Hne Hn Hw Ht Hr. destruct (all_points points Hp) as [scores [exact [E [L [F [O R]]]]]].
  assert (Hs : scores <> []) by (intros ->; destruct points; [contradiction|discriminate]).
  pose proof (means_near points scores exact Hne L (same_length _ _ _ F) R) as M.
  destruct (nlopt_accurate w scores td rd Hw O Hs ltac:(rewrite L; exact Hn) Ht Hr) as [A1 [A2 [A3 A4]]]. rewrite L in A2, A4.
  exists exact, (double_apply w scores td rd), (double_mapScore w (double_apply w scores td rd) td rd).
  split; [exact F|]. unfold scan_mapScore, scan_objective. rewrite E. cbn [obind]. split; [reflexivity|]. split; [reflexivity|].
  split; [exact A1|]. split; [exact A3|]. pose proof (wm_pos w Hw) as W. split.
  - match goal with |- Rabs (?x - (?a * (1 - ?y) + ?b)) <= _ => replace (x - (a * (1 - y) + b)) with ((x - (a * (1 - mean scores) + b)) + a * (y - mean scores)) by ring end.
    eapply Rle_trans; [apply Rabs_triang|]. apply Rplus_le_compat; [exact A2|].
    rewrite Rabs_mult, (Rabs_pos_eq (real (dw_map w))) by lra. apply Rmult_le_compat_l; [lra|]. rewrite Rabs_minus_sym. exact M.
  - match goal with |- Rabs (?x - ?y) <= _ => replace (x - y) with ((x - mean scores) + (mean scores - y)) by ring end.
    eapply Rle_trans; [apply Rabs_triang|]. apply Rplus_le_compat; [exact A4|exact M].
Qed.
Lemma scan_alglib (w : double_weights) (points : list (list spec_float)) (rest : list double) :
  Forall (point_ok prec emax c dsample inv m) points -> points <> [] -> (Z.of_nat (length points) <= 2 ^ 50)%Z ->
  weights_moderate w ->
  exists exact score, Forall2 (exact_score prec emax c dsample inv m) points exact /\
    scan_alglib_mapScore prec emax c inv dsample w m points rest = Ok score /\
    finite_double score /\ Rabs (real score - exact_mean exact) <= (5 * INR (length points) + 20) * roundoff + tol.
Proof.
  intros Hp Hne Hn Hw. destruct (all_points points Hp) as [scores [exact [E [L [F [O R]]]]]].
  assert (Hs : scores <> []) by (intros ->; destruct points; [contradiction|discriminate]).
  pose proof (means_near points scores exact Hne L (same_length _ _ _ F) R) as M.
  destruct (alglib_accurate w scores rest Hw O Hs ltac:(rewrite L; exact Hn)) as [_ [_ [A1 A2]]]. rewrite L in A1, A2.
  unfold scan_alglib_mapScore. rewrite E. cbn [obind]. eexists; eexists. split; [exact F|]. split; [reflexivity|].
  split; [exact A1|]. match goal with |- Rabs (?x - ?y) <= _ => replace (x - y) with ((x - mean scores) + (mean scores - y)) by ring end.
  eapply Rle_trans; [apply Rabs_triang|]. apply Rplus_le_compat; [exact A2|exact M].
Qed.
End Scan.

(** A computed point close to an exact one is scored in the bundle of the exact one. *)
From Coq Require Import QArith Qabs Reals Qreals Lra Lia List Floats.SpecFloat.
From Flocq Require Import Core BinarySingleNaN.
From Verif Require Import Base IndexModel IndexFacts OctreeSpec MapModel BackendModel MapHist SysModel SysSpec SysFacts ExtentModel SampleModel SampleSpec SampleFacts
  ResidualModel MatchModel MatchSpec RigidSpec RoundModel RoundFacts FloatModel FloatFacts FloatScoreFacts FloatBoundFacts FloatIndexFacts
  ObjFloatModel ObjFloatSpec ObjFloatFacts StepFloatModel StepFloatSpec MoveFloatModel MoveFloatSpec MoveFloatFacts ScanPlaceSpec.
Import ListNotations.
Open Scope R_scope.

#[local] Instance r53 : Prec_gt_0 53. Proof. reflexivity. Qed.
#[local] Instance r1024 : Prec_lt_emax 53 1024. Proof. reflexivity. Qed.

(** ** The index *)
Lemma index_of_place (resolution : double) (x : list double) (e : list R) (bi : idx) (M : Z) (E : R) :
  float_good_resolution 53 1024 resolution -> Forall finite_double x -> close E (map real x) e -> within M bi ->
  let h := real resolution / 2 in
  well_inside h (E + IZR M * bpow radix2 (-50) * h) bi e ->
  float_bundle_index 53 1024 (float_resolution_inv 53 1024 resolution) x = Ok bi.
Proof.
  intros Hr Fx [Lx Cx] [HM Hbi] h [Le In]. rewrite map_length in Lx, Cx.
  assert (Ph : 0 < h).
  { destruct Hr as [_ [Hr _]]. apply Qle_Rle in Hr. rewrite value_val, pow_bpow in Hr. unfold h. pose proof (bpow_gt_0 radix2 (-100)). lra. }
  assert (RM : 1 <= IZR M <= IZR (2 ^ 31)) by (split; apply IZR_le; lia).
  assert (Small : bpow radix2 (2 - 1024 - 53) <= IZR M * bpow radix2 (-51)).
  { apply Rle_trans with (1 * bpow radix2 (-51)); [rewrite Rmult_1_l; apply bpow_le; lia|]. apply Rmult_le_compat_r; [apply bpow_ge_0|lra]. }
  assert (Half : bpow radix2 (-50) = 2 * bpow radix2 (-51)) by (change (-50)%Z with (1 + -51)%Z; rewrite bpow_plus; reflexivity).
  apply (float_inside 53 1024 resolution x bi (inject_Z M)).
  - right. split; reflexivity.
  - exact Hr.
  - eapply Forall_impl; [|exact Fx]. intros y. apply finite_good.
  - lia.
  - eapply Forall_impl; [|exact Hbi]. cbn. intros z Hz. unfold INT_MIN, INT_MAX. lia.
  - split; apply Rle_Qle; q2r; [lra|]. eapply Rle_trans; [apply RM|]. change (IZR (2 ^ 31)) with (bpow radix2 31). apply bpow_le. lia.
  - intros d Hd.
    specialize (Cx d Hd). specialize (In d ltac:(lia)).
    rewrite (nth_indep _ 0 (real S754_nan)) in Cx by (rewrite map_length; exact Hd). rewrite map_nth in Cx.
    set (y := nth d x S754_nan) in *. apply Rabs_le_inv in Cx.
    assert (Z0 : - IZR M + 1 <= IZR (nth d bi 0%Z) <= IZR M - 1).
    { rewrite Forall_forall in Hbi. specialize (Hbi (nth d bi 0%Z) ltac:(apply nth_In; lia)).
      rewrite <- opp_IZR, <- plus_IZR, <- minus_IZR. split; apply IZR_le; lia. }
    set (k := IZR (nth d bi 0%Z)) in *.
    assert (T : (IZR M * bpow radix2 (2 - 53) + bpow radix2 (2 - 1024 - 53)) * h <= IZR M * bpow radix2 (-50) * h).
    { apply Rmult_le_compat_r; [lra|]. rewrite Half. change (2 - 53)%Z with (-51)%Z. lra. }
    assert (T0 : 0 <= IZR M * bpow radix2 (-50) * h) by (apply Rmult_le_pos; [apply Rmult_le_pos; [lra|apply bpow_ge_0]|lra]).
    assert (Eh : real resolution * / 2 = h) by reflexivity.
    assert (K1 : (- IZR M + 1) * h <= k * h) by (apply Rmult_le_compat_r; lra).
    assert (K2 : k * h <= (IZR M - 1) * h) by (apply Rmult_le_compat_r; lra).
    split; [split|split]; [apply Rle_Qle|apply Rle_Qle|apply Rle_Qle|apply Rlt_Qlt]; q2r; rewrite Eh; fold k; lra.
Qed.

(** ** The score *)
Section Score.
Context {P : Type}.
Variable c : config P.
Hypothesis Hc : config_ok c.
Variable dsample : P -> list Q -> Q.

Lemma sample_value (l : list (map_action (P:=P))) (m : cmap c) (p : list Q) (bi : idx) :
  fits c l -> cact_all c l (new_map c) = Ok m -> usable c 0 bi ->
  match cbundle c m bi with
  | Ok None => sample_at c dsample m p bi = Ok 0%Q
  | Ok (Some _) =>
      exists v s, (forall k, (k < 2 ^ dimc c)%nat -> cstored c m k (generate_index bi k) = Ok (Some (v k))) /\
        sample_at c dsample m p bi = Ok s /\
        (s == qsum (map (fun k => dsample (v k) p) (seq 0 (2 ^ dimc c))) / inject_Z (2 ^ Z.of_nat (dimc c)))%Q
  | _ => False
  end.
Proof.
  intros Hf E Hu. destruct (run_spec c Hc l Hf) as [m0 [E0 [HI [HR _]]]]. assert (m0 = m) by congruence. subst m0.
  destruct (place_usable c bi Hu) as [Ha Hpl].
  rewrite sample_at_spec by assumption. unfold sampled.
  rewrite (place_bundle c Hc m bi HI HR Ha), Hpl.
  pose proof (bundle_dom c m bi HI Ha) as Hbd. rewrite Hpl in Hbd.
  destruct (cbget c m bi) as [b|] eqn:Ebb; [|reflexivity].
  specialize (Hbd ltac:(discriminate)).
  eexists. eexists. split; [|split; [reflexivity|]].
  - intros k Hk. apply stored_content; [exact HI|exact Hbd|congruence|exact Hk].
  - rewrite score_sum. unfold div_count. rewrite two_pow_spec, Nat2Z.inj_pow. change (Z.of_nat 2) with 2%Z.
    set (n := inject_Z (2 ^ Z.of_nat (dimc c))). unfold Qdiv. clearbody n.
    induction (seq 0 (2 ^ dimc c)) as [|k ks IH]; cbn [map]; unfold qsum in *; cbn [fold_right]; [ring|].
    rewrite IH. ring.
Qed.
End Score.

Lemma sums_close (f g : nat -> R) (l : list nat) (b : R) :
  (forall k, In k l -> Rabs (f k - g k) <= b) ->
  Rabs (fold_right Rplus 0 (map f l) - fold_right Rplus 0 (map g l)) <= INR (length l) * b.
Proof.
  intros H. induction l as [|k l IH]; [cbn; rewrite Rminus_diag_eq, Rabs_R0 by reflexivity; lra|].
  cbn [map fold_right length]. rewrite S_INR.
  replace (f k + _ - _) with ((f k - g k) + (fold_right Rplus 0 (map f l) - fold_right Rplus 0 (map g l))) by ring.
  eapply Rle_trans; [apply Rabs_triang|]. pose proof (H k (or_introl eq_refl)). specialize (IH (fun j Hj => H j (or_intror Hj))). lra.
Qed.
Lemma qsum_real (f : nat -> Q) (l : list nat) : Q2R (qsum (map f l)) = fold_right Rplus 0 (map (fun k => Q2R (f k)) l).
Proof. induction l as [|k l IH]; cbn [map]; unfold qsum in *; cbn [fold_right]; [apply Q2R_0'|]. rewrite Q2R_plus, IH. reflexivity. Qed.

Section Place.
Context {P : Type}.
Variable c : config P.
Hypothesis Hc : config_ok c.
Hypothesis HD : (dimc c <= 8)%nat.
Variable sample : P -> list double -> double.
Variable density : P -> list R -> R.
Variables (eps L : R).
Variable l : list (map_action (P:=P)).
Variable m : cmap c.
Hypothesis Hl : fits c l.
Hypothesis Em : cact_all c l (new_map c) = Ok m.
Hypothesis HL : steady (stored_in c m) density (dimc c) L.

Lemma scored_near (resolution : double) (x : list double) (e : list R) (bi : idx) (M : Z) (E : R) :
  float_good_resolution 53 1024 resolution -> Forall finite_double x -> 0 <= E -> close E (map real x) e -> within M bi -> usable c 0 bi ->
  let h := real resolution / 2 in
  computes (stored_in c m) density h bi sample eps -> well_inside h (E + IZR M * bpow radix2 (-50) * h) bi e ->
  scored_there c sample density m eps L resolution x e bi E.
Proof.
  intros Hr Fx HE Cx Hw Hu h Heps0 In.
  assert (Lx : length (map real x) = dimc c) by (destruct Hu as [Lb _]; destruct In as [Le _]; destruct Cx as [Le' _]; lia).
  assert (Heps : forall v, stored_in c m v ->
    finite_double (sample v x) /\ 0 <= real (sample v x) <= 1 /\ Rabs (real (sample v x) - density v (map real x)) <= eps).
  { intros v Hv. pose proof In as [Le In']. pose proof Cx as [Lx' Cx']. rewrite map_length in Lx', Cx', Lx. apply Heps0; [exact Hv|exact Fx|exact (eq_trans Lx' Le)|].
    intros d Hd. specialize (In' d Hd). specialize (Cx' d ltac:(lia)). apply Rabs_le_inv in Cx'.
    assert (T0 : 0 <= IZR M * bpow radix2 (-50) * h).
    { destruct Hw as [HM _]. apply Rmult_le_pos; [apply Rmult_le_pos; [apply IZR_le; lia|apply bpow_ge_0]|].
      destruct Hr as [_ [Hr _]]. apply Qle_Rle in Hr. rewrite value_val, pow_bpow in Hr. unfold h. pose proof (bpow_gt_0 radix2 (-100)). lra. }
    lra. }
  pose proof (index_of_place resolution x e bi M E Hr Fx Cx Hw In) as Eb.
  destruct (place_usable c bi Hu) as [Ha Hpl].
  assert (HU : forall i j v, cstored c m i j = Ok (Some v) -> unit_float 53 1024 (sample v x)).
  { intros i j v Hv. destruct (Heps v (ex_intro _ i (ex_intro _ j Hv))) as [F [B _]]. apply unit_iff. split; [apply finite_good; exact F|exact B]. }
  destruct (plain_history 53 1024 (or_intror (conj eq_refl eq_refl)) c Hc HD l m Hl Em sample x HU bi Ha) as [s [t [Es [Et [Us D]]]]].
  unfold scored_there, float_sampleNonNormalized. rewrite Eb. cbn [obind]. exists s. split; [exact Es|].
  split; [apply finite_good; apply Us|].
  pose proof (sample_value c Hc (fun v _ => float_value (sample v x)) l m (map float_value x) bi Hl Em Hu) as V.
  unfold float_sample_at in Es. destruct (cbundle c m bi) as [[b|]| |]; try exact V.
  - destruct V as [v [t' [Hv [Et' Ev]]]]. exists v. split; [exact Hv|].
    assert (t' = t) by congruence. subst t'. apply Qabs_Qle_condition in D. destruct D as [D1 D2]. apply Qle_Rle in D1, D2.
    rewrite Q2R_minus, value_val in D1, D2. rewrite Q2R_opp in D1. rewrite !Q2R_mult, pow_bpow, pow_inject, Q2R_2 in D1, D2.
    pose proof (Rabs_le _ _ (conj D1 D2)) as D. change (bpow radix2 (- (53))) with roundoff in D.
    apply Qeq_eqR in Ev. unfold Qdiv in Ev. rewrite Q2R_mult, qsum_real in Ev.
    set (n := (2 ^ dimc c)%nat) in *.
    assert (Pn : 0 < INR n) by (apply lt_0_INR; unfold n; apply Nat.neq_0_lt_0, Nat.pow_nonzero; lia).
    rewrite Q2R_inv, pow_inject in Ev by (intros Q0; apply Qeq_eqR in Q0; rewrite pow_inject, Q2R_0' in Q0; fold n in Q0; lra). fold n in Ev.
    assert (S : Rabs (Q2R t - mean_density density n v e) <= eps + L * E).
    { rewrite Ev. unfold mean_density, Rdiv. rewrite <- Rmult_minus_distr_r, Rabs_mult, (Rabs_pos_eq (/ INR n)) by (left; apply Rinv_0_lt_compat; exact Pn).
      apply Rmult_le_reg_r with (INR n); [exact Pn|]. rewrite Rmult_assoc, Rinv_l, Rmult_1_r by lra.
      pose proof (sums_close (fun k => Q2R (float_value (sample (v k) x))) (fun k => density (v k) e) (seq 0 n) (eps + L * E)) as K.
      rewrite seq_length in K. eapply Rle_trans; [apply K|lra]. intros k Hk. rewrite value_val.
      apply in_seq in Hk. assert (Hin : stored_in c m (v k)) by (exists k, (generate_index bi k); apply Hv; lia).
      destruct (Heps (v k) Hin) as [_ [_ A]]. pose proof (HL (v k) _ _ E Hin Lx HE Cx) as B.
      replace (real (sample (v k) x) - density (v k) e) with
        ((real (sample (v k) x) - density (v k) (map real x)) + (density (v k) (map real x) - density (v k) e)) by ring.
      eapply Rle_trans; [apply Rabs_triang|]. lra. }
    fold n in D. replace (real s - mean_density density n v e) with ((real s - Q2R t) + (Q2R t - mean_density density n v e)) by ring.
    eapply Rle_trans; [apply Rabs_triang|]. lra.
  - cbn [obind] in Es. injection Es as <-. reflexivity.
Qed.
End Place.

(** ** The three motions *)
Lemma close_distance (E : R) (p : dpoint) (v : vec) : distance (place p) v <= E -> close E (map real (dcoords p)) (coords v).
Proof.
  destruct v as [[x y] z]. unfold distance, place. intros H. split; [reflexivity|].
  set (a := real (dp0 p)) in *. set (b := real (dp1 p)) in *. set (d := real (dp2 p)) in *.
  assert (K : forall w, w * w <= (a - x) * (a - x) + (b - y) * (b - y) + (d - z) * (d - z) -> Rabs w <= E).
  { intros w Hw. eapply Rle_trans; [|exact H]. rewrite <- sqrt_Rsqr_abs. apply sqrt_le_1_alt. exact Hw. }
  intros i Hi. cbn [map dcoords length] in Hi.
  pose proof (Rle_0_sqr (a - x)) as A. pose proof (Rle_0_sqr (b - y)) as B. pose proof (Rle_0_sqr (d - z)) as D. unfold Rsqr in A, B, D.
  destruct i as [|[|[|i]]]; [| | |lia]; cbn [map dcoords coords nth]; apply K; fold a b d; lra.
Qed.
Lemma distance_pos (a b : vec) (E : R) : distance a b <= E -> 0 <= E.
Proof. destruct a as [[a0 a1] a2], b as [[b0 b1] b2]. unfold distance. intros H. eapply Rle_trans; [apply sqrt_pos|exact H]. Qed.
Lemma finite_dcoords (p : dpoint) : finite_point p -> Forall finite_double (dcoords p).
Proof. intros [A [B C]]. repeat (apply Forall_cons; [assumption|]). apply Forall_nil. Qed.

(** ** Occupancy maps *)
Section Cells.
Context {P D I : Type}.
Variable c : config P.
Variable m : cmap c.
Variable inner : P -> option D.
Variable sample : D -> list double -> double.
Variable density : D -> list R -> R.
Variable occupancy : I -> P -> double.
Variable occ : P -> R.
Variable iv : I.
Variables (eps eps_o L h : R) (bi : idx) (n : nat).
Hypothesis He : 0 <= eps.
Hypothesis Heo : 0 <= eps_o.
Hypothesis HL : 0 <= L.
Hypothesis HS : steady (inside_cells c m inner) density n L.
Hypothesis HC : computes (inside_cells c m inner) density h bi sample eps.
Hypothesis HO : occupancies c m inner occ (occupancy iv) eps_o.

Lemma cells_steady : steady (stored_in c m) (cell_density inner density occ) n L.
Proof.
  intros v a b E Hv La HE Hab. unfold cell_density. destruct (inner v) as [s|] eqn:Es.
  - destruct (HO v s Hv Es) as [[O0 O1] _]. pose proof (HS s a b E (ex_intro _ v (conj Hv Es)) La HE Hab) as B.
    replace (density s a * occ v - density s b * occ v) with ((density s a - density s b) * occ v) by ring.
    rewrite Rabs_mult, (Rabs_pos_eq (occ v)) by exact O0. rewrite <- (Rmult_1_r (L * E)).
    apply Rmult_le_compat; [apply Rabs_pos|exact O0|exact B|exact O1].
  - rewrite Rminus_diag_eq, Rabs_R0 by reflexivity. apply Rmult_le_pos; assumption.
Qed.
Lemma cells_computed : computes (stored_in c m) (cell_density inner density occ) h bi (float_contribution 53 1024 inner sample occupancy iv) (eps + eps_o + roundoff).
Proof.
  intros v x Hv Fx Lx Hx. unfold cell_density, float_contribution. pose proof (bpow_ge_0 radix2 (-53)) as U0. fold roundoff in U0. destruct (inner v) as [s|] eqn:Es.
  - destruct (HO v s Hv Es) as [[O0 O1] [Fo [Ro Eo]]]. destruct (HC s x (ex_intro _ v (conj Hv Es)) Fx Lx Hx) as [Fs [Rs Eps]].
    destruct (mul_unit 53 1024 (or_intror (conj eq_refl eq_refl)) (sample s x) (occupancy iv v) (conj Fs Rs) (conj Fo Ro)) as [[G R] [K _]].
    split; [exact G|]. split; [exact R|]. change (bpow radix2 (- (53))) with roundoff in K.
    set (S := real (sample s x)) in *. set (O := real (occupancy iv v)) in *. set (d := density s (map real x)) in *.
    replace (_ - d * occ v) with ((real (fmul 53 1024 (sample s x) (occupancy iv v)) - S * O) + ((S - d) * occ v + S * (O - occ v))) by ring.
    assert (A1 : Rabs ((S - d) * occ v) <= eps).
    { rewrite Rabs_mult, (Rabs_pos_eq (occ v)) by exact O0. rewrite <- (Rmult_1_r eps). apply Rmult_le_compat; [apply Rabs_pos|exact O0|exact Eps|exact O1]. }
    assert (A2 : Rabs (S * (O - occ v)) <= eps_o).
    { rewrite Rabs_mult, (Rabs_pos_eq S) by apply Rs. rewrite <- (Rmult_1_l eps_o). apply Rmult_le_compat; [apply Rs|apply Rabs_pos|apply Rs|exact Eo]. }
    eapply Rle_trans; [apply Rabs_triang|]. pose proof (Rabs_triang ((S - d) * occ v) (S * (O - occ v))). lra.
  - split; [split; reflexivity|]. cbn [float_zero SF2R]. split; [lra|]. rewrite Rminus_diag_eq, Rabs_R0 by reflexivity. lra.
Qed.
Lemma occ_is_plain (inv : double) (x : list double) :
  float_occ_sampleNonNormalized 53 1024 c inv inner sample occupancy m x (Some iv) =
  float_sampleNonNormalized 53 1024 c inv (float_contribution 53 1024 inner sample occupancy iv) m x.
Proof. reflexivity. Qed.
End Cells.

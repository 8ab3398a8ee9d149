(** Bounds of the scores in floating-point arithmetic. *)
From Coq Require Import QArith Qabs Qround Reals Lra Qreals Floats.SpecFloat.
From Flocq Require Import Core Relative BinarySingleNaN.
From Verif Require Import Base SeqModel SeqFacts IndexModel IndexFacts OctreeSpec MapModel MapFacts MapHist BackendModel SysModel SysSpec SysFacts
  ExtentModel SampleModel SampleSpec InterpFacts SampleFacts ResidualModel RoundModel RoundFacts FloatModel FloatFacts FloatScoreFacts.
Open Scope R_scope.

Lemma qsum_rsum (f : nat -> Q) (l : list nat) : Q2R (qsum (map f l)) = rsum (map (fun i => Q2R (f i)) l).
Proof.
  induction l as [|i l IH]; cbn [map]; [exact Q2R_0'|]. unfold qsum in *. cbn [fold_right rsum]. rewrite Q2R_plus, IH. reflexivity.
Qed.
Lemma rsum_ext (f g : nat -> R) (l : list nat) : (forall i, In i l -> f i = g i) -> rsum (map f l) = rsum (map g l).
Proof.
  intros H. induction l as [|i l IH]; [reflexivity|]. cbn [map rsum]. rewrite H by (left; reflexivity).
  rewrite IH by (intros j Hj; apply H; right; exact Hj). reflexivity.
Qed.
Lemma rsum_diff (f g : nat -> R) (l : list nat) (k : R) : (forall i, In i l -> Rabs (f i - g i) <= k) ->
  Rabs (rsum (map f l) - rsum (map g l)) <= INR (length l) * k.
Proof.
  intros H. induction l as [|i l IH].
  - cbn [map rsum length INR]. rewrite Rminus_diag_eq, Rabs_R0 by reflexivity. lra.
  - cbn [map rsum length]. rewrite S_INR.
    replace (f i + rsum (map f l) - (g i + rsum (map g l))) with ((f i - g i) + (rsum (map f l) - rsum (map g l))) by ring.
    eapply Rle_trans; [apply Rabs_triang|]. pose proof (H i (or_introl eq_refl)).
    assert (Rabs (rsum (map f l) - rsum (map g l)) <= INR (length l) * k) by (apply IH; intros j Hj; apply H; right; exact Hj). lra.
Qed.
Lemma INR_pow2 (d : nat) : INR (2 ^ d) = bpow radix2 (Z.of_nat d).
Proof. rewrite INR_IZR_INZ, Nat2Z.inj_pow. change (Z.of_nat 2) with (radix_val radix2). apply IZR_Zpower. lia. Qed.
Lemma omap_nth {A B : Type} (f : A -> outcome B) (l : list A) (r : list B) (a : A) (b : B) : omap f l = Ok r ->
  length r = length l /\ forall d, (d < length l)%nat -> f (nth d l a) = Ok (nth d r b).
Proof.
  revert r. induction l as [|x l IH]; intros r E; cbn [omap] in E.
  - injection E as <-. split; [reflexivity|]. cbn. intros; lia.
  - destruct (f x) as [y| |] eqn:Ex; try discriminate. cbn [obind] in E.
    destruct (omap f l) as [r'| |] eqn:Er; try discriminate. injection E as <-. destruct (IH r' eq_refl) as [L N].
    split; [cbn; lia|]. intros [|d] Hd; cbn [nth]; [exact Ex|]. apply N. cbn in Hd. lia.
Qed.

(** Perturbation of the product of the weights of the axes. *)
Lemma inner_diff (a b : Q) (counter d : nat) (k : R) : Rabs (Q2R a - Q2R b) <= k ->
  Rabs (Q2R (weight_inner a counter d) - Q2R (weight_inner b counter d)) <= k.
Proof.
  intros H. unfold weight_inner. destruct (counter_bit counter d); [exact H|]. rewrite !Q2R_minus, !Q2R_1'.
  replace (1 - Q2R a - (1 - Q2R b)) with (- (Q2R a - Q2R b)) by ring. rewrite Rabs_Ropp. exact H.
Qed.
Lemma product_diff (a b : list Q) (counter : nat) (delta : R) (ds : list nat) (A B : Q) (k : R) :
  0 <= delta <= 1 -> (forall d, In d ds -> 0 <= Q2R (nth d a 0%Q) <= 1 /\ Rabs (Q2R (nth d a 0%Q) - Q2R (nth d b 0%Q)) <= delta) ->
  0 <= Q2R A <= 1 -> 0 <= k -> Rabs (Q2R A - Q2R B) <= k ->
  Rabs (Q2R (fold_left Qmult (map (fun d => weight_inner (nth d a 0%Q) counter d) ds) A) -
        Q2R (fold_left Qmult (map (fun d => weight_inner (nth d b 0%Q) counter d) ds) B))
    <= (k + delta) * 2 ^ length ds - delta.
Proof.
  intros Hdl. revert A B k. induction ds as [|d ds IH]; intros A B k Hd HA Hk HAB; cbn [map fold_left length].
  - rewrite pow_O. lra.
  - destruct (Hd d (or_introl eq_refl)) as [Ha Hab].
    pose proof (inner_range (nth d a 0%Q) counter d Ha) as Hf. pose proof (inner_diff _ _ counter d delta Hab) as Hfg.
    set (f := weight_inner (nth d a 0%Q) counter d) in *. set (g := weight_inner (nth d b 0%Q) counter d) in *.
    assert (Hg : Rabs (Q2R g) <= 2).
    { replace (Q2R g) with (Q2R f - (Q2R f - Q2R g)) by ring. apply Rabs_le_inv in Hfg. apply Rabs_le. lra. }
    replace ((k + delta) * 2 ^ S (length ds)) with ((delta + 2 * k + delta) * 2 ^ length ds) by (cbn [pow]; ring).
    apply IH.
    + intros x Hx. apply Hd. right. exact Hx.
    + rewrite Q2R_mult. split; [apply Rmult_le_pos; [apply HA|apply Hf]|]. rewrite <- (Rmult_1_r 1). apply Rmult_le_compat; try apply HA; apply Hf.
    + lra.
    + rewrite !Q2R_mult. replace (Q2R A * Q2R f - Q2R B * Q2R g) with (Q2R A * (Q2R f - Q2R g) + (Q2R A - Q2R B) * Q2R g) by ring.
      eapply Rle_trans; [apply Rabs_triang|]. rewrite !Rabs_mult, (Rabs_pos_eq (Q2R A)) by apply HA.
      assert (Q2R A * Rabs (Q2R f - Q2R g) <= 1 * delta) by (apply Rmult_le_compat; [apply HA|apply Rabs_pos|apply HA|exact Hfg]).
      assert (Rabs (Q2R A - Q2R B) * Rabs (Q2R g) <= k * 2) by (apply Rmult_le_compat; [apply Rabs_pos|apply Rabs_pos|exact HAB|exact Hg]).
      lra.
Qed.
Lemma weight_diff (a b : list Q) (counter : nat) (delta : R) : length a = length b ->
  0 <= delta <= 1 -> (forall d, (d < length a)%nat -> 0 <= Q2R (nth d a 0%Q) <= 1 /\ Rabs (Q2R (nth d a 0%Q) - Q2R (nth d b 0%Q)) <= delta) ->
  Rabs (Q2R (to_bilinear_interpolation_weight a counter) - Q2R (to_bilinear_interpolation_weight b counter)) <= delta * 2 ^ length a.
Proof.
  intros L Hd H. unfold to_bilinear_interpolation_weight. rewrite <- L, make_integer_sequence_spec.
  pose proof (product_diff a b counter delta (seq 0 (length a)) 1 1 0 Hd) as K. rewrite seq_length in K.
  eapply Rle_trans; [apply K|].
  - intros d Hi. apply in_seq in Hi. apply H. lia.
  - exact Q2R_nonneg_one.
  - lra.
  - rewrite Rminus_diag_eq, Rabs_R0 by reflexivity. lra.
  - lra.
Qed.

Section Bounds.
Variables prec emax : Z.
Hypothesis Hf : standard_format prec emax.
Notation good := (good_float prec emax).
Notation u := (bpow radix2 (- prec)).
Context {P : Type}.
Variable c : config P.
Hypothesis Hc : config_ok c.
Hypothesis HD : (dimc c <= 8)%nat.
Variable dsample : P -> list spec_float -> spec_float.
Variable p : list spec_float.
(** The same contributions as exact numbers. *)
Notation exact := (fun v (_ : list Q) => float_value (dsample v p)).
Notation n := (2 ^ dimc c)%nat.

Variable m : cmap c.
Hypothesis HI : cInv c m.
Hypothesis Hu : forall i j v, cstored c m i j = Ok (Some v) -> unit_float prec emax (dsample v p).

Lemma dim_cases : In (dimc c) (seq 0 9).
Proof. apply in_seq. lia. Qed.
Lemma div_count_value : val (float_div_count prec emax c) = bpow radix2 (- Z.of_nat (dimc c)) /\ good (float_div_count prec emax c) /\
  Q2R (div_count c) = bpow radix2 (- Z.of_nat (dimc c)).
Proof.
  pose proof dim_cases as K. unfold float_div_count, div_count.
  assert (G : (float_value (narrow prec emax (double_div double_one (widen (float_of_int prec emax (Z.of_nat (bin_count (dimc c))))))) ==
               (2 # 1) ^ (- Z.of_nat (dimc c)))%Q /\
              good (narrow prec emax (double_div double_one (widen (float_of_int prec emax (Z.of_nat (bin_count (dimc c))))))) /\
              (1 / inject_Z (Z.of_nat (bin_count (dimc c))) == (2 # 1) ^ (- Z.of_nat (dimc c)))%Q).
  { cbn [seq In] in K. destruct Hf as [[-> ->]|[-> ->]];
      repeat (destruct K as [<-|K]; [split; [vm_compute; reflexivity|split; [split; vm_compute; reflexivity|vm_compute; reflexivity]]|]); destruct K. }
  destruct G as [G1 [G2 G3]]. split; [|split; [exact G2|]].
  - rewrite <- value_val, (Qeq_eqR _ _ G1). apply pow_bpow.
  - rewrite (Qeq_eqR _ _ G3). apply pow_bpow.
Qed.

Lemma content_unit (b : idx) (bd : bundle) (i : nat) : cbdom c (cshape c m) b -> cbget c m b = Some bd -> (i < n)%nat ->
  unit_val prec emax (dsample (ccontent c m i (generate_index b i)) p).
Proof.
  intros Hd Hb Hi. apply unit_iff. apply (Hu i (generate_index b i)). apply stored_content; [exact HI|exact Hd|congruence|lia].
Qed.

(** Weights [w] that approximate exact ones [q]. *)
Lemma sampled_near (bi : idx) (w : nat -> spec_float) (q : nat -> Q) (pq : list Q) (e : R) : addressable c bi ->
  (forall i, (i < n)%nat -> unit_val prec emax (w i) /\ 0 <= Q2R (q i) /\ Rabs (val (w i) - Q2R (q i)) <= e) ->
  (qsum (map q (seq 0 n)) == 1)%Q -> 0 <= e -> INR n * (e + 2 * u) <= 1 ->
  let r := float_sampled prec emax c dsample m bi w p in
  good r /\ 0 <= val r <= 2 /\ Rabs (val r - Q2R (sampled c exact m bi q pq)) <= INR n * (e + 2 * u).
Proof.
  intros Ha Hw Hs He Hn. unfold float_sampled, sampled. pose proof (bundle_dom c m bi HI Ha) as Hbd.
  assert (U0 : 0 < u) by apply bpow_gt_0. pose proof (pos_INR n) as N0.
  destruct (cbget c m (place c bi)) as [b|] eqn:Eb.
  - specialize (Hbd ltac:(discriminate)). unfold float_score. rewrite two_pow_spec.
    destruct (sum_bound prec emax Hf w (fun i => dsample (ccontent c m i (generate_index (place c bi) i)) p) (fun i => Q2R (q i)) e
                (seq 0 n) float_zero 0 0) as [A [B C]].
    + intros i Hi. apply in_seq in Hi. destruct (Hw i ltac:(lia)) as [W1 [W2 W3]]. split; [exact W1|]. split; [|auto].
      apply (content_unit _ b); [exact Hbd|exact Eb|lia].
    + split; reflexivity.
    + cbn. lra.
    + lra.
    + exact He.
    + cbn. rewrite Rminus_0_r, Rabs_R0. lra.
    + lra.
    + rewrite <- qsum_rsum, (Qeq_eqR _ _ Hs), Q2R_1'. lra.
    + rewrite seq_length. lra.
    + split; [exact A|]. split; [exact B|]. rewrite seq_length in C. rewrite Rplus_0_l in C. rewrite Rplus_0_l in C.
      rewrite (Qeq_eqR _ _ (score_sum c exact m (place c bi) q pq)), qsum_rsum.
      erewrite rsum_ext; [exact C|]. intros i _. cbn beta. rewrite Q2R_mult, value_val. reflexivity.
  - split; [split; reflexivity|]. cbn [SF2R float_zero]. split; [lra|]. rewrite Q2R_0', Rminus_0_r, Rabs_R0.
    apply Rmult_le_pos; lra.
Qed.

Lemma n_small : INR n <= 256.
Proof.
  rewrite INR_pow2. change 256 with (bpow radix2 8). apply bpow_le. lia.
Qed.
Lemma u_tiny : u * 16777216 <= 1.
Proof.
  change 16777216 with (bpow radix2 24). rewrite <- bpow_plus. change 1 with (bpow radix2 0). apply bpow_le.
  destruct Hf as [[-> _]|[-> _]]; lia.
Qed.
Lemma mean_of_one (bi : idx) (b : bundle) : addressable c bi -> cbget c m (place c bi) = Some b ->
  let r := float_sampled prec emax c dsample m bi (fun _ => float_div_count prec emax c) p in
  good r /\ 0 <= val r <= 1.
Proof.
  intros Ha Eb. unfold float_sampled. rewrite Eb. pose proof (bundle_dom c m bi HI Ha) as Hbd. rewrite Eb in Hbd. specialize (Hbd ltac:(discriminate)).
  destruct div_count_value as [V [G _]]. unfold float_score. rewrite two_pow_spec.
  destruct (mean_bound prec emax Hf (fun i => dsample (ccontent c m i (generate_index (place c bi) i)) p) (float_div_count prec emax c) (dimc c)
              (seq 0 n) float_zero 0 HD G V) as [A B].
  - intros i Hi. apply in_seq in Hi. apply (content_unit _ b); [exact Hbd|exact Eb|lia].
  - lia.
  - rewrite seq_length, Nat2Z.inj_pow. lia.
  - split; reflexivity.
  - cbn [SF2R float_zero]. lra.
  - split; [exact A|]. rewrite seq_length, Z.add_0_l, <- INR_IZR_INZ, INR_pow2, <- bpow_plus, Z.add_opp_diag_r in B. exact B.
Qed.

(** The plain score. *)
Lemma plain_score (bi : idx) (pq : list Q) : addressable c bi ->
  let r := float_sampled prec emax c dsample m bi (fun _ => float_div_count prec emax c) p in
  good r /\ 0 <= val r <= 1 /\ Rabs (val r - Q2R (sampled c exact m bi (fun _ => div_count c) pq)) <= INR n * (2 * u).
Proof.
  intros Ha. destruct div_count_value as [V [G VQ]]. pose proof n_small as N1. pose proof u_tiny as U1.
  assert (U0 : 0 < u) by apply bpow_gt_0. pose proof (pos_INR n) as N0.
  assert (H1 : 0 < bpow radix2 (- Z.of_nat (dimc c)) <= 1).
  { split; [apply bpow_gt_0|]. change 1 with (bpow radix2 0). apply bpow_le. lia. }
  destruct (sampled_near bi (fun _ => float_div_count prec emax c) (fun _ => div_count c) pq 0 Ha) as [A [B C]].
  - intros i _. split; [split; [exact G|rewrite V; lra]|]. rewrite VQ, V. split; [lra|]. rewrite Rminus_diag_eq, Rabs_R0 by reflexivity. lra.
  - apply div_count_sum.
  - lra.
  - assert (INR n * (2 * u) <= 256 * (2 * u)) by (apply Rmult_le_compat_r; lra). lra.
  - cbn zeta. destruct (cbget c m (place c bi)) as [b|] eqn:Eb.
    + destruct (mean_of_one bi b Ha Eb) as [D E]. rewrite Rplus_0_l in C. auto.
    + split; [exact A|]. unfold float_sampled. rewrite Eb. cbn [SF2R float_zero]. split; [lra|]. unfold sampled. rewrite Eb.
      rewrite Q2R_0', Rminus_0_r, Rabs_R0. apply Rmult_le_pos; lra.
Qed.

(** The bilinear score. *)
Variable inv : spec_float.
Hypothesis Gi : good inv.
Hypothesis Gp : Forall good p.
Variable bi : idx.
Hypothesis Eb : float_bundle_index prec emax inv p = Ok bi.
Hypothesis Lp : length p = dimc c.
Notation w := (float_axis_weights prec emax bi p inv).
Notation wq := (map float_value w).
Notation we := (get_bilinear_interpolation_weights bi (map float_value p) (float_value inv)).

Lemma axis_length : length w = dimc c.
Proof. unfold float_axis_weights. rewrite map_length, make_integer_sequence_spec, seq_length. exact Lp. Qed.
Lemma axis_nth (d : nat) : (d < dimc c)%nat ->
  float_index prec emax inv (nth d p float_zero) = Ok (nth d bi 0%Z) /\ good (nth d p float_zero) /\
  nth d w float_zero = axis_weight prec emax inv (nth d p float_zero) (nth d bi 0%Z).
Proof.
  intros Hd. destruct (omap_nth _ _ _ float_zero 0%Z Eb) as [L N]. split; [apply N; lia|]. split.
  { rewrite Forall_forall in Gp. apply Gp. apply nth_In. lia. }
  unfold float_axis_weights. rewrite make_integer_sequence_spec.
  rewrite (nth_indep _ _ ((fun c0 : nat => if (length bi <=? c0)%nat then float_zero else
     let r := fsub prec emax (fmul prec emax (nth c0 p float_zero) inv) (float_of_int prec emax (nth c0 bi 0%Z)) in
     if Z.odd (nth c0 bi 0%Z) then r else fsub prec emax (float_one prec emax) r) 0%nat)) by (rewrite map_length, seq_length; lia).
  rewrite (map_nth (fun c0 : nat => if (length bi <=? c0)%nat then float_zero else
     let r := fsub prec emax (fmul prec emax (nth c0 p float_zero) inv) (float_of_int prec emax (nth c0 bi 0%Z)) in
     if Z.odd (nth c0 bi 0%Z) then r else fsub prec emax (float_one prec emax) r)).
  rewrite seq_nth by lia. cbn [Nat.add]. destruct (Nat.leb_spec (length bi) d); [lia|]. reflexivity.
Qed.
Lemma axis_units : Forall (unit_val prec emax) w.
Proof.
  apply Forall_forall. intros x Hx. apply (In_nth _ _ float_zero) in Hx. destruct Hx as [d [Hd <-]]. rewrite axis_length in Hd.
  destruct (axis_nth d Hd) as [A [B ->]]. apply axis_unit; assumption.
Qed.
Lemma interpolated : addressable c bi ->
  let r := float_sampled prec emax c dsample m bi (float_weight prec emax w) p in
  let k := INR n * (INR (dimc c) * (2 * u) + 2 * u) in
  good r /\ 0 <= val r <= 1 + k /\
  Rabs (val r - Q2R (sampled c exact m bi (to_bilinear_interpolation_weight wq) (map float_value p))) <= k.
Proof.
  intros Ha. pose proof n_small as N1. pose proof u_tiny as U1. assert (U0 : 0 < u) by apply bpow_gt_0. pose proof (pos_INR n) as N0.
  assert (D8 : 0 <= INR (dimc c) <= 8) by (split; [apply pos_INR|]; replace 8 with (INR 8) by (cbn; ring); apply le_INR; exact HD).
  assert (S1 : (qsum (map (to_bilinear_interpolation_weight wq) (seq 0 n)) == 1)%Q).
  { pose proof (weights_sum wq) as K. rewrite map_length, axis_length in K. exact K. }
  destruct (sampled_near bi (float_weight prec emax w) (to_bilinear_interpolation_weight wq) (map float_value p) (INR (dimc c) * (2 * u)) Ha) as [A [B C]].
  - intros i _. destruct (weight_bound prec emax Hf w i axis_units) as [W1 [W2 W3]]. rewrite axis_length in W3. split; [exact W1|]. split; [apply W2|exact W3].
  - exact S1.
  - apply Rmult_le_pos; lra.
  - assert (INR (dimc c) * (2 * u) <= 8 * (2 * u)) by (apply Rmult_le_compat_r; lra).
    assert (INR n * (INR (dimc c) * (2 * u) + 2 * u) <= 256 * (8 * (2 * u) + 2 * u)).
    { apply Rmult_le_compat; try lra. assert (0 <= INR (dimc c) * (2 * u)) by (apply Rmult_le_pos; lra). lra. }
    lra.
  - cbn zeta. split; [exact A|]. split; [|exact C]. split; [apply B|].
    assert (UI : unit_interval (sampled c exact m bi (to_bilinear_interpolation_weight wq) (map float_value p))).
    { apply sampled_unit; [exact HI|exact Ha| |exact S1|].
      - intros i _. apply Rle_Qle. rewrite Q2R_0'. apply (weight_bound prec emax Hf w i axis_units).
      - intros i j v E. apply (Hu i j v E). }
    destruct UI as [_ UI]. apply Qle_Rle in UI. rewrite Q2R_1' in UI. apply Rabs_le_inv in C. lra.
Qed.

Lemma exact_length : length we = dimc c.
Proof. rewrite get_weights_length, map_length. exact Lp. Qed.
Lemma exact_nth (d : nat) : (d < dimc c)%nat -> Q2R (nth d we 0%Q) = exact_axis inv (nth d p float_zero) (nth d bi 0%Z).
Proof.
  intros Hd. destruct (omap_nth _ _ _ float_zero 0%Z Eb) as [L N].
  unfold get_bilinear_interpolation_weights. rewrite make_integer_sequence_spec, map_length.
  set (g := fun c0 : nat => if (length bi <=? c0)%nat then 0%Q else _).
  rewrite (nth_indep _ _ (g 0%nat)) by (rewrite map_length, seq_length; lia). rewrite map_nth, seq_nth by lia. cbn [Nat.add]. unfold g.
  destruct (Nat.leb_spec (length bi) d); [lia|].
  replace (nth d (map float_value p) 0%Q) with (float_value (nth d p float_zero)) by (symmetry; exact (map_nth float_value p float_zero d)).
  unfold exact_axis. destruct (Z.odd (nth d bi 0%Z)); rewrite !Q2R_minus, Q2R_mult, !value_val, Q2R_inject; rewrite ?Q2R_1'; reflexivity.
Qed.
Lemma accurate (M : R) : addressable c bi -> 0 <= M -> (M + 3) * u <= 1 ->
  (forall d, (d < dimc c)%nat -> Rabs (val (nth d p float_zero) * val inv) <= M) ->
  let r := float_sampled prec emax c dsample m bi (float_weight prec emax w) p in
  Rabs (val r - Q2R (sampled c exact m bi (to_bilinear_interpolation_weight we) (map float_value p)))
    <= INR n * (INR n * ((M + 3) * u) + INR (dimc c) * (2 * u) + 2 * u).
Proof.
  intros Ha HM HMu Hd. destruct (interpolated Ha) as [_ [_ A]]. cbn zeta in *.
  assert (U0 : 0 < u) by apply bpow_gt_0. pose proof (pos_INR n) as N0.
  set (a := Q2R (sampled c exact m bi (to_bilinear_interpolation_weight wq) (map float_value p))) in *.
  set (b := Q2R (sampled c exact m bi (to_bilinear_interpolation_weight we) (map float_value p))).
  assert (B : Rabs (a - b) <= INR n * (INR n * ((M + 3) * u))).
  { assert (W : forall i, Rabs (Q2R (to_bilinear_interpolation_weight wq i) - Q2R (to_bilinear_interpolation_weight we i)) <= INR n * ((M + 3) * u)).
    { intros i. replace (INR n * ((M + 3) * u)) with ((M + 3) * u * 2 ^ length wq).
      - apply weight_diff.
        + rewrite map_length, axis_length, exact_length. reflexivity.
        + split; [apply Rmult_le_pos; lra|exact HMu].
        + intros d Hl. rewrite map_length, axis_length in Hl. destruct (axis_nth d Hl) as [E [Gx Ew]].
          replace (nth d wq 0%Q) with (float_value (nth d w float_zero)) by (symmetry; exact (map_nth float_value w float_zero d)).
          rewrite value_val, Ew, (exact_nth d Hl). split.
          * apply (axis_unit prec emax Hf inv _ _ Gi Gx E).
          * apply (axis_error prec emax Hf inv _ _ M Gi Gx E). apply Hd. exact Hl.
      - rewrite map_length, axis_length, pow_INR. change (INR 2) with 2. ring. }
    unfold a, b, sampled. pose proof (bundle_dom c m bi HI Ha) as Hbd. destruct (cbget c m (place c bi)) as [bd|] eqn:Ebd.
    - rewrite !(Qeq_eqR _ _ (score_sum c exact m (place c bi) _ _)), !qsum_rsum.
      replace (INR n) with (INR (length (seq 0 n))) at 1 by (rewrite seq_length; reflexivity).
      apply rsum_diff. intros i Hi. apply in_seq in Hi. cbn beta. rewrite !Q2R_mult, !value_val, <- Rmult_minus_distr_r, Rabs_mult.
      destruct (content_unit (place c bi) bd i (Hbd ltac:(discriminate)) Ebd ltac:(lia)) as [_ [S0 S1]].
      rewrite (Rabs_pos_eq (val _)) by exact S0. rewrite <- (Rmult_1_r (INR n * _)).
      apply Rmult_le_compat; [apply Rabs_pos|exact S0|apply W|exact S1].
    - rewrite Rminus_diag_eq, Rabs_R0 by reflexivity. apply Rmult_le_pos; [exact N0|]. apply Rmult_le_pos; [exact N0|]. apply Rmult_le_pos; lra. }
  match goal with |- Rabs (?v - _) <= _ => replace (v - b) with ((v - a) + (a - b)) by ring end.
  eapply Rle_trans; [apply Rabs_triang|]. lra.
Qed.
End Bounds.

(** ** After a history *)
Section History.
Variables prec emax : Z.
Hypothesis Hf : standard_format prec emax.
Context {P : Type}.
Variable c : config P.
Hypothesis Hc : config_ok c.
Hypothesis HD : (dimc c <= 8)%nat.
Variable l : list (map_action (P:=P)).
Variable m : cmap c.
Hypothesis Hl : fits c l.
Hypothesis Em : cact_all c l (new_map c) = Ok m.
Variable dsample : P -> list spec_float -> spec_float.
Variable p : list spec_float.
Hypothesis Hu : forall i j v, cstored c m i j = Ok (Some v) -> unit_float prec emax (dsample v p).
Notation exact := (fun v (_ : list Q) => float_value (dsample v p)).
Notation D := (dimc c).

Lemma history_inv : cInv c m /\ region c 0 m.
Proof.
  destruct (run_spec c Hc l Hl) as [m0 [E0 [HI [HR _]]]]. assert (m0 = m) by congruence. subst m0. auto.
Qed.
Lemma le_tol (x y : Q) (k : Q) (r : R) : Rabs (Q2R x - Q2R y) <= r -> r = Q2R k -> (Qabs (x - y) <= k)%Q.
Proof.
  intros H E. rewrite E in H. apply Rabs_le_inv in H. apply Qabs_case; intros _; apply Rle_Qle; rewrite ?Q2R_opp, Q2R_minus; lra.
Qed.
Lemma pow_inject (k : nat) : Q2R (inject_Z (2 ^ Z.of_nat k)) = INR (2 ^ k).
Proof. rewrite Q2R_inject, INR_IZR_INZ, Nat2Z.inj_pow. reflexivity. Qed.
Lemma nat_inject (k : nat) : Q2R (inject_Z (Z.of_nat k)) = INR k.
Proof. rewrite Q2R_inject, INR_IZR_INZ. reflexivity. Qed.
Lemma Q2R_2 : Q2R 2 = 2.
Proof. unfold Q2R. cbn. field. Qed.
Lemma Q2R_3 : Q2R 3 = 3.
Proof. unfold Q2R. cbn. field. Qed.

Lemma plain_history (bi : idx) : addressable c bi ->
  exists s t, float_sample_at prec emax c dsample m p bi = Ok s /\
    sample_at c exact m (map float_value p) bi = Ok t /\
    unit_float prec emax s /\ (Qabs (float_value s - t) <= 2 * inject_Z (2 ^ Z.of_nat D) * (2 # 1) ^ (- prec))%Q.
Proof.
  intros Ha. destruct history_inv as [HI HR].
  rewrite (float_sample_at_spec prec emax c Hc dsample m p bi HI HR Ha), (sample_at_spec c Hc exact m _ bi HI HR Ha).
  eexists; eexists. split; [reflexivity|]. split; [reflexivity|].
  destruct (plain_score prec emax Hf c HD dsample p m HI Hu bi (map float_value p) Ha) as [A [B C]].
  split; [apply unit_iff; split; assumption|].
  eapply le_tol; [rewrite value_val; exact C|]. rewrite !Q2R_mult, pow_bpow, pow_inject, Q2R_2. ring.
Qed.

Variable inv : spec_float.
Hypothesis Gi : good_float prec emax inv.
Hypothesis Gp : Forall (good_float prec emax) p.
Hypothesis Lp : length p = D.
Variable bi : idx.
Hypothesis Eb : float_bundle_index prec emax inv p = Ok bi.
Hypothesis Ha : addressable c bi.

Lemma bilinear_history :
  exists s, float_sample_bilinear_at prec emax c inv dsample m p bi = Ok s /\ good_float prec emax s /\
    (0 <= float_value s <= 1 + inject_Z (2 ^ Z.of_nat D) * (2 * inject_Z (Z.of_nat D) + 2) * (2 # 1) ^ (- prec))%Q.
Proof.
  destruct history_inv as [HI HR].
  rewrite (float_sample_bilinear_at_spec prec emax c Hc dsample inv m p bi HI HR Ha).
  eexists. split; [reflexivity|].
  destruct (interpolated prec emax Hf c HD dsample p m HI Hu inv Gi Gp bi Eb Lp Ha) as [A [[B0 B1] _]].
  split; [exact A|]. split; apply Rle_Qle; rewrite value_val.
  - rewrite Q2R_0'. exact B0.
  - rewrite !Q2R_plus, !Q2R_mult, Q2R_plus, Q2R_mult, pow_bpow, pow_inject, nat_inject, Q2R_2, Q2R_1'. eapply Rle_trans; [exact B1|]. apply Req_le. ring.
Qed.
Lemma accuracy_history (M : Q) : (0 <= M)%Q -> (M + 3 <= (2 # 1) ^ prec)%Q ->
  Forall (fun x => (Qabs (float_value x * float_value inv) <= M)%Q) p ->
  exists s t, float_sample_bilinear_at prec emax c inv dsample m p bi = Ok s /\
    sample_bilinear_at c (float_value inv) exact m (map float_value p) bi = Ok t /\
    (Qabs (float_value s - t) <=
       inject_Z (2 ^ Z.of_nat D) * (inject_Z (2 ^ Z.of_nat D) * (M + 3) + 2 * inject_Z (Z.of_nat D) + 2) * (2 # 1) ^ (- prec))%Q.
Proof.
  intros HM HM3 HpM. destruct history_inv as [HI HR].
  rewrite (float_sample_bilinear_at_spec prec emax c Hc dsample inv m p bi HI HR Ha).
  rewrite (sample_bilinear_at_spec c Hc exact (float_value inv) m _ bi HI HR Ha).
  eexists; eexists. split; [reflexivity|]. split; [reflexivity|].
  eapply le_tol; [rewrite value_val; eapply (accurate prec emax Hf c HD dsample p m HI Hu inv Gi Gp bi Eb Lp (Q2R M) Ha)|].
  - apply Qle_Rle in HM. rewrite Q2R_0' in HM. exact HM.
  - apply Qle_Rle in HM3. rewrite Q2R_plus, Q2R_3, pow_bpow in HM3.
    apply (Rmult_le_compat_r (bpow radix2 (- prec))) in HM3; [|apply bpow_ge_0]. rewrite <- bpow_plus, Z.add_opp_diag_r in HM3. exact HM3.
  - intros d Hd. rewrite Forall_forall in HpM. specialize (HpM (nth d p float_zero)).
    assert (X : (Qabs (float_value (nth d p float_zero) * float_value inv) <= M)%Q) by (apply HpM; apply nth_In; lia).
    apply Qabs_Qle_condition in X. destruct X as [X Y]. apply Qle_Rle in X. apply Qle_Rle in Y.
    rewrite Q2R_opp in X. rewrite Q2R_mult, !value_val in X, Y. apply Rabs_le. lra.
  - rewrite !Q2R_mult, !Q2R_plus, !Q2R_mult, !Q2R_plus, pow_bpow, pow_inject, nat_inject, Q2R_2, Q2R_3. ring.
Qed.
End History.

(** The contributions of occupancy maps. *)
Lemma contribution_unit (prec emax : Z) {P D M : Type} (inner : P -> option D) (sample : D -> list spec_float -> spec_float)
  (occupancy : M -> P -> spec_float) (ivm : M) (v : P) (p : list spec_float) : standard_format prec emax ->
  (forall d, unit_float prec emax (sample d p)) -> (forall x, unit_float prec emax (occupancy ivm x)) ->
  unit_float prec emax (float_contribution prec emax inner sample occupancy ivm v p).
Proof.
  intros Hf Hs Ho. apply unit_iff. unfold float_contribution. destruct (inner v) as [d|]; [|apply zero_unit].
  apply mul_unit; [exact Hf|apply unit_iff; apply Hs|apply unit_iff; apply Ho].
Qed.
Lemma contribution_near (prec emax : Z) {P D M : Type} (inner : P -> option D) (sample : D -> list spec_float -> spec_float)
  (occupancy : M -> P -> spec_float) (ivm : M) (v : P) (p : list spec_float) : standard_format prec emax ->
  (forall d, unit_float prec emax (sample d p)) -> (forall x, unit_float prec emax (occupancy ivm x)) ->
  (Qabs (float_value (float_contribution prec emax inner sample occupancy ivm v p) -
         match inner v with Some d => float_value (sample d p) * float_value (occupancy ivm v) | None => 0 end) <= (2 # 1) ^ (- prec))%Q.
Proof.
  intros Hf Hs Ho. unfold float_contribution. destruct (inner v) as [d|].
  - destruct (mul_unit prec emax Hf (sample d p) (occupancy ivm v)) as [_ [K _]]; [apply unit_iff; apply Hs|apply unit_iff; apply Ho|].
    eapply le_tol; [rewrite Q2R_mult, !value_val; exact K|]. symmetry. apply pow_bpow.
  - apply (Qle_trans _ 0); [vm_compute; discriminate|]. apply Rle_Qle. rewrite Q2R_0', pow_bpow. apply bpow_ge_0.
Qed.

(** Scores in floating-point arithmetic. *)
From Coq Require Import QArith Qabs Qround Reals Lra Qreals Floats.SpecFloat.
From Flocq Require Import Core Relative BinarySingleNaN.
From Verif Require Import Base SeqModel SeqFacts IndexModel IndexFacts OctreeSpec MapModel MapFacts MapHist BackendModel SysModel SysSpec SysFacts
  ExtentModel SampleModel SampleSpec SampleFacts ResidualModel RoundModel RoundFacts FloatModel FloatFacts.
Open Scope R_scope.

(** ** The map part *)
Section Map.
Variables prec emax : Z.
Context {P : Type}.
Variable c : config P.
Hypothesis Hc : config_ok c.
Variable dsample : P -> list spec_float -> spec_float.
Notation bins_n := (bin_count (dimc c)).

Definition float_score (m : cmap c) (b : idx) (w : nat -> spec_float) (p : list spec_float) : spec_float :=
  fold_left (fun acc i => fadd prec emax acc (fmul prec emax (w i) (dsample (ccontent c m i (generate_index b i)) p))) (seq 0 bins_n) float_zero.
Lemma float_weighted_sum_spec (m : cmap c) (b : idx) (bd : bundle) (w : nat -> spec_float) (p : list spec_float) :
  cInv c m -> cbdom c (cshape c m) b -> cbget c m b = Some bd ->
  float_weighted_sum prec emax c dsample m bd w p = Ok (float_score m b w p).
Proof.
  intros [[[Hwf HInv] _] _] Hd Hb. destruct (HInv b bd Hd Hb) as [Hok [Hsl Hex]].
  unfold float_weighted_sum, float_score. rewrite Hsl. unfold full_slots.
  assert (Hgen : forall l acc, (forall i, In i l -> (i < bins_n)%nat) ->
    ofold (fun acc i => match nth_error (map (fun i => Some (generate_index b i)) (seq 0 bins_n)) i with
           | None => UB
           | Some sl => let* d := slot_value (bdc c) (bbc c) m i sl in
               Ok (fadd prec emax acc (fmul prec emax (w i) match d with Some v => dsample v p | None => float_zero end)) end) l acc =
    Ok (fold_left (fun acc i => fadd prec emax acc (fmul prec emax (w i) (dsample (ccontent c m i (generate_index b i)) p))) l acc)).
  { induction l as [|i l IH]; intros acc Hl; [reflexivity|]. cbn [ofold fold_left].
    assert (Hi : (i < bins_n)%nat) by (apply Hl; left; reflexivity).
    rewrite nth_error_map, (nth_error_nth' (seq 0 bins_n) 0%nat) by (rewrite seq_length; exact Hi).
    rewrite seq_nth by exact Hi. cbn [option_map Nat.add].
    unfold slot_value. destruct Hok as [_ [_ Hdd]].
    destruct (store_at _ _ _ _ _ _ _ m i (generate_index b i) Hwf (Hdd i Hi)) as [s [Hs [_ [_ Hg]]]].
    unfold get_store. rewrite Hs. cbn [obind]. rewrite Hg. cbn [obind].
    destruct (Hex i Hi) as [v Hvv]. rewrite Hvv. cbn [obind].
    rewrite IH by (intros k Hk; apply Hl; right; exact Hk).
    unfold ccontent, content. rewrite Hvv. reflexivity. }
  apply Hgen. intros i Hi. apply in_seq in Hi. lia.
Qed.
Definition float_sampled (m : cmap c) (bi : idx) (w : nat -> spec_float) (p : list spec_float) : spec_float :=
  match cbget c m (place c bi) with Some _ => float_score m (place c bi) w p | None => float_zero end.
Lemma float_sample_at_spec (m : cmap c) (p : list spec_float) (bi : idx) :
  cInv c m -> region c 0 m -> addressable c bi ->
  float_sample_at prec emax c dsample m p bi = Ok (float_sampled m bi (fun _ => float_div_count prec emax c) p).
Proof.
  intros HI HR Ha. unfold float_sample_at, float_sampled. rewrite (place_bundle c Hc m bi HI HR Ha). cbn [obind].
  pose proof (bundle_dom c m bi HI Ha) as Hd.
  destruct (cbget c m (place c bi)) as [b|] eqn:Eb; [|reflexivity].
  apply float_weighted_sum_spec; [exact HI|apply Hd; discriminate|exact Eb].
Qed.
Lemma float_sample_bilinear_at_spec (inv : spec_float) (m : cmap c) (p : list spec_float) (bi : idx) :
  cInv c m -> region c 0 m -> addressable c bi ->
  float_sample_bilinear_at prec emax c inv dsample m p bi =
    Ok (float_sampled m bi (float_weight prec emax (float_axis_weights prec emax bi p inv)) p).
Proof.
  intros HI HR Ha. unfold float_sample_bilinear_at, float_sampled. rewrite (place_bundle c Hc m bi HI HR Ha). cbn [obind].
  pose proof (bundle_dom c m bi HI Ha) as Hd.
  destruct (cbget c m (place c bi)) as [b|] eqn:Eb; [|reflexivity].
  apply float_weighted_sum_spec; [exact HI|apply Hd; discriminate|exact Eb].
Qed.
End Map.

(** ** The numbers *)
Definition unit_float (prec emax : Z) (x : spec_float) : Prop :=
  good_float prec emax x /\ (0 <= float_value x <= 1)%Q.

Section Numbers.
Variables prec emax : Z.
Hypothesis Hf : standard_format prec emax.
#[local] Instance Hp : Prec_gt_0 prec.
Proof. destruct Hf as [[-> ->]|[-> ->]]; reflexivity. Qed.
#[local] Instance He : Prec_lt_emax prec emax.
Proof. destruct Hf as [[-> ->]|[-> ->]]; reflexivity. Qed.
Notation emin := (3 - emax - prec)%Z.
Notation rnd := (round radix2 (FLT_exp emin prec) ZnearestE).
Notation good := (good_float prec emax).
Notation format := (generic_format radix2 (FLT_exp emin prec)).
Notation u := (bpow radix2 (- prec)).
Notation fmul := (fmul prec emax).
Notation fadd := (fadd prec emax).
Notation fsub := (fsub prec emax).

Lemma format_facts : (24 <= prec)%Z /\ (emin <= 1 - prec)%Z /\ (emin <= -100)%Z /\ (4 <= emax)%Z.
Proof. destruct Hf as [[-> ->]|[-> ->]]; repeat split; discriminate. Qed.
Lemma four : 4 < bpow radix2 emax.
Proof. change 4 with (bpow radix2 2). apply bpow_lt. pose proof format_facts. lia. Qed.
Lemma u_pos : 0 < u.
Proof. apply bpow_gt_0. Qed.
Lemma u_small : u <= bpow radix2 (-24).
Proof. apply bpow_le. pose proof format_facts. lia. Qed.

Definition unit_val (x : spec_float) : Prop := good x /\ 0 <= val x <= 1.
Lemma unit_iff (x : spec_float) : unit_float prec emax x <-> unit_val x.
Proof.
  unfold unit_float, unit_val. rewrite <- value_val. split; intros [G [A B]]; (split; [exact G|]); split.
  - apply Qle_Rle in A. rewrite Q2R_0' in A. exact A.
  - apply Qle_Rle in B. rewrite Q2R_1' in B. exact B.
  - apply Rle_Qle. rewrite Q2R_0'. exact A.
  - apply Rle_Qle. rewrite Q2R_1'. exact B.
Qed.

Lemma zero_unit : unit_val float_zero.
Proof. split; [split; reflexivity|]. cbn. lra. Qed.
Lemma format_1 : format 1.
Proof. change 1 with (bpow radix2 0). apply format_bpow; [apply Hp|]. pose proof format_facts. lia. Qed.
Lemma format_2 : format 2.
Proof. change 2 with (bpow radix2 1). apply format_bpow; [apply Hp|]. pose proof format_facts. lia. Qed.
Lemma rnd_1 : rnd 1 = 1.
Proof. apply rnd_id. exact format_1. Qed.
Lemma rnd_unit (x : R) : 0 <= x <= 1 -> 0 <= rnd x <= 1.
Proof.
  intros [A B]. split.
  - rewrite <- (rnd_0 prec emax). apply rnd_mono; [apply Hp|exact A].
  - rewrite <- rnd_1. apply rnd_mono; [apply Hp|exact B].
Qed.
Lemma rnd_two (x : R) : 0 <= x <= 2 -> 0 <= rnd x <= 2.
Proof.
  intros [A B]. split.
  - rewrite <- (rnd_0 prec emax). apply rnd_mono; [apply Hp|exact A].
  - rewrite <- (rnd_id prec emax 2 format_2). apply rnd_mono; [apply Hp|exact B].
Qed.
Lemma below (x : R) : 0 <= x <= 2 -> Rabs x < bpow radix2 emax.
Proof. intros H. rewrite Rabs_pos_eq by lra. pose proof four. lra. Qed.

Lemma of_int (k : Z) : format (IZR k) -> Rabs (IZR k) < bpow radix2 emax ->
  val (float_of_int prec emax k) = IZR k /\ good (float_of_int prec emax k).
Proof.
  intros F B. assert (E : F2R (Float radix2 k 0) = IZR k) by (unfold F2R; cbn; ring).
  pose proof (normalize_round prec emax Hp He k 0 false) as K. rewrite E in K. rewrite (rnd_id prec emax _ F) in K. exact (K B).
Qed.
Lemma one_spec : val (float_one prec emax) = 1 /\ good (float_one prec emax).
Proof. apply of_int; [exact format_1|]. apply below. lra. Qed.
Lemma one_unit : unit_val (float_one prec emax).
Proof. destruct one_spec as [A B]. split; [exact B|]. rewrite A. lra. Qed.

Lemma mul_unit (x y : spec_float) : unit_val x -> unit_val y ->
  unit_val (fmul x y) /\ Rabs (val (fmul x y) - val x * val y) <= u /\ val (fmul x y) = rnd (val x * val y).
Proof.
  intros [Gx [X0 X1]] [Gy [Y0 Y1]].
  assert (B : 0 <= val x * val y <= 1).
  { split; [apply Rmult_le_pos; assumption|]. rewrite <- (Rmult_1_r 1). apply Rmult_le_compat; assumption. }
  pose proof (rnd_unit _ B) as R1.
  destruct (fmul_round prec emax Hp He x y Gx Gy) as [E G]; [apply below; lra|].
  split; [split; [exact G|rewrite E; exact R1]|]. split; [|exact E]. rewrite E. apply rnd_small; [apply Hp|apply format_facts|].
  rewrite Rabs_pos_eq by lra. lra.
Qed.
Lemma add_two (x y : spec_float) : good x -> good y -> 0 <= val x + val y <= 2 ->
  good (fadd x y) /\ val (fadd x y) = rnd (val x + val y) /\ 0 <= val (fadd x y) <= 2 /\
  Rabs (val (fadd x y) - (val x + val y)) <= u.
Proof.
  intros Gx Gy B. pose proof (rnd_two _ B) as R1.
  destruct (fadd_round prec emax Hp He x y Gx Gy) as [E G]; [apply below; exact R1|].
  split; [exact G|]. split; [exact E|]. split; [rewrite E; exact R1|].
  rewrite E. apply rnd_small; [apply Hp|apply format_facts|].
  rewrite Rabs_pos_eq by lra. lra.
Qed.
Lemma sub_unit (x y : spec_float) : good x -> good y -> 0 <= val x - val y <= 1 ->
  unit_val (fsub x y) /\ Rabs (val (fsub x y) - (val x - val y)) <= u.
Proof.
  intros Gx Gy B. pose proof (rnd_unit _ B) as R1.
  destruct (fsub_round prec emax Hp He x y Gx Gy) as [E G]; [apply below; lra|].
  split; [split; [exact G|rewrite E; exact R1]|]. rewrite E. apply rnd_small; [apply Hp|apply format_facts|].
  rewrite Rabs_pos_eq by lra. lra.
Qed.

Fixpoint rsum (l : list R) : R := match l with [] => 0 | x :: l' => x + rsum l' end.

(** Weighted sums: [a] are exact weights, [w] computed ones. *)
Lemma sum_bound (w s : nat -> spec_float) (a : nat -> R) (e : R) (l : list nat) (acc : spec_float) (A : R) (k : R) :
  (forall i, In i l -> unit_val (w i) /\ unit_val (s i) /\ 0 <= a i /\ Rabs (val (w i) - a i) <= e) ->
  good acc -> 0 <= val acc <= 2 -> 0 <= k -> 0 <= e -> Rabs (val acc - A) <= k -> 0 <= A ->
  A + rsum (map a l) <= 1 -> k + INR (length l) * (e + 2 * u) <= 1 ->
  let r := fold_left (fun acc i => fadd acc (fmul (w i) (s i))) l acc in
  good r /\ 0 <= val r <= 2 /\
  Rabs (val r - (A + rsum (map (fun i => a i * val (s i)) l))) <= k + INR (length l) * (e + 2 * u).
Proof.
  revert acc A k. induction l as [|i l IH]; intros acc A k Hl Ga Ba Hk Hee Hacc HA Hsum Hk1; cbn [fold_left].
  - cbn [map rsum length INR]. cbn zeta. split; [exact Ga|]. split; [exact Ba|]. rewrite Rplus_0_r, Rmult_0_l, Rplus_0_r. exact Hacc.
  - cbn [map rsum] in *. cbn [length] in *. rewrite S_INR in *.
    destruct (Hl i (or_introl eq_refl)) as [Uw [Us [Ha Hwa]]].
    destruct (mul_unit (w i) (s i) Uw Us) as [Ut [Ht _]].
    pose proof u_pos as U0. pose proof (pos_INR (length l)) as L0.
    assert (Sp : 0 <= rsum (map a l)).
    { clear - Hl. induction l as [|j l IH]; cbn; [lra|]. assert (0 <= a j) by (apply Hl; right; left; reflexivity).
      assert (0 <= rsum (map a l)) by (apply IH; intros x [X|X]; apply Hl; [left; exact X|right; right; exact X]). lra. }
    assert (T : Rabs (val (fmul (w i) (s i)) - a i * val (s i)) <= e + u).
    { replace (val (fmul (w i) (s i)) - a i * val (s i))
        with ((val (fmul (w i) (s i)) - val (w i) * val (s i)) + (val (w i) - a i) * val (s i)) by ring.
      eapply Rle_trans; [apply Rabs_triang|]. rewrite Rabs_mult, (Rabs_pos_eq (val (s i))) by apply Us.
      destruct Us as [_ [S0 S1]]. assert (Rabs (val (w i) - a i) * val (s i) <= e * 1).
      { apply Rmult_le_compat; [apply Rabs_pos|exact S0|exact Hwa|exact S1]. } lra. }
    destruct Us as [Gs [S0 S1]]. destruct Ut as [Gt [T0 T1]].
    assert (AS : 0 <= a i * val (s i) <= a i).
    { split; [apply Rmult_le_pos; assumption|]. rewrite <- (Rmult_1_r (a i)) at 2. apply Rmult_le_compat_l; assumption. }
    assert (X : k + e + 2 * u <= 1).
    { assert (0 <= INR (length l) * (e + 2 * u)) by (apply Rmult_le_pos; lra). lra. }
    assert (B2 : 0 <= val acc + val (fmul (w i) (s i)) <= 2).
    { split; [lra|]. apply Rabs_le_inv in Hacc. apply Rabs_le_inv in T. lra. }
    destruct (add_two acc _ Ga Gt B2) as [Gr [Er [Br Hr]]].
    destruct (IH (fadd acc (fmul (w i) (s i))) (A + a i * val (s i)) (k + e + 2 * u)) as [I1 [I2 I3]].
    + intros j Hj. apply Hl. right. exact Hj.
    + exact Gr.
    + exact Br.
    + lra.
    + exact Hee.
    + replace (val (fadd acc (fmul (w i) (s i))) - (A + a i * val (s i)))
        with ((val (fadd acc (fmul (w i) (s i))) - (val acc + val (fmul (w i) (s i)))) + ((val acc - A) + (val (fmul (w i) (s i)) - a i * val (s i)))) by ring.
      eapply Rle_trans; [apply Rabs_triang|]. pose proof (Rabs_triang (val acc - A) (val (fmul (w i) (s i)) - a i * val (s i))). lra.
    + lra.
    + lra.
    + lra.
    + split; [exact I1|]. split; [exact I2|]. eapply Rle_trans; [|eapply Rle_trans; [exact I3|lra]].
      apply Req_le. f_equal. ring.
Qed.

(** Equal weights 1/n: the sum stays below 1. *)
Lemma mean_bound (s : nat -> spec_float) (w : spec_float) (d : nat) (l : list nat) (acc : spec_float) (k : Z) :
  (d <= 8)%nat -> good w -> val w = bpow radix2 (- Z.of_nat d) -> (forall i, In i l -> unit_val (s i)) ->
  (0 <= k)%Z -> (k + Z.of_nat (length l) <= 2 ^ Z.of_nat d)%Z ->
  good acc -> 0 <= val acc <= IZR k * bpow radix2 (- Z.of_nat d) ->
  let r := fold_left (fun acc i => fadd acc (fmul w (s i))) l acc in
  good r /\ 0 <= val r <= IZR (k + Z.of_nat (length l)) * bpow radix2 (- Z.of_nat d).
Proof.
  intros Hd Gw Ew. revert acc k. induction l as [|i l IH]; intros acc k Hs Hk Hn Ga Ba; cbn [fold_left].
  - cbn zeta. cbn [length]. rewrite Z.add_0_r. split; assumption.
  - pose proof format_facts as FF. set (h := bpow radix2 (- Z.of_nat d)) in *.
    assert (H0 : 0 < h) by apply bpow_gt_0.
    assert (H1 : h <= 1) by (unfold h; change 1 with (bpow radix2 0); apply bpow_le; lia).
    assert (Uw : unit_val w) by (split; [exact Gw|rewrite Ew; lra]).
    destruct (Hs i (or_introl eq_refl)) as [Gs [S0 S1]].
    destruct (mul_unit w (s i) Uw (conj Gs (conj S0 S1))) as [[Gt [T0 T1]] [_ Et]].
    assert (Th : val (fmul w (s i)) <= h).
    { rewrite Et. rewrite <- (rnd_id prec emax h). apply rnd_mono; [apply Hp|]. rewrite Ew. rewrite <- (Rmult_1_r h) at 2.
      apply Rmult_le_compat_l; lra. apply format_bpow; [apply Hp|lia]. }
    assert (P2 : IZR (2 ^ Z.of_nat d) * h = 1).
    { unfold h. change 2%Z with (radix_val radix2). rewrite IZR_Zpower by lia. rewrite <- bpow_plus, Z.add_opp_diag_r. reflexivity. }
    assert (K1 : IZR (k + 1) * h <= 1).
    { rewrite <- P2. apply Rmult_le_compat_r; [lra|]. apply IZR_le. cbn [length] in Hn. lia. }
    rewrite plus_IZR in K1.
    destruct (add_two acc _ Ga Gt) as [Gr [Er [Br _]]]; [lra|].
    destruct (IH (fadd acc (fmul w (s i))) (k + 1)%Z) as [I1 I2].
    + intros j Hj. apply Hs. right. exact Hj.
    + lia.
    + cbn [length] in Hn. lia.
    + exact Gr.
    + split; [apply Br|]. rewrite Er. rewrite <- (rnd_id prec emax (IZR (k + 1) * h)).
      * apply rnd_mono; [apply Hp|]. rewrite plus_IZR. lra.
      * unfold h. apply format_dyadic; [apply Hp|lia|].
        assert (2 ^ Z.of_nat d <= 2 ^ prec)%Z by (apply Z.pow_le_mono_r; lia). cbn [length] in Hn. lia.
    + split; [exact I1|]. cbn [length]. replace (k + Z.of_nat (S (length l)))%Z with (k + 1 + Z.of_nat (length l))%Z by lia. exact I2.
Qed.

(** ** Weights *)
Lemma fmul_valid (x y : spec_float) : valid_binary prec emax x = true -> valid_binary prec emax y = true ->
  valid_binary prec emax (fmul x y) = true.
Proof.
  intros Vx Vy.
  assert (E : B2SF (Bmult mode_NE (SF2B x Vx) (SF2B y Vy)) = fmul x y).
  { destruct x as [sx|sx| |sx mx ex]; destruct y as [sy|sy| |sy my ey]; try reflexivity; try discriminate.
    cbn [SF2B Bmult]. rewrite B2SF_SF2B. unfold FloatModel.fmul. cbn [SFmul]. symmetry. apply round_aux. }
  rewrite <- E. apply valid_binary_B2SF.
Qed.
Lemma index_floor (inv x : spec_float) (k : Z) : good inv -> good x -> float_index prec emax inv x = Ok k ->
  good (fmul x inv) /\ k = Zfloor (val (fmul x inv)).
Proof.
  intros [Vi _] [Vx _] E. unfold float_index, int_floor in E. destruct (float_finite (fmul x inv)) eqn:F; [|discriminate].
  split; [split; [apply fmul_valid; assumption|exact F]|]. unfold to_int in E. destruct (_ && _) in E; [|discriminate].
  injection E as <-. apply floor_val.
Qed.
Lemma floor_int (v : spec_float) : good v ->
  val (float_of_int prec emax (Zfloor (val v))) = IZR (Zfloor (val v)) /\ good (float_of_int prec emax (Zfloor (val v))).
Proof.
  intros G. pose proof (good_format prec emax v G) as F.
  assert (F' : format (IZR (Zfloor (val v)))) by (apply format_floor; [apply Hp|pose proof format_facts; lia|exact F]).
  apply of_int; [exact F'|].
  pose proof (good_bound prec emax v G) as B. apply Rabs_def2 in B. destruct B as [B1 B2].
  pose proof (Zfloor_lb (val v)) as L. pose proof (Zfloor_ub (val v)) as U.
  apply Rabs_def1; [lra|].
  (* the smallest number of the format is an integer *)
  assert (P : bpow radix2 emax = IZR (2 ^ emax)).
  { change 2%Z with (radix_val radix2). rewrite IZR_Zpower; [reflexivity|]. pose proof format_facts. lia. }
  assert (X : - bpow radix2 emax <= IZR (Zfloor (val v))).
  { rewrite P, <- opp_IZR. apply IZR_le. apply Zfloor_lub. rewrite opp_IZR, <- P. lra. }
  destruct X as [X|X]; [exact X|]. exfalso.
  assert (Y : val v < - bpow radix2 emax + 1) by lra.
  assert (Q : format (val v)) by exact F.
  assert (K : format (- bpow radix2 (emax - 1))).
  { apply generic_format_opp, format_bpow; [apply Hp|]. pose proof format_facts. lia. }
  assert (Z2 : Rabs (val v) = - val v).
  { apply Rabs_left. pose proof four. lra. }
  pose proof (good_bound prec emax v G) as B. 
  assert (G2 : generic_format radix2 (FLT_exp emin prec) (Rabs (val v))) by (apply generic_format_abs; exact Q).
  assert (Hi : Rabs (val v) <= pred radix2 (FLT_exp emin prec) (bpow radix2 emax)).
  { apply pred_ge_gt; auto with typeclass_instances. apply format_bpow; [apply Hp|]. pose proof format_facts. lia. }
  rewrite pred_bpow in Hi.
  assert (C : bpow radix2 1 <= bpow radix2 (FLT_exp emin prec emax)).
  { apply bpow_le. unfold FLT_exp. destruct Hf as [[-> ->]|[-> ->]]; vm_compute; discriminate. }
  change (bpow radix2 1) with 2 in C. lra.
Qed.
(** What is left of the bundle index of the point. *)
Lemma rest_unit (inv x : spec_float) (k : Z) : good inv -> good x -> float_index prec emax inv x = Ok k ->
  let r := fsub (fmul x inv) (float_of_int prec emax k) in
  unit_val r /\ Rabs (val r - (val (fmul x inv) - IZR k)) <= u.
Proof.
  intros Gi Gx E. destruct (index_floor inv x k Gi Gx E) as [Gv Ek]. destruct (floor_int _ Gv) as [Fk Gk].
  rewrite <- Ek in Fk, Gk. pose proof (Zfloor_lb (val (fmul x inv))) as L. pose proof (Zfloor_ub (val (fmul x inv))) as U.
  rewrite <- Ek in L, U. cbn zeta. rewrite <- Fk. apply sub_unit; [exact Gv|exact Gk|]. rewrite Fk. lra.
Qed.
Definition axis_weight (inv x : spec_float) (k : Z) : spec_float :=
  let r := fsub (fmul x inv) (float_of_int prec emax k) in
  if Z.odd k then r else fsub (float_one prec emax) r.
Lemma inner_unit (w : spec_float) (counter d : nat) : unit_val w ->
  unit_val (float_weight_inner prec emax w counter d) /\
  Rabs (val (float_weight_inner prec emax w counter d) - Q2R (weight_inner (float_value w) counter d)) <= u.
Proof.
  intros Uw. pose proof u_pos as U0. unfold float_weight_inner, weight_inner. destruct (counter_bit counter d).
  - split; [exact Uw|]. rewrite value_val, Rminus_diag_eq by reflexivity. rewrite Rabs_R0. lra.
  - destruct one_spec as [E1 G1]. rewrite Q2R_minus, Q2R_1', value_val, <- E1. destruct Uw as [Gw [W0 W1]].
    apply sub_unit; [exact G1|exact Gw|]. rewrite E1. lra.
Qed.
Lemma axis_unit (inv x : spec_float) (k : Z) : good inv -> good x -> float_index prec emax inv x = Ok k ->
  unit_val (axis_weight inv x k).
Proof.
  intros Gi Gx E. destruct (rest_unit inv x k Gi Gx E) as [Ur _]. unfold axis_weight. destruct (Z.odd k); [exact Ur|].
  destruct one_spec as [E1 G1]. destruct Ur as [Gr [R0 R1]]. apply sub_unit; [exact G1|exact Gr|]. rewrite E1. lra.
Qed.
(** Its distance from the exact weight. *)
Definition exact_axis (inv x : spec_float) (k : Z) : R :=
  let r := val x * val inv - IZR k in if Z.odd k then r else 1 - r.
Lemma axis_error (inv x : spec_float) (k : Z) (M : R) : good inv -> good x -> float_index prec emax inv x = Ok k ->
  Rabs (val x * val inv) <= M -> Rabs (val (axis_weight inv x k) - exact_axis inv x k) <= (M + 3) * u.
Proof.
  intros Gi Gx E HM. destruct (rest_unit inv x k Gi Gx E) as [Ur Hr]. pose proof u_pos as U0.
  destruct (index_floor inv x k Gi Gx E) as [Gv _].
  assert (V : Rabs (val (fmul x inv) - val x * val inv) <= (M + 1) * u).
  { assert (EV : val (fmul x inv) = rnd (val x * val inv)).
    { destruct (Rle_or_lt (bpow radix2 emax) (Rabs (rnd (val x * val inv)))) as [O|O];
        [|apply fmul_round; [apply Hp|apply He|exact Gx|exact Gi|exact O]].
      exfalso. destruct Gi as [Vi Fi], Gx as [Vx Fx].
      pose proof (Bmult_correct prec emax _ _ mode_NE (SF2B x Vx) (SF2B inv Vi)) as K.
      rewrite !B2R_SF2B in K. unfold round_mode in K. rewrite Rlt_bool_false in K by exact O.
      assert (E2 : B2SF (Bmult mode_NE (SF2B x Vx) (SF2B inv Vi)) = fmul x inv).
      { destruct x as [sx|sx| |sx mx ex]; destruct inv as [sy|sy| |sy my ey]; try reflexivity; try discriminate.
        cbn [SF2B Bmult]. rewrite B2SF_SF2B. unfold FloatModel.fmul. cbn [SFmul]. symmetry. apply round_aux. }
      rewrite E2 in K. destruct Gv as [_ Fv]. rewrite K in Fv. unfold BinarySingleNaN.binary_overflow in Fv. cbn in Fv. discriminate. }
    rewrite EV. destruct (Rle_or_lt (bpow radix2 (emin + prec - 1)) (Rabs (val x * val inv))) as [B|B].
    - pose proof (relative_error_N_FLT radix2 emin prec Hp (fun x => negb (Z.even x)) (val x * val inv) B) as K.
      change (/ 2) with (bpow radix2 (-1)) in K. rewrite <- bpow_plus in K. replace (-1 + (- prec + 1))%Z with (- prec)%Z in K by lia.
      eapply Rle_trans; [exact K|]. assert (u * Rabs (val x * val inv) <= u * M) by (apply Rmult_le_compat_l; lra). lra.
    - assert (Rabs (val x * val inv) <= 2).
      { assert (bpow radix2 (emin + prec - 1) <= bpow radix2 1) by (apply bpow_le; pose proof format_facts; lia).
        change (bpow radix2 1) with 2 in *. lra. }
      eapply Rle_trans; [apply rnd_small; [apply Hp|apply format_facts|assumption]|].
      pose proof (Rabs_pos (val x * val inv)). assert (0 <= M * u) by (apply Rmult_le_pos; lra). lra. }
  assert (W : Rabs (val (fsub (fmul x inv) (float_of_int prec emax k)) - (val x * val inv - IZR k)) <= (M + 2) * u).
  { replace (val (fsub (fmul x inv) (float_of_int prec emax k)) - (val x * val inv - IZR k))
      with ((val (fsub (fmul x inv) (float_of_int prec emax k)) - (val (fmul x inv) - IZR k)) + (val (fmul x inv) - val x * val inv)) by ring.
    eapply Rle_trans; [apply Rabs_triang|]. lra. }
  unfold axis_weight, exact_axis. cbn zeta in *. destruct (Z.odd k); [lra|].
  destruct one_spec as [E1 G1]. destruct Ur as [Gr [R0 R1]].
  destruct (sub_unit (float_one prec emax) _ G1 Gr) as [_ S]; [rewrite E1; lra|]. rewrite E1 in S.
  set (r := val (fsub (fmul x inv) (float_of_int prec emax k))) in *.
  set (q := val (fsub (float_one prec emax) (fsub (fmul x inv) (float_of_int prec emax k)))) in *.
  replace (q - (1 - (val x * val inv - IZR k))) with ((q - (1 - r)) + - (r - (val x * val inv - IZR k))) by ring.
  eapply Rle_trans; [apply Rabs_triang|]. rewrite Rabs_Ropp. lra.
Qed.

Lemma inner_range (q : Q) (counter d : nat) : 0 <= Q2R q <= 1 -> 0 <= Q2R (weight_inner q counter d) <= 1.
Proof. intros H. unfold weight_inner. destruct (counter_bit counter d); [exact H|]. rewrite Q2R_minus, Q2R_1'. lra. Qed.

(** The product over the axes. *)
Lemma product_bound (w : list spec_float) (counter : nat) (ds : list nat) (acc : spec_float) (A : Q) (k : R) :
  (forall d, In d ds -> unit_val (nth d w float_zero)) ->
  unit_val acc -> 0 <= Q2R A <= 1 -> 0 <= k -> Rabs (val acc - Q2R A) <= k ->
  let r := fold_left fmul (map (fun d => float_weight_inner prec emax (nth d w float_zero) counter d) ds) acc in
  let q := fold_left Qmult (map (fun d => weight_inner (nth d (map float_value w) 0%Q) counter d) ds) A in
  unit_val r /\ 0 <= Q2R q <= 1 /\ Rabs (val r - Q2R q) <= k + INR (length ds) * (2 * u).
Proof.
  revert acc A k. induction ds as [|d ds IH]; intros acc A k Hw Ua HA Hk Hacc; cbn [map fold_left].
  - cbn [length INR]. rewrite Rmult_0_l, Rplus_0_r. cbn zeta. auto.
  - assert (Ud : unit_val (nth d w float_zero)) by (apply Hw; left; reflexivity).
    assert (Qd : nth d (map float_value w) 0%Q = float_value (nth d w float_zero)).
    { change 0%Q with (float_value float_zero). apply map_nth. }
    destruct (inner_unit _ counter d Ud) as [Ui Hi]. pose proof u_pos as U0.
    assert (Ri : 0 <= Q2R (weight_inner (float_value (nth d w float_zero)) counter d) <= 1).
    { apply inner_range. rewrite value_val. apply Ud. }
    rewrite Qd. set (f := float_weight_inner prec emax (nth d w float_zero) counter d) in *.
    set (q := weight_inner (float_value (nth d w float_zero)) counter d) in *.
    destruct (mul_unit acc f Ua Ui) as [Um [Hm _]].
    assert (T : Rabs (val (fmul acc f) - Q2R (A * q)) <= k + 2 * u).
    { rewrite Q2R_mult. replace (val (fmul acc f) - Q2R A * Q2R q)
        with ((val (fmul acc f) - val acc * val f) + ((val acc - Q2R A) * val f + Q2R A * (val f - Q2R q))) by ring.
      eapply Rle_trans; [apply Rabs_triang|].
      pose proof (Rabs_triang ((val acc - Q2R A) * val f) (Q2R A * (val f - Q2R q))) as T1.
      rewrite !Rabs_mult, (Rabs_pos_eq (val f)), (Rabs_pos_eq (Q2R A)) in T1 by (apply HA || apply Ui).
      destruct Ui as [_ [F0 F1]].
      assert (Rabs (val acc - Q2R A) * val f <= k * 1) by (apply Rmult_le_compat; [apply Rabs_pos|exact F0|exact Hacc|exact F1]).
      assert (Q2R A * Rabs (val f - Q2R q) <= 1 * u) by (apply Rmult_le_compat; [apply HA|apply Rabs_pos|apply HA|exact Hi]).
      lra. }
    destruct (IH (fmul acc f) (A * q)%Q (k + 2 * u)) as [I1 [I2 I3]].
    + intros x Hx. apply Hw. right. exact Hx.
    + exact Um.
    + rewrite Q2R_mult. split; [apply Rmult_le_pos; [apply HA|apply Ri]|]. rewrite <- (Rmult_1_r 1). apply Rmult_le_compat; try apply HA; apply Ri.
    + lra.
    + exact T.
    + split; [exact I1|]. split; [exact I2|]. cbn [length]. rewrite S_INR. lra.
Qed.
Lemma Q2R_nonneg_one : 0 <= Q2R 1 <= 1.
Proof. rewrite Q2R_1'. lra. Qed.
Lemma weight_bound (w : list spec_float) (counter : nat) : Forall unit_val w ->
  unit_val (float_weight prec emax w counter) /\
  0 <= Q2R (to_bilinear_interpolation_weight (map float_value w) counter) <= 1 /\
  Rabs (val (float_weight prec emax w counter) - Q2R (to_bilinear_interpolation_weight (map float_value w) counter))
    <= INR (length w) * (2 * u).
Proof.
  intros Hw. unfold float_weight, to_bilinear_interpolation_weight. rewrite map_length.
  destruct one_spec as [E1 G1].
  destruct (product_bound w counter (make_integer_sequence (length w)) (float_one prec emax) 1%Q 0) as [A [B C]].
  - intros d Hd. rewrite Forall_forall in Hw. apply Hw. apply nth_In. rewrite make_integer_sequence_spec in Hd. apply in_seq in Hd. lia.
  - split; [exact G1|]. rewrite E1. lra.
  - exact Q2R_nonneg_one.
  - lra.
  - rewrite E1, Q2R_1', Rminus_diag_eq, Rabs_R0 by reflexivity. lra.
  - split; [exact A|]. split; [exact B|]. rewrite Rplus_0_l in C.
    assert (L : length (make_integer_sequence (length w)) = length w) by (rewrite make_integer_sequence_spec; apply seq_length).
    rewrite L in C. exact C.
Qed.
End Numbers.

(** Geometric facts: bundles and cells as sets of rational points. *)
From Coq Require Import QArith Qround Lqa.
From Verif Require Import Base SeqModel SeqFacts IndexModel IndexFacts IndexSpec.
Open Scope Z_scope.

Lemma floor_half (b : Z) : Qfloor (b # 2) = b / 2.
Proof. reflexivity. Qed.

Lemma ceil_half (b : Z) : Qceiling (b # 2) = (b + 1) / 2.
Proof.
  unfold Qceiling, Qfloor. cbn [Qopp Qnum Qden].
  Z.div_mod_to_equations; lia.
Qed.

Lemma bundle_point_unique (h : Q) (b b' : Z) (x : Q) :
  (0 < h)%Q -> in_bundle h b x -> in_bundle h b' x -> b = b'.
Proof.
  intros Hh [H1 H2] [H3 H4].
  assert (HA : (inject_Z b * h < inject_Z (b' + 1) * h)%Q) by (eapply Qle_lt_trans; eassumption).
  assert (HB : (inject_Z b' * h < inject_Z (b + 1) * h)%Q) by (eapply Qle_lt_trans; eassumption).
  apply Qmult_lt_r in HA; [|exact Hh]. apply Qmult_lt_r in HB; [|exact Hh].
  rewrite <- Zlt_Qlt in HA, HB. lia.
Qed.

Lemma bundle_in_cell (h : Q) (s j b : Z) (x : Q) :
  (0 < h)%Q -> in_bundle h b x -> 2 * j - s <= b <= 2 * j - s + 1 -> in_cell h s j x.
Proof.
  intros Hh [H1 H2] Hb. split.
  - eapply Qle_trans; [|exact H1]. apply Qmult_le_compat_r; [|apply Qlt_le_weak; exact Hh].
    rewrite <- Zle_Qle. lia.
  - eapply Qlt_le_trans; [exact H2|]. apply Qmult_le_compat_r; [|apply Qlt_le_weak; exact Hh].
    rewrite <- Zle_Qle. lia.
Qed.

Lemma cell_in_bundle (h : Q) (s j b : Z) (x : Q) :
  (0 < h)%Q -> in_bundle h b x -> in_cell h s j x -> 2 * j - s <= b <= 2 * j - s + 1.
Proof.
  intros Hh [H1 H2] [H3 H4].
  assert (HA : (inject_Z b * h < inject_Z (2 * j - s + 2) * h)%Q) by (eapply Qle_lt_trans; eassumption).
  assert (HB : (inject_Z (2 * j - s) * h < inject_Z (b + 1) * h)%Q) by (eapply Qle_lt_trans; eassumption).
  apply Qmult_lt_r in HA; [|exact Hh]. apply Qmult_lt_r in HB; [|exact Hh].
  rewrite <- Zlt_Qlt in HA, HB. lia.
Qed.

Lemma point_in_cell_iff (h : Q) (k : nat) (bi j : idx) (p : list Q) :
  (0 < h)%Q -> point_in_bundle h bi p ->
  (point_in_cell h k j p <-> generate_index bi k = j).
Proof.
  intros Hh [HLp Hp]. rewrite generate_index_iff. split.
  - intros [HLj Hj]. assert (HL : length bi = length j) by congruence.
    split; [exact HL|]. intros d Hd. change (shift_of k d) with (displaced k d).
    eapply cell_in_bundle; [exact Hh|apply Hp; exact Hd|apply Hj; congruence].
  - intros [HL Hb]. split; [congruence|]. intros d Hd. rewrite <- HL in Hd.
    eapply bundle_in_cell; [exact Hh|apply Hp; exact Hd|apply (Hb d Hd)].
Qed.

(** The positions covered by a bundle are the intersection of its cells. *)
Lemma bundle_is_intersection (h : Q) (bi : idx) (p : list Q) :
  (0 < h)%Q -> length p = length bi ->
  (point_in_bundle h bi p <->
   forall k, (k < 2 ^ length bi)%nat -> point_in_cell h k (generate_index bi k) p).
Proof.
  intros Hh HL. split.
  - intros Hp k _. apply (point_in_cell_iff h k bi); auto.
  - intros H. split; [exact HL|]. intros d Hd.
    assert (Hpos : (0 < 2 ^ length bi)%nat) by (apply Nat.neq_0_lt_0, Nat.pow_nonzero; lia).
    pose proof (H 0%nat Hpos) as [_ H0].
    assert (Hlt : (2 ^ d < 2 ^ length bi)%nat) by (apply Nat.pow_lt_mono_r; lia).
    pose proof (H (2 ^ d)%nat Hlt) as [_ H1].
    rewrite generate_index_length in H0, H1. specialize (H0 d Hd). specialize (H1 d Hd).
    unfold displaced in H0, H1. rewrite Nat.bits_0 in H0. rewrite Nat.pow2_bits_true in H1.
    rewrite generate_index_nth, Nat.bits_0 in H0 by exact Hd.
    rewrite generate_index_nth, Nat.pow2_bits_true in H1 by exact Hd.
    set (b := nth d bi 0) in *. set (x := nth d p 0%Q) in *.
    destruct H0 as [A1 A2], H1 as [B1 B2].
    destruct (Z.Even_or_Odd b) as [[c Hc]|[c Hc]].
    + (* even: unshifted cell gives lower bound, shifted cell the upper one *)
      split.
      * replace b with (2 * (b / 2) - 0); [exact A1|]. Z.div_mod_to_equations; lia.
      * replace (b + 1) with (2 * ((b + 1) / 2) - 1 + 2); [exact B2|]. Z.div_mod_to_equations; lia.
    + split.
      * replace b with (2 * ((b + 1) / 2) - 1); [exact B1|]. Z.div_mod_to_equations; lia.
      * replace (b + 1) with (2 * (b / 2) - 0 + 2); [exact A2|]. Z.div_mod_to_equations; lia.
Qed.

Lemma C01_full (bi : idx) (k : nat) :
  length (generate_index bi k) = length bi /\
  (forall d, (d < length bi)%nat ->
     nth d (generate_index bi k) 0 =
     if Nat.testbit k d then Qceiling (nth d bi 0 # 2) else Qfloor (nth d bi 0 # 2)) /\
  (all_int bi -> all_int (generate_index bi k)) /\
  (forall h p, (0 < h)%Q -> point_in_bundle h bi p -> point_in_cell h k (generate_index bi k) p).
Proof.
  split; [apply generate_index_length|]. split; [|split].
  - intros d Hd. rewrite generate_index_nth by exact Hd. rewrite ceil_half, floor_half. reflexivity.
  - apply generate_index_int.
  - intros h p Hh Hp. apply (point_in_cell_iff h k bi); auto.
Qed.

Lemma C01_apply (bi : idx) (n i : nat) (j : idx) :
  In (i, j) (apply_indices n bi) <-> (i < n)%nat /\ j = generate_index bi i.
Proof.
  rewrite apply_indices_spec, in_map_iff. split.
  - intros [i' [He Hin]]. injection He as <- <-. apply in_seq in Hin. split; [lia|reflexivity].
  - intros [Hi ->]. exists i. split; [reflexivity|]. apply in_seq; lia.
Qed.

Lemma apply_indices_order (bi : idx) (n : nat) :
  apply_indices n bi = combine (seq 0 n) (generate_indices bi n).
Proof.
  rewrite apply_indices_spec, generate_indices_spec.
  generalize 0%nat. induction n as [|n IH]; intros f; cbn [seq map combine]; [reflexivity|].
  f_equal. apply IH.
Qed.

Lemma C02_full (k : nat) (j : idx) :
  exists bundles : list idx,
    NoDup bundles /\ length bundles = (2 ^ length j)%nat /\
    (forall bi, In bi bundles <-> generate_index bi k = j) /\
    (forall bi, In bi bundles <->
       length bi = length j /\
       forall d, (d < length j)%nat ->
         nth d bi 0 = 2 * nth d j 0 - displaced k d \/
         nth d bi 0 = 2 * nth d j 0 - displaced k d + 1).
Proof.
  exists (cell_bundles k 0 j). split; [apply cell_bundles_nodup|].
  split; [apply cell_bundles_length|]. split; [intros bi; apply cell_bundles_generate|].
  intros bi. rewrite cell_bundles_in. change displaced with shift_of.
  split; intros [HL H]; (split; [exact HL|]); intros d Hd.
  - rewrite HL in H. specialize (H d Hd). cbn [Nat.add] in H. lia.
  - rewrite HL in Hd. specialize (H d Hd). cbn [Nat.add]. lia.
Qed.

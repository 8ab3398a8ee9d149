(** Maps with the same content answer alike. *)
From Coq Require Import QArith Qround Floats.SpecFloat.
From Verif Require Import Base SeqModel SeqFacts IndexModel IndexFacts OctreeSpec OctreeModel OctreeFacts
  MapModel MapFacts MapHist BackendModel BackendFacts SysModel SysSpec SysFacts MapLifeFacts ExtentModel ExtentFacts
  SampleModel SampleSpec SampleFacts ConvSpec ConvFacts FloatModel GridModel GridFacts QuerySpec.
Open Scope Z_scope.

Lemma slot_stored {P : Type} (c : config P) (m : cmap c) (i : nat) (j : idx) (v : P) :
  cstored c m i j = Ok (Some v) -> slot_value (bdc c) (bbc c) m i (Some j) = Ok (Some v).
Proof.
  unfold cstored, stored, slot_value. intros E. destruct (get_store (bdc c) (bbc c) m i) as [s| |]; cbn [obind] in *; try discriminate.
  rewrite E. reflexivity.
Qed.

Section Query.
Context {P : Type}.
Variable c c' : config P.
Hypothesis Hc : config_ok c.
Hypothesis Hc' : config_ok c'.
Hypothesis Hdim : dimc c' = dimc c.
Variable m : cmap c.
Variable m' : cmap c'.
Hypothesis HI : cInv c m.
Hypothesis HR : region c 0 m.
Hypothesis HT : twin c c' m m'.

Lemma told_bundle {Q : Type} (c0 : config Q) (Hc0 : config_ok c0) (x : cmap c0) (bi : idx) :
  cInv c0 x -> region c0 0 x -> told_apart c0 bi ->
  (exists b, cbundle c0 x bi = Ok (Some b) /\ usable c0 0 bi /\ cbget c0 x bi = Some b) \/
  (cbundle c0 x bi = Ok None /\ (usable c0 0 bi -> cbget c0 x bi = None)).
Proof.
  intros I0 R0 [HL Hd].
  assert (Ha : addressable c0 bi /\ place c0 bi = bi).
  { destruct (kind_cases (kindc c0)) as [E|E].
    - split; [split; [exact HL|congruence]|]. unfold place. rewrite E. reflexivity.
    - apply place_usable. split; [exact HL|]. rewrite E. eapply Forall_impl; [|exact (Hd E)]. cbn. intros; lia. }
  destruct Ha as [Ha Hp]. pose proof (place_bundle c0 Hc0 x bi I0 R0 Ha) as E. rewrite Hp in E.
  pose proof (bundle_dom c0 x bi I0 Ha) as D. rewrite Hp in D.
  destruct (cbget c0 x bi) as [b|] eqn:Eb.
  - left. exists b. split; [exact E|]. split; [|reflexivity]. apply R0; [|congruence].
    pose proof I0 as [_ [Hsh _]]. rewrite <- Hsh. apply D. congruence.
  - right. split; [exact E|]. reflexivity.
Qed.

(** One bundle, seen through both maps. *)
Definition reads_alike (bi : idx) : Prop :=
  (cbundle c m bi = Ok None /\ cbundle c' m' bi = Ok None) \/
  (exists b b', cbundle c m bi = Ok (Some b) /\ cbundle c' m' bi = Ok (Some b') /\ slots b' = slots b /\
     forall i, (i < bin_count (dimc c))%nat -> exists j v, nth_error (slots b) i = Some (Some j) /\
       slot_value (bdc c) (bbc c) m i (Some j) = Ok (Some v) /\ slot_value (bdc c') (bbc c') m' i (Some j) = Ok (Some v)).

Lemma slots_alike (bi : idx) (b b' : bundle) : usable c 0 bi -> usable c' 0 bi -> cbget c m bi = Some b ->
  slots b' = full_slots (dimc c') bi ->
  slots b' = slots b /\
     forall i, (i < bin_count (dimc c))%nat -> exists j v, nth_error (slots b) i = Some (Some j) /\
       slot_value (bdc c) (bbc c) m i (Some j) = Ok (Some v) /\ slot_value (bdc c') (bbc c') m' i (Some j) = Ok (Some v).
Proof.
  intros Hu Hu' Eb Eb'. destruct HT as [_ [_ [w [IW [RW [[HSb HSv] [_ [_ [_ [_ Hv]]]]]]]]]].
  pose proof (slots_full c Hc m bi b HI Hu Eb) as Hs. split; [rewrite Hs, Eb', Hdim; reflexivity|].
  intros i Hi. pose proof HI as [[[_ HB] _] [Hsh _]].
  destruct (HB bi b) as [_ [_ Hex]]; [fold (cshape c m); rewrite Hsh; apply (usable_bdom c Hc 0); [lia|exact Hu]|exact Eb|].
  destruct (Hex i Hi) as [v Hvv]. exists (generate_index bi i), v.
  assert (HV : has_value c m i (generate_index bi i) v).
  { apply (has_value_iff c Hc m i _ v HI). split; [|exact Hvv]. apply bundle_cell; [exact Hu|].
    rewrite <- two_pow_spec. exact Hi. }
  split.
  - rewrite Hs. unfold full_slots. rewrite nth_error_map, (nth_error_nth' (seq 0 (bin_count (dimc c))) 0%nat) by (rewrite seq_length; exact Hi).
    rewrite seq_nth by exact Hi. reflexivity.
  - split; apply slot_stored; [apply HV|]. apply Hv. apply HSv. exact HV.
Qed.

Lemma twin_reads (bi : idx) : told_apart c bi -> told_apart c' bi -> reads_alike bi.
Proof.
  intros Ht Ht'. destruct HT as [_ [_ [w [IW [RW [[HSb HSv] [_ [_ [Hbu _]]]]]]]]].
  destruct (told_bundle c Hc m bi HI HR Ht) as [[b [E [Hu Eb]]]|[E Hn]].
  - right.
    assert (H : has_bundle c m bi (slots b)) by (split; [exact Hu|exists b; auto]).
    apply HSb in H. destruct H as [Hu' [b' [E' Hs']]].
    exists b, b'. split; [exact E|]. split; [rewrite Hbu; exact E'|].
    apply (slots_alike bi); try assumption. rewrite Hs'. rewrite (slots_full c Hc m bi b HI Hu Eb), Hdim. reflexivity.
  - left. split; [exact E|]. rewrite Hbu.
    destruct (told_bundle c' Hc' w bi IW RW Ht') as [[b [E' [Hu Eb]]]|[E' _]]; [|exact E'].
    exfalso. assert (H : has_bundle c' w bi (slots b)) by (split; [exact Hu|exists b; auto]).
    apply HSb in H. destruct H as [_ [b0 [E0 _]]]. congruence.
Qed.

Lemma sum_alike (contribution : P -> list Q -> Q) (b b' : bundle) (weight : nat -> Q) (p : list Q) :
  slots b' = slots b ->
  (forall i, (i < bin_count (dimc c))%nat -> exists j v, nth_error (slots b) i = Some (Some j) /\
       slot_value (bdc c) (bbc c) m i (Some j) = Ok (Some v) /\ slot_value (bdc c') (bbc c') m' i (Some j) = Ok (Some v)) ->
  exists s, weighted_sum c contribution m b weight p = Ok s /\ weighted_sum c' contribution m' b' weight p = Ok s.
Proof.
  intros Hs Hv. unfold weighted_sum. rewrite Hdim, Hs.
  assert (H : forall l acc, (forall i, In i l -> (i < bin_count (dimc c))%nat) ->
    exists s, ofold (fun acc i => match nth_error (slots b) i with None => UB | Some sl =>
               let* d := slot_value (bdc c) (bbc c) m i sl in
               Ok (acc + weight i * match d with Some v => contribution v p | None => 0 end)%Q end) l acc = Ok s /\
      ofold (fun acc i => match nth_error (slots b) i with None => UB | Some sl =>
               let* d := slot_value (bdc c') (bbc c') m' i sl in
               Ok (acc + weight i * match d with Some v => contribution v p | None => 0 end)%Q end) l acc = Ok s).
  { induction l as [|i l IH]; intros acc Hl; [exists acc; split; reflexivity|].
    destruct (Hv i (Hl i (or_introl eq_refl))) as [j [v [Ej [E1 E2]]]]. cbn [ofold]. rewrite Ej, E1, E2. cbn [obind].
    apply IH. intros k Hk. apply Hl. right; exact Hk. }
  apply H. intros i Hi. apply in_seq in Hi. lia.
Qed.

Lemma float_sum_alike (prec emax : Z) (contribution : P -> list spec_float -> spec_float) (b b' : bundle)
  (weight : nat -> spec_float) (p : list spec_float) :
  slots b' = slots b ->
  (forall i, (i < bin_count (dimc c))%nat -> exists j v, nth_error (slots b) i = Some (Some j) /\
       slot_value (bdc c) (bbc c) m i (Some j) = Ok (Some v) /\ slot_value (bdc c') (bbc c') m' i (Some j) = Ok (Some v)) ->
  exists s, float_weighted_sum prec emax c contribution m b weight p = Ok s /\
            float_weighted_sum prec emax c' contribution m' b' weight p = Ok s.
Proof.
  intros Hs Hv. unfold float_weighted_sum. rewrite Hdim, Hs.
  assert (H : forall l acc, (forall i, In i l -> (i < bin_count (dimc c))%nat) ->
    exists s, ofold (fun acc i => match nth_error (slots b) i with None => UB | Some sl =>
               let* d := slot_value (bdc c) (bbc c) m i sl in
               Ok (fadd prec emax acc (fmul prec emax (weight i) match d with Some v => contribution v p | None => float_zero end)) end) l acc = Ok s /\
      ofold (fun acc i => match nth_error (slots b) i with None => UB | Some sl =>
               let* d := slot_value (bdc c') (bbc c') m' i sl in
               Ok (fadd prec emax acc (fmul prec emax (weight i) match d with Some v => contribution v p | None => float_zero end)) end) l acc = Ok s).
  { induction l as [|i l IH]; intros acc Hl; [exists acc; split; reflexivity|].
    destruct (Hv i (Hl i (or_introl eq_refl))) as [j [v [Ej [E1 E2]]]]. cbn [ofold]. rewrite Ej, E1, E2. cbn [obind].
    apply IH. intros k Hk. apply Hl. right; exact Hk. }
  apply H. intros i Hi. apply in_seq in Hi. lia.
Qed.

Lemma scores_at (inv : Q) (contribution : P -> list Q -> Q) (p : list Q) (bi : idx) : reads_alike bi ->
  exists s t, sample_at c contribution m p bi = Ok s /\ sample_at c' contribution m' p bi = Ok s /\
    sample_bilinear_at c inv contribution m p bi = Ok t /\ sample_bilinear_at c' inv contribution m' p bi = Ok t.
Proof.
  unfold sample_at, sample_bilinear_at. intros [[-> ->]|[b [b' [-> [-> [Hs Hv]]]]]]; cbn [obind].
  - exists 0%Q, 0%Q. auto.
  - replace (div_count c') with (div_count c) by (unfold div_count; rewrite Hdim; reflexivity).
    destruct (sum_alike contribution b b' (fun _ => div_count c) p Hs Hv) as [s [S1 S2]].
    destruct (sum_alike contribution b b' (to_bilinear_interpolation_weight (get_bilinear_interpolation_weights bi p inv)) p Hs Hv)
      as [t [T1 T2]]. exists s, t. auto.
Qed.

Lemma twin_queries : same_queries c c' m m'.
Proof.
  split; [|split].
  - intros inv contribution p bi E Ht Ht'. unfold sampleNonNormalized, sampleNonNormalizedBilinear. rewrite E. cbn [obind].
    apply scores_at, twin_reads; assumption.
  - intros D M inv inner sample occupancy ivm p bi E Ht Ht'. unfold occ_sampleNonNormalized, occ_sampleNonNormalizedBilinear.
    rewrite E. cbn [obind]. apply scores_at, twin_reads; assumption.
  - intros prec emax inv contribution p bi E Ht Ht'. unfold float_sampleNonNormalized, float_sampleNonNormalizedBilinear.
    rewrite E. cbn [obind]. unfold float_sample_at, float_sample_bilinear_at.
    destruct (twin_reads bi Ht Ht') as [[-> ->]|[b [b' [-> [-> [Hs Hv]]]]]]; cbn [obind].
    + exists float_zero, float_zero. auto.
    + replace (float_div_count prec emax c') with (float_div_count prec emax c) by (unfold float_div_count; rewrite Hdim; reflexivity).
      destruct (float_sum_alike prec emax contribution b b' (fun _ => float_div_count prec emax c) p Hs Hv) as [s [S1 S2]].
      destruct (float_sum_alike prec emax contribution b b' (float_weight prec emax (float_axis_weights prec emax bi p inv)) p Hs Hv)
        as [t [T1 T2]]. exists s, t. auto.
Qed.
End Query.

Lemma same_refl {P : Type} (c : config P) (m : cmap c) : same_content c c m m.
Proof. split; reflexivity. Qed.

(** ** Grids *)
Section Grids.
Context {P : Type}.

(** A map that reads like an intact one gives the same grid. *)
Lemma sees_grid (c : config P) (Hc : config_ok c) (w m' : cmap c) (bres sres : Q) (contribution : P -> list Q -> Q)
  (bilinear : bool) (dv : Q) (g : grid) :
  cInv c w -> region c 0 w -> sees c w m' ->
  to_grid c bres sres contribution false bilinear dv w = Ok (w, g) ->
  to_grid c bres sres contribution false bilinear dv m' = Ok (m', g).
Proof.
  intros IW RW Hsees. pose proof Hsees as [Hmn [Hmx [Hb [Hbs _]]]].
  assert (HT : twin c c w m').
  { split; [exact Hc|]. split; [reflexivity|]. exists w. split; [exact IW|]. split; [exact RW|]. split; [apply same_refl|exact Hsees]. }
  unfold to_grid, getExtent. cbn [obind]. rewrite Hmn, Hmx, Hbs. intros E.
  obreak E. obreak E. obreak E. obreak E. obreak E. obreak E. obreak E. cbn [obind]. injection E as ->.
  destruct (cmap_bundles c Hc w IW RW) as [es [Ees [_ [Hin _]]]].
  match goal with H : cbundles c w = Ok ?x |- _ => assert (x = es) by congruence; subst x end.
  rewrite E0. cbn [obind]. rewrite E1. cbn [obind]. rewrite E2. cbn [obind]. rewrite E3. cbn [obind]. rewrite E4. cbn [obind].
  rewrite E5. cbn [obind].
  match goal with |- (let* g' := ?e in _) = _ => assert (Hfold : e = Ok g); [|rewrite Hfold; reflexivity] end.
  etransitivity; [|exact E6].
  apply ofold_ext. intros g1 [bi b] He. apply Hin in He. destruct He as [Hu Eb]. unfold write_bundle. cbn [fst snd].
  apply ofold_ext. intros g2 k _. apply ofold_ext. intros g3 n _. unfold write_pixel.
  destruct (slots_alike c c Hc eq_refl w m' IW HT bi b b Hu Hu Eb (slots_full c Hc w bi b IW Hu Eb)) as [Hs Hv].
  assert (HH : forall weight p, weighted_sum c contribution m' b weight p = weighted_sum c contribution w b weight p).
  { intros weight p. destruct (sum_alike c c eq_refl w m' contribution b b weight p Hs Hv) as [s [-> ->]]. reflexivity. }
  rewrite !HH. reflexivity.
Qed.

Variable c c' : config P.
Hypothesis Hc : config_ok c.
Hypothesis Hc' : config_ok c'.
Hypothesis Hdim : dimc c' = dimc c.
Variable m : cmap c.
Variable m' : cmap c'.
Hypothesis HI : cInv c m.
Hypothesis HR : region c 0 m.
Hypothesis HT : twin c c' m m'.
Hypothesis H2 : dimc c = 2%nat.
Hypothesis Hrange : forall es, cbundles c m = Ok es -> forall bi d, In bi (map fst es) -> (d < dimc c)%nat ->
  nth d (min_bi m) 0 <= nth d bi 0 <= nth d (max_bi m) 0.
Hypothesis Hmn : min_bi m' = min_bi m.
Hypothesis Hmx : max_bi m' = max_bi m.

Lemma twin_grids : same_grids c c' m m'.
Proof.
  intros bres sres contribution bilinear dv w0 w1 Hb Hs Hint E0 E1 W0 W1.
  pose proof HT as [_ [_ [w [IW [RW [HS Hsees]]]]]]. pose proof HS as [HSb HSv]. pose proof Hsees as [Hmn' [Hmx' _]].
  assert (Mn : min_bi w = min_bi m) by congruence. assert (Mx : max_bi w = max_bi m) by congruence.
  destruct (cmap_bundles c Hc m HI HR) as [es [Ees [_ [Hin _]]]].
  destruct (cmap_bundles c' Hc' w IW RW) as [es' [Ees' [_ [Hin' _]]]].
  assert (Hmem : forall bi, In bi (map fst es) <-> In bi (map fst es')).
  { intros bi. rewrite !in_map_iff. split.
    - intros [[x b] [<- H]]. apply Hin in H. destruct H as [Hu Eb]. cbn [fst].
      assert (Hh : has_bundle c m x (slots b)) by (apply (has_bundle_iff c Hc m x _ HI); rewrite Eb; auto).
      apply HSb in Hh. apply (has_bundle_iff c' Hc' w x _ IW) in Hh. destruct Hh as [Hu' E'].
      destruct (cbget c' w x) as [b'|] eqn:Eb'; [|discriminate]. exists (x, b'). split; [reflexivity|]. apply Hin'. auto.
    - intros [[x b] [<- H]]. apply Hin' in H. destruct H as [Hu Eb]. cbn [fst].
      assert (Hh : has_bundle c' w x (slots b)) by (apply (has_bundle_iff c' Hc' w x _ IW); rewrite Eb; auto).
      apply HSb in Hh. apply (has_bundle_iff c Hc m x _ HI) in Hh. destruct Hh as [Hu' E'].
      destruct (cbget c m x) as [b'|] eqn:Eb'; [|discriminate]. exists (x, b'). split; [reflexivity|]. apply Hin. auto. }
  pose proof (Hrange es Ees) as Hr.
  destruct (grid_core_inv c Hc H2 bres sres Hb Hs contribution bilinear dv m es w0 w1 HI HR Ees Hr E0 E1 W0 W1 Hint)
    as [g [G [Gw [Gh [Gp Gd]]]]].
  assert (E0' : getExtent c' bres w 0 = Ok w0) by (unfold getExtent in *; rewrite Mn, Mx; exact E0).
  assert (E1' : getExtent c' bres w 1 = Ok w1) by (unfold getExtent in *; rewrite Mn, Mx; exact E1).
  destruct (grid_core_inv c' Hc' ltac:(congruence) bres sres Hb Hs contribution bilinear dv w es' w0 w1 IW RW Ees') as [g' [G' [Gw' [Gh' [Gp' Gd']]]]];
    try assumption.
  { intros bi d Hbi Hd. rewrite Mn, Mx. apply Hr; [apply Hmem; exact Hbi|congruence]. }
  exists g, g'. split; [exact G|].
  split; [apply (sees_grid c' Hc' w m'); assumption|]. split; [congruence|]. split; [congruence|].
  intros u v. set (cs := Qfloor (bres / sres)) in *. rewrite Mn in Gp', Gd'.
  set (pts := flat_map (fun bi => flat_map (fun k => map (fun n => (pix (min_bi m) 0 cs bi k, pix (min_bi m) 1 cs bi n)) (int_range cs)) (int_range cs)) (map fst es)).
  assert (Hpts : In (u, v) pts <-> exists bi k n, In bi (map fst es) /\ 0 <= k < cs /\ 0 <= n < cs /\
                    pix (min_bi m) 0 cs bi k = u /\ pix (min_bi m) 1 cs bi n = v).
  { unfold pts. rewrite in_flat_map. split.
    - intros [bi [Hbi H]]. apply in_flat_map in H. destruct H as [k [Hk H]]. apply in_map_iff in H.
      destruct H as [n [Hq Hn]]. injection Hq as <- <-. apply int_range_in in Hk, Hn. exists bi, k, n. auto.
    - intros [bi [k [n [Hbi [Hk [Hn [<- <-]]]]]]]. exists bi. split; [exact Hbi|]. apply in_flat_map. exists k.
      split; [apply int_range_in; exact Hk|]. apply in_map_iff. exists n. split; [reflexivity|apply int_range_in; exact Hn]. }
  assert (Hdec : forall x y : Z * Z, {x = y} + {x <> y}) by (decide equality; apply Z.eq_dec).
  destruct (in_dec Hdec (u, v) pts) as [H|H].
  - apply Hpts in H. destruct H as [bi [k [n [Hbi [Hk [Hn [<- <-]]]]]]].
    destruct (Gp bi k n Hbi Hk Hn) as [_ ->]. destruct (Gp' bi k n (proj1 (Hmem bi) Hbi) Hk Hn) as [_ ->].
    apply in_map_iff in Hbi. destruct Hbi as [[x b] [Ex He]]. cbn [fst] in Ex. subst x. apply Hin in He. destruct He as [Hu Eb].
    assert (Hh : has_bundle c m bi (slots b)) by (apply (has_bundle_iff c Hc m bi _ HI); rewrite Eb; auto).
    apply HSb in Hh. apply (has_bundle_iff c' Hc' w bi _ IW) in Hh. destruct Hh as [Hu' E'].
    destruct (cbget c' w bi) as [b'|] eqn:Eb'; [|discriminate].
    assert (HTw : twin c c' m w) by (apply twin_intact; assumption).
    destruct (slots_alike c c' Hc Hdim m w HI HTw bi b b' Hu Hu' Eb (slots_full c' Hc' w bi b' IW Hu' Eb')) as [Hsl Hv].
    unfold pixel_value.
    replace (pixel_weights c' bilinear cs bi k n) with (pixel_weights c bilinear cs bi k n)
      by (unfold pixel_weights, div_count; rewrite Hdim; reflexivity).
    destruct (sum_alike c c' Hdim m w contribution b b' (pixel_weights c bilinear cs bi k n) (chunk_point bres sres bi k n) Hsl Hv) as [s [S1 S2]].
    rewrite (weighted_sum_spec c contribution m bi) in S1; [|exact HI| |exact Eb].
    2: { pose proof HI as [_ [Hsh _]]. rewrite Hsh. apply (usable_bdom c Hc 0); [lia|exact Hu]. }
    rewrite (weighted_sum_spec c' contribution w bi) in S2; [|exact IW| |exact Eb'].
    2: { pose proof IW as [_ [Hsh _]]. rewrite Hsh. apply (usable_bdom c' Hc' 0); [lia|exact Hu']. }
    congruence.
  - rewrite Gd, Gd'; [reflexivity| |].
    + intros bi k n Hbi Hk Hn A B. apply H. apply Hpts. exists bi, k, n. split; [apply Hmem; exact Hbi|auto].
    + intros bi k n Hbi Hk Hn A B. apply H. apply Hpts. exists bi, k, n. auto.
Qed.
End Grids.

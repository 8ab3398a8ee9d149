(** Lookups by point and pose. *)
From Coq Require Import QArith Qround Permutation Lqa.
From Verif Require Import MapFacts MapHist BackendFacts Base SeqModel SeqFacts IndexModel IndexSpec IndexFacts OctreeSpec MapModel BackendModel SysModel SysSpec
  ExtentModel ExtentFacts SampleModel SampleSpec InterpFacts SampleFacts InsertModel InsertSpec InsertFacts MapPropFacts
  SysFacts MapLifeFacts GridFacts StaticFacts LocalSpec LocalFacts LookupModel.
Open Scope Z_scope.

Section Slots.
Context {P : Type}.
Variable c : config P.
Hypothesis Hc : config_ok c.

Lemma slot_content (m : cmap c) (b : idx) (bd : bundle) (k : nat) :
  cInv c m -> cbdom c (cshape c m) b -> cbget c m b = Some bd -> (k < 2 ^ dimc c)%nat ->
  at_slot c m bd k = Ok (ccontent c m k (generate_index b k)).
Proof.
  intros [[[Hwf HInv] _] _] Hd Hb Hk. rewrite <- two_pow_spec in Hk.
  destruct (HInv b bd Hd Hb) as [[_ [_ Hdd]] [Hsl Hex]].
  unfold at_slot. rewrite Hsl. unfold full_slots. rewrite nth_error_map, (nth_error_nth' _ 0%nat) by (rewrite seq_length; exact Hk).
  rewrite seq_nth by exact Hk. cbn [option_map Nat.add]. unfold slot_value.
  destruct (store_at _ _ _ _ _ _ _ m k (generate_index b k) Hwf (Hdd k Hk)) as [s [Hs [_ [_ Hg]]]].
  unfold get_store. rewrite Hs. cbn [obind]. rewrite Hg. cbn [obind].
  destruct (Hex k Hk) as [v Hv]. rewrite Hv. cbn [obind]. unfold ccontent, content. rewrite Hv. reflexivity.
Qed.

(** The allocating lookup of a point of the map. *)
Lemma lookup_allocates (inv : Q) (m : cmap c) (p : list Q) (bi : idx) :
  cInv c m -> region c 0 m -> toBundleIndex inv p = Ok bi -> usable c 0 bi ->
  exists m' b, getDistributionBundle_at c inv m p = Ok (m', Some b) /\ get_at c inv m' p = Ok (Some b) /\
    cInv c m' /\ cbget c m' bi = Some b /\ cact c m (Touch bi) = Ok m' /\
    (cbget c m bi <> None -> m' = m) /\
    forall k, (k < 2 ^ dimc c)%nat -> ccontent c m' k (generate_index bi k) = ccontent c m k (generate_index bi k).
Proof.
  intros HI HR E Hu.
  assert (Ht : act_fits c 0 (Touch bi)) by (apply (usable_touch c); exact Hu).
  destruct (touch_spec c Hc 0 m bi HI ltac:(lia) HR Ht) as [m' [E' [HI' [HR' [Hd [Hb Hs]]]]]].
  destruct (cact_spec c Hc 0 m (Touch bi) HI ltac:(cbn [expansions]; lia) HR Ht) as [m2 [E2 [_ [_ [Hcon [_ [Hn _]]]]]]].
  rewrite E' in E2. injection E2 as <-.
  assert (Hbd : cbdom c (cshape c (new_map c)) bi) by (apply (usable_bdom c Hc 0); [lia|exact Hu]).
  assert (Hne : cbget c m' bi <> None).
  { apply Hn; [exact Hbd|]. split; [reflexivity|]. apply (usable_valid c Hc 0); [lia|exact Hu]. }
  destruct (cbget c m' bi) as [b|] eqn:Eb; [|contradiction].
  exists m', b.
  assert (Eg : cbundle c m' bi = Ok (Some b)) by (rewrite (cbundle_spec c Hc m' bi HI' Hu); congruence).
  split; [|split; [|split; [exact HI'|split; [exact Eb|split; [exact E'|split]]]]].
  - unfold getDistributionBundle_at. rewrite E. cbn [obind]. unfold cact, MapModel.act in E'.
    unfold getDistributionBundle in *. fold (cvalid c m bi) in *. pose proof HI as [_ [_ Hv]].
    rewrite Hv, (usable_valid c Hc 0 bi ltac:(lia) Hu) in *.
    destruct (getAllocate _ _ _ _ _ _ _ m bi) as [m1| |]; cbn [obind fst snd] in *; try discriminate.
    injection E' as ->. unfold cbundle, get_bundle in Eg. fold (cvalid c m' bi) in Eg.
    destruct (cvalid c m' bi); [rewrite Eg; reflexivity|discriminate].
  - unfold get_at. rewrite E. cbn [obind]. exact Eg.
  - intros H. apply Hs. left. exact H.
  - intros k Hk. rewrite Hcon; [reflexivity|]. apply (cell_ddom c Hc), bundle_cell; assumption.
Qed.

Lemma lookup_outside (inv : Q) (m : cmap c) (p : list Q) (bi : idx) :
  cInv c m -> toBundleIndex inv p = Ok bi -> length bi = dimc c -> takes c bi = false ->
  getDistributionBundle_at c inv m p = Ok (m, None) /\ get_at c inv m p = Ok None.
Proof.
  intros [_ [_ Hv]] E HL Ht. unfold getDistributionBundle_at, get_at, cbundle, get_bundle, getDistributionBundle. rewrite E.
  cbn [obind]. fold (cvalid c m bi). rewrite Hv, (takes_valid c Hc) by exact HL. rewrite Ht. split; reflexivity.
Qed.
End Slots.

Section Grid.
Context {Pose X W S P : Type}.
Variable geo : geometry Pose X W (list Q).
Variable sta : statistics (list Q) S.
Variable c : config P.
Hypothesis Hc : config_ok c.
Variable upd_d : P -> S -> P.
Variable h : Q.
Hypothesis Hh : (0 < h)%Q.
Hypothesis Hloc : forall p, locate geo p = toBundleIndex (/ h) p.
Notation gop := (grid_op (Pose:=Pose) (X:=X)).
Notation stat ps := (fold_left (s_add sta) ps (s_empty sta)).
Variable addP : P -> list Q -> P.
Hypothesis add_batch : forall d ps, upd_d d (stat ps) = fold_left addP ps d.
Hypothesis add_comm : forall d p q, addP (addP d p) q = addP (addP d q) p.

Lemma grid_lookup (ops : list gop) (q : list Q) :
  all_in_reach geo c h false ops -> in_reach c h 0 q ->
  let pts := inserted geo c h false ops in
  let value := fun k => fold_left addP (filter (same_cell h k q) pts) (defaultc c) in
  exists m, grid_run geo sta c upd_d ops (new_map c) = Ok m /\
    (covered c h q = false ->
       getDistributionBundle_at c (/ h) m q = Ok (m, None) /\ get_at c (/ h) m q = Ok None) /\
    (covered c h q = true ->
       (exists ob, get_at c (/ h) m q = Ok ob /\
          (existsb (same_bundle h q) pts = true -> ob <> None) /\
          (only_inserts ops -> existsb (same_bundle h q) pts = false -> ob = None) /\
          forall b, ob = Some b -> forall k, (k < 2 ^ dimc c)%nat -> at_slot c m b k = Ok (value k)) /\
       (exists m' b, getDistributionBundle_at c (/ h) m q = Ok (m', Some b) /\ get_at c (/ h) m' q = Ok (Some b) /\
          (get_at c (/ h) m q <> Ok None -> m' = m) /\
          forall k, (k < 2 ^ dimc c)%nat -> at_slot c m' b k = Ok (value k))).
Proof.
  intros HA HR pts value.
  pose proof (reach_grid_fits geo c h Hh Hloc ops HA) as Hf. pose proof (reach_inserts geo c h false ops HA) as HI.
  pose proof (history_inserted geo c h Hh Hloc ops _ (expands_pos ops) HI) as EP. fold pts in EP.
  assert (HL : forall p, In p pts -> length p = length q).
  { intros p Hp. destruct HR as [HLq _]. rewrite HLq. eapply inserted_length; [exact HI|exact Hp]. }
  destruct (grid_run_spec geo sta c Hc upd_d ops Hf) as [m [E [HInv [HReg [HCon [Hp _]]]]]].
  exists m. split; [exact E|]. split.
  - intros HC. destruct (reach_index c h Hh 0 q ltac:(lia) HR) as [Eb [HLb _]].
    apply (lookup_outside c Hc (/ h) m q (floors h q)); [exact HInv|exact Eb|exact HLb|].
    rewrite (takes_covered c h Hh q (proj1 HR)). exact HC.
  - intros HC. destruct (point_usable c h Hh q HR HC) as [Eb Hu].
    assert (Hbd : cbdom c (cshape c (new_map c)) (floors h q)) by (apply (usable_bdom c Hc 0); [lia|exact Hu]).
    assert (HV : forall k, (k < 2 ^ dimc c)%nat -> ccontent c m k (generate_index (floors h q) k) = value k).
    { intros k Hk. rewrite HCon by (apply bundle_cell; assumption). unfold update_groups.
      rewrite cell_of_floors, (groups_flat sta upd_d addP add_batch). unfold value.
      apply fold_comm_perm; [exact add_comm|]. rewrite history_groups_points, EP, (points_of_cell h pts k q HL). apply Permutation_refl. }
    assert (Eg : get_at c (/ h) m q = Ok (cbget c m (floors h q))).
    { unfold get_at. rewrite Eb. cbn [obind]. apply (cbundle_spec c Hc m _ HInv Hu). }
    pose proof HInv as [_ [Hsh _]].
    split.
    + exists (cbget c m (floors h q)). split; [exact Eg|]. split; [|split].
      * intros Hex. apply (existsb_bundle h pts q HL) in Hex. destruct Hex as [p Hin]. rewrite <- EP in Hin. exact (Hp _ _ Hin).
      * intros Honly Hex. destruct (grid_bundles geo sta c Hc upd_d ops Hf Honly) as [m' [E' HB]].
        rewrite E in E'. injection E' as <-. destruct (HB _ Hu) as [ob [Eob [Hob _]]].
        rewrite (cbundle_spec c Hc m _ HInv Hu) in Eob. injection Eob as ->.
        destruct ob as [b|]; [exfalso|reflexivity]. destruct Hob as [p Hin]; [discriminate|]. rewrite EP in Hin.
        assert (T : existsb (same_bundle h q) pts = true) by (apply (existsb_bundle h pts q HL); exists p; exact Hin). congruence.
      * intros b Hb k Hk. rewrite (slot_content c m (floors h q) b k HInv); [f_equal; apply HV; exact Hk| |exact Hb|exact Hk].
        rewrite Hsh. exact Hbd.
    + destruct (lookup_allocates c Hc (/ h) m q (floors h q) HInv HReg Eb Hu) as [m' [b [E1 [E2 [HI' [Hb' [_ [Hsame Hcon']]]]]]]].
      exists m', b. split; [exact E1|]. split; [exact E2|]. split.
      * rewrite Eg. intros Hne. apply Hsame. congruence.
      * intros k Hk. pose proof HI' as [_ [Hsh' _]].
        rewrite (slot_content c m' (floors h q) b k HI'); [|rewrite Hsh'; exact Hbd|exact Hb'|exact Hk].
        f_equal. rewrite Hcon' by exact Hk. apply HV. exact Hk.
Qed.
End Grid.

(** ** Poses *)
Section Pose.
Context {P : Type}.
Variable c : config P.
Hypothesis Hc : config_ok c.
Variable h : Q.
Hypothesis Hh : (0 < h)%Q.

Lemma to_point_length (n : nat) (v : list Q) : length (to_point n v) = n.
Proof. unfold to_point. rewrite map_length. apply seq_length. Qed.
Lemma to_point_nth (n : nat) (v : list Q) (i : nat) : (i < n)%nat -> nth i (to_point n v) 0%Q = nth i v 0%Q.
Proof.
  intros Hi. unfold to_point. set (f := fun i => if (length v <=? i)%nat then 0%Q else nth i v 0%Q).
  rewrite (nth_indep _ 0%Q (f 0%nat)) by (rewrite map_length, seq_length; exact Hi).
  rewrite map_nth, seq_nth by exact Hi. cbn [Nat.add]. unfold f.
  destruct (Nat.leb_spec (length v) i) as [H|H]; [symmetry; apply nth_overflow; exact H|reflexivity].
Qed.

Lemma validate_covered (to_m : list Q -> list Q) (l : list (map_action (P:=P))) (t : list Q) :
  fits c l -> in_reach c h 0 (to_m (to_point (dimc c) t)) ->
  exists m, cact_all c l (new_map c) = Ok m /\
    validate c (/ h) to_m m t = Ok (covered c h (to_m (to_point (dimc c) t))).
Proof.
  intros Hf HR. destruct (run_spec c Hc l Hf) as [m [E [[_ [_ Hv]] _]]]. exists m. split; [exact E|].
  destruct (reach_index c h Hh 0 _ ltac:(lia) HR) as [Eb [HLb _]]. unfold validate. rewrite Eb. cbn [obind].
  rewrite Hv, (takes_valid c Hc) by exact HLb. rewrite (takes_covered c h Hh _ (proj1 HR)). reflexivity.
Qed.
End Pose.

(** ** Sizes of static maps *)
Section Size.
Context {P : Type}.
Variable c : config P.
Hypothesis Hc : config_ok c.
Hypothesis Hk : kindc c = Static.
Variable h : Q.

Lemma static_sizes (l : list (map_action (P:=P))) :
  fits c l ->
  (forall d, (d < dimc c)%nat -> 1 <= nth d (sizec c) 0 /\ 2 * nth d (sizec c) 0 <= INT_MAX /\
     INT_MIN <= nth d (minc c) 0 /\ nth d (minc c) 0 + 2 * nth d (sizec c) 0 <= INT_MAX) ->
  exists m hi, cact_all c l (new_map c) = Ok m /\ getMax c h m = Ok hi /\
    forall d, (d < dimc c)%nat ->
      exists w, getExtent c h m d = Ok w /\
        (w == nth d hi 0 - nth d (getMin c h m) 0)%Q /\
        (w == inject_Z (static_getSize c d) * (2 * h))%Q /\
        (w == inject_Z (static_getBundleSize c d) * h)%Q /\
        (static_getSizeM c (2 * h) d == w + 2 * h)%Q.
Proof.
  intros Hf HB. destruct (run_spec c Hc l Hf) as [m [E _]].
  destruct (static_range c Hk l m E) as [Emn Emx].
  pose proof (ok_size c Hc Hk) as LS. pose proof (ok_min c Hc Hk) as LM.
  assert (LX : length (max_bi m) = dimc c) by (rewrite Emx; unfold static_max; rewrite zip_with_length; lia).
  assert (NX : forall d, (d < dimc c)%nat -> nth d (max_bi m) 0 = nth d (minc c) 0 + nth d (sizec c) 0 * 2 - 1).
  { intros d Hd. rewrite Emx. unfold static_max. rewrite zip_with_nth by lia. reflexivity. }
  eexists. eexists. split; [exact E|]. split.
  { unfold getMax. apply omap_total with (g := fun z => (inject_Z (z + 1) * h)%Q).
    intros z Hz. apply (In_nth _ _ 0) in Hz. destruct Hz as [d [Hd <-]]. rewrite LX in Hd. rewrite NX by exact Hd.
    destruct (HB d Hd) as [B1 [B2 [B3 B4]]]. unfold INT_MIN, INT_MAX in *. rewrite to_int_ok by (unfold INT_MIN, INT_MAX; lia). reflexivity. }
  intros d Hd. destruct (HB d Hd) as [B1 [B2 [B3 B4]]]. unfold INT_MIN, INT_MAX in *.
  assert (Emin : nth d (getMin c h m) 0%Q = (inject_Z (nth d (minc c) 0%Z) * h)%Q).
  { unfold getMin. rewrite Emn. rewrite (nth_indep _ 0%Q (inject_Z 0 * h)%Q) by (rewrite map_length; lia).
    apply (map_nth (fun z => (inject_Z z * h)%Q)). }
  assert (Emax : nth d (map (fun z : Z => (inject_Z (z + 1) * h)%Q) (max_bi m)) 0%Q = (inject_Z (nth d (max_bi m) 0%Z + 1) * h)%Q).
  { rewrite (nth_indep _ 0%Q (inject_Z (0+1) * h)%Q) by (rewrite map_length; lia).
    apply (map_nth (fun z => (inject_Z (z + 1) * h)%Q)). }
  rewrite Emin, Emax. unfold getExtent. rewrite NX, Emn by exact Hd.
  rewrite !to_int_ok by (unfold INT_MIN, INT_MAX; lia). cbn [obind].
  rewrite to_int_ok by (unfold INT_MIN, INT_MAX; lia). cbn [obind].
  eexists. split; [reflexivity|].
  unfold static_getSize, static_getBundleSize, static_getSizeM. rewrite Z.mod_small by lia.
  set (n := nth d (sizec c) 0) in *. set (a := nth d (minc c) 0) in *. clearbody n a.
  replace (a + n * 2 - 1 - a + 1) with (n * 2) by lia. replace (a + n * 2 - 1 + 1) with (a + n * 2) by lia.
  rewrite !inject_Z_plus, !inject_Z_mult. change (inject_Z 2) with 2%Q. change (inject_Z 1) with 1%Q.
  split; [ring|]. split; [ring|]. split; ring.
Qed.
End Size.

(** ** The list of bundle indices *)
Section Indices.
Context {P : Type}.
Variable c : config P.
Hypothesis Hc : config_ok c.
Variable h : Q.
Hypothesis Hh : (0 < h)%Q.

Lemma indices_found (l : list (map_action (P:=P))) :
  fits c l ->
  exists m is, cact_all c l (new_map c) = Ok m /\ getBundleIndices c m = Ok is /\ NoDup is /\
    (forall bi, In bi is -> usable c 0 bi) /\
    forall q, in_reach c h 0 q -> exists ob, get_at c (/ h) m q = Ok ob /\
      (ob <> None <-> In (map (bundle_number h) q) is).
Proof.
  intros Hf. destruct (run_spec c Hc l Hf) as [m [E [HI [HR _]]]].
  destruct (cbundles_spec c m HI) as [bs [Eb [Hn Hin]]].
  exists m, (map fst bs). split; [exact E|]. split; [unfold getBundleIndices; rewrite Eb; reflexivity|]. split; [exact Hn|].
  pose proof HI as [_ [Hsh Hv]].
  assert (HU : forall bi, In bi (map fst bs) -> usable c 0 bi).
  { intros bi H. apply in_map_iff in H. destruct H as [[bi' b] [Ei H]]. cbn in Ei; subst bi'. apply Hin in H. destruct H as [H1 H2].
    apply HR; [exact H1|congruence]. }
  split; [exact HU|]. intros q HRq. destruct (reach_index c h Hh 0 q ltac:(lia) HRq) as [Ei [HL _]].
  change (map (bundle_number h) q) with (floors h q). unfold get_at. rewrite Ei. cbn [obind].
  destruct (takes c (floors h q)) eqn:Et.
  - assert (Hu : usable c 0 (floors h q)).
    { rewrite (takes_covered c h Hh q (proj1 HRq)) in Et. apply (point_usable c h Hh q HRq Et). }
    rewrite (cbundle_spec c Hc m _ HI Hu). exists (cbget c m (floors h q)). split; [reflexivity|].
    rewrite in_map_iff. split.
    + intros H. destruct (cbget c m (floors h q)) as [b|] eqn:Eg; [|contradiction]. exists (floors h q, b). split; [reflexivity|].
      apply Hin. split; [apply (usable_bdom c Hc 0); [lia|exact Hu]|exact Eg].
    + intros [[bi b] [Eq H]]. cbn in Eq. subst bi. apply Hin in H. destruct H as [_ H]. congruence.
  - unfold cbundle, get_bundle. fold (cvalid c m (floors h q)). rewrite Hv, (takes_valid c Hc) by exact HL. rewrite Et.
    exists None. split; [reflexivity|]. split; [contradiction|]. intros H. apply HU in H.
    pose proof (usable_valid c Hc 0 _ ltac:(lia) H) as V. rewrite (takes_valid c Hc) in V by exact HL. congruence.
Qed.
End Indices.

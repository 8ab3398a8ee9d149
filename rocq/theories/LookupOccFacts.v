(** Lookups by point in occupancy maps. *)
From Coq Require Import QArith Qround Permutation Lqa.
From Verif Require Import MapFacts MapHist BackendFacts Base SeqModel SeqFacts IndexModel IndexSpec IndexFacts OctreeSpec MapModel BackendModel SysModel SysSpec
  ExtentModel ExtentFacts SampleModel SampleSpec InterpFacts SampleFacts InsertModel InsertSpec InsertFacts MapPropFacts OccFacts
  SysFacts MapLifeFacts GridFacts StaticFacts LocalSpec LocalFacts LookupModel LookupFacts.
Open Scope Z_scope.

Section Occ.
Context {Pose X W S A : Type}.
Variable geo : geometry Pose X W (list Q).
Variable sta : statistics (list Q) S.
Variable c : config (occ A S).
Hypothesis Hc : config_ok c.
Variable h : Q.
Hypothesis Hh : (0 < h)%Q.
Hypothesis Hloc : forall p, locate geo p = toBundleIndex (/ h) p.
Variable zero : A.
Variable plus : A -> A -> A.
Variable amount : S -> A.
Variable s_merge : S -> S -> S.
Variable ray : Pose -> S -> list idx.
Variable order : list (idx * A) -> list (idx * A).
Hypothesis plus_zero : forall a, plus zero a = a.
Hypothesis plus_comm : forall a b, plus a b = plus b a.
Hypothesis plus_assoc : forall a b d, plus a (plus b d) = plus (plus a b) d.
Hypothesis order_perm : forall l, Permutation (order l) l.
Variable weighted : bool.
Hypothesis Hdefault : defaultc c = Build_occ zero None.
Notation gop := (grid_op (Pose:=Pose) (X:=X)).
Notation stat ps := (fold_left (s_add sta) ps (s_empty sta)).
Hypothesis merge_batch : forall s ps, s_merge s (stat ps) = fold_left (s_add sta) ps s.
Hypothesis add_comm : forall s p q, s_add sta (s_add sta s p) q = s_add sta (s_add sta s q) p.

(** Every visited bundle is in the free counter. *)
Lemma free_add_keeps (bi : idx) (n : A) (f : list (idx * A)) (b : idx) :
  (b = bi \/ In b (map fst f)) -> In b (map fst (free_add zero plus f bi n)).
Proof.
  induction f as [|[j a] f IH]; cbn [free_add map fst]; [intros [->|[]]; left; reflexivity|].
  destruct (idx_eqb_spec j bi) as [->|Hne]; cbn [map fst].
  - intros [->|H]; [left; reflexivity|exact H].
  - intros [->|[->|H]]; [right; apply IH; left; reflexivity|left; reflexivity|right; apply IH; right; exact H].
Qed.
Lemma add_all_keeps (l : list (idx * A)) : forall f b,
  (In b (map fst l) \/ In b (map fst f)) -> In b (map fst (add_all zero plus l f)).
Proof.
  induction l as [|[e n] l IH]; intros f b H; [destruct H as [[]|H]; exact H|].
  cbn [add_all fold_left fst snd]. fold (add_all zero plus l (free_add zero plus f e n)). apply IH.
  destruct H as [[<-|H]|H]; [right; apply free_add_keeps; left; reflexivity|left; exact H|right; apply free_add_keeps; right; exact H].
Qed.
Lemma freed_all (o : Pose) (xs : list X) (b : idx) (a : A) :
  In (b, a) (visits sta c amount ray o (ends geo c o xs)) ->
  negb (weighted && existsb (fun g => idx_eqb (fst g) b) (ends geo c o xs)) = true ->
  exists n, In (b, n) (freed geo sta c zero plus amount ray order weighted o xs).
Proof.
  intros Hv Hw.
  assert (K : In b (map fst (add_all zero plus (visits sta c amount ray o (ends geo c o xs)) []))).
  { apply add_all_keeps. left. apply (in_map fst) in Hv. exact Hv. }
  apply in_map_iff in K. destruct K as [[b' n] [Eb K]]. cbn [fst] in Eb. subst b'. exists n.
  unfold freed. apply (Permutation_in _ (Permutation_sym (order_perm _))).
  destruct weighted; [|exact K]. apply filter_In. split; [exact K|exact Hw].
Qed.

Lemma occ_lookup (ops : list gop) (q : list Q) :
  all_in_reach geo c h true ops -> rays_in_reach ray c ops -> in_reach c h 0 q ->
  let pts := inserted geo c h true ops in
  let misses := fun k => total zero plus (cell_misses geo sta c amount ray weighted ops k (cell_of h k q)) in
  let value := fun k => Build_occ (misses k)
                 (match filter (same_cell h k q) pts with [] => None | l => Some (stat l) end) in
  exists m, occ_run geo sta c zero plus amount s_merge ray order weighted ops (new_map c) = Ok m /\
    (covered c h q = false ->
       getDistributionBundle_at c (/ h) m q = Ok (m, None) /\ get_at c (/ h) m q = Ok None) /\
    (covered c h q = true ->
       (exists ob, get_at c (/ h) m q = Ok ob /\
          (existsb (same_bundle h q) pts = true -> ob <> None) /\
          (forall o xs a, In (GInsert o xs) ops ->
             In (floors h q, a) (scan_misses geo sta c amount ray weighted o xs) -> ob <> None) /\
          (only_inserts ops -> existsb (same_bundle h q) pts = false ->
             (forall o xs a, In (GInsert o xs) ops ->
                ~ In (floors h q, a) (scan_misses geo sta c amount ray weighted o xs)) -> ob = None) /\
          forall b, ob = Some b -> forall k, (k < 2 ^ dimc c)%nat -> at_slot c m b k = Ok (value k)) /\
       (exists m' b, getDistributionBundle_at c (/ h) m q = Ok (m', Some b) /\ get_at c (/ h) m' q = Ok (Some b) /\
          (get_at c (/ h) m q <> Ok None -> m' = m) /\
          forall k, (k < 2 ^ dimc c)%nat -> at_slot c m' b k = Ok (value k))).
Proof.
  intros HA HRay HR pts misses value.
  pose proof (reach_occ_fits geo c h Hh Hloc ray ops HA HRay) as Hf. pose proof (reach_inserts geo c h true ops HA) as HI.
  pose proof (scan_inserted geo c h Hh Hloc ops _ (expands_pos ops) HI) as EP. fold pts in EP.
  assert (HL : forall p, In p pts -> length p = length q).
  { intros p Hp. destruct HR as [HLq _]. rewrite HLq. eapply inserted_length; [exact HI|exact Hp]. }
  destruct (occ_history geo sta c Hc zero plus amount s_merge ray order plus_zero plus_comm plus_assoc order_perm weighted Hdefault ops Hf)
    as [m [E HV]].
  destruct (OpHist.run_from_new c Hc (occ_step geo sta c zero plus amount s_merge ray order weighted)
    (occ_acts geo sta c zero plus amount s_merge ray order weighted) (occ_opfits geo c ray)
    (occ_step_acts geo sta c Hc zero plus amount s_merge ray order weighted)
    (occ_acts_fit geo sta c Hc zero plus amount s_merge ray order order_perm weighted)
    (occ_opfits_le geo c ray) ops) as [Hfits ER].
  { rewrite (occ_expansions geo sta c zero plus amount s_merge ray order weighted). unfold occ_fits in Hf. revert Hf.
    apply Forall_impl. intros [o xs|b|] H; exact H. }
  assert (EA : cact_all c (flat_map (occ_acts geo sta c zero plus amount s_merge ray order weighted) ops) (new_map c) = Ok m)
    by (rewrite <- ER; exact E).
  destruct (run_spec c Hc _ Hfits) as [m' [E' [HInv [HReg [_ [Hn Ho]]]]]]. rewrite EA in E'. injection E' as <-.
  exists m. split; [exact E|]. split.
  - intros HC. destruct (reach_index c h Hh 0 q ltac:(lia) HR) as [Eb [HLb _]].
    apply (lookup_outside c Hc (/ h) m q (floors h q)); [exact HInv|exact Eb|exact HLb|].
    rewrite (takes_covered c h Hh q (proj1 HR)). exact HC.
  - intros HC. destruct (point_usable c h Hh q HR HC) as [Eb Hu].
    assert (Hbd : cbdom c (cshape c (new_map c)) (floors h q)) by (apply (usable_bdom c Hc 0); [lia|exact Hu]).
    assert (HVal : forall k, (k < 2 ^ dimc c)%nat -> ccontent c m k (generate_index (floors h q) k) = value k).
    { intros k Hk. assert (HX : cell_exists c k (cell_of h k q)) by (rewrite <- cell_of_floors; apply (cell_of_usable c); assumption).
      destruct (HV k (cell_of h k q) HX) as [o [Eo Hval]].
      rewrite (cstored_spec c Hc m k _ HInv HX) in Eo. injection Eo as Eo. rewrite cell_of_floors.
      unfold ccontent, content. unfold cdget in Eo. rewrite Eo.
      assert (HP : Permutation (concat (cell_hits geo c ops k (cell_of h k q))) (filter (same_cell h k q) pts)).
      { rewrite hits_points, EP, (points_of_cell h pts k q HL). apply Permutation_refl. }
      unfold value, misses.
      destruct o as [[dm dh]|].
      - destruct Hval as [H1 H2]. cbn [missed hits] in H1, H2. rewrite H1, H2. f_equal.
        rewrite (merged_flat sta s_merge merge_batch) by apply (hit_groups_nonempty geo c).
        revert HP. generalize (concat (cell_hits geo c ops k (cell_of h k q))), (filter (same_cell h k q) pts). intros a b HP.
        destruct a as [|x a]; [apply Permutation_nil in HP; subst b; reflexivity|].
        destruct b as [|y b]; [apply Permutation_sym, Permutation_nil in HP; discriminate|].
        f_equal. apply fold_comm_perm; assumption.
      - destruct Hval as [H1 H2]. rewrite H1. rewrite H2 in HP. cbn [concat] in HP. apply Permutation_nil in HP. rewrite HP.
        exact Hdefault. }
    assert (Eg : get_at c (/ h) m q = Ok (cbget c m (floors h q))).
    { unfold get_at. rewrite Eb. cbn [obind]. apply (cbundle_spec c Hc m _ HInv Hu). }
    pose proof HInv as [_ [Hsh _]].
    split.
    + exists (cbget c m (floors h q)). split; [exact Eg|]. split; [|split; [|split]].
      * intros Hex. apply (existsb_bundle h pts q HL) in Hex. destruct Hex as [p Hin]. rewrite <- EP in Hin.
        unfold scan_points in Hin. apply in_flat_map in Hin. destruct Hin as [op [Hop Hin]].
        destruct op as [o xs|b|]; [|destruct Hin|destruct Hin].
        assert (HK : In (floors h q) (map fst (groups (accepted geo c true o xs)))) by (rewrite groups_keys; apply keys_in; eauto).
        apply in_map_iff in HK. destruct HK as [[b ps] [Ek Hg]]. cbn [fst] in Ek.
        apply (Hn (floors h q) (Modify b (update_occupied s_merge (stat ps)))); [|exact Hbd|symmetry; exact Ek].
        apply in_flat_map. exists (GInsert o xs). split; [exact Hop|]. cbn [occ_acts]. apply in_or_app. left.
        apply in_map_iff. exists (b, ps). split; [reflexivity|exact Hg].
      * intros o xs a Hop Hin. unfold scan_misses in Hin. apply filter_In in Hin. destruct Hin as [Hv Hw]. cbn [fst] in Hw.
        destruct (freed_all o xs (floors h q) a Hv Hw) as [n HK].
        apply (Hn (floors h q) (Modify (floors h q) (update_free plus n))); [|exact Hbd|reflexivity].
        apply in_flat_map. exists (GInsert o xs). split; [exact Hop|]. cbn [occ_acts]. apply in_or_app. right.
        apply in_map_iff. exists (floors h q, n). split; [reflexivity|exact HK].
      * intros Honly Hex Hmiss. destruct (cbget c m (floors h q)) as [b0|] eqn:Eg0; [exfalso|reflexivity].
        destruct (Ho (floors h q) Hbd) as [a [Ha Hna]].
        -- intros H. apply in_flat_map in H. destruct H as [op [Hop H]]. unfold only_inserts in Honly. rewrite Forall_forall in Honly.
           specialize (Honly op Hop). destruct op as [o xs|b|]; try contradiction. cbn [occ_acts] in H.
           apply in_app_or in H. destruct H as [H|H]; apply in_map_iff in H; destruct H as [x [Hx _]]; discriminate.
        -- congruence.
        -- apply in_flat_map in Ha. destruct Ha as [op [Hop Ha]]. unfold only_inserts in Honly. rewrite Forall_forall in Honly.
           specialize (Honly op Hop). destruct op as [o xs|b|]; try contradiction. cbn [occ_acts] in Ha.
           apply in_app_or in Ha. destruct Ha as [Ha|Ha]; apply in_map_iff in Ha; destruct Ha as [[b ps] [<- Hg]]; cbn [names fst] in Hna; subst b.
           ++ assert (T : existsb (same_bundle h q) pts = true); [|congruence].
              apply (existsb_bundle h pts q HL). rewrite <- EP.
              assert (HK : In (floors h q) (keys (accepted geo c true o xs))).
              { rewrite <- groups_keys. apply (in_map fst) in Hg. exact Hg. }
              apply keys_in in HK. destruct HK as [p Hp]. exists p. apply in_flat_map. exists (GInsert o xs). split; [exact Hop|exact Hp].
           ++ unfold freed in Hg. apply (Permutation_in _ (order_perm _)) in Hg.
              assert (Hg' : In (floors h q, ps) (add_all zero plus (visits sta c amount ray o (ends geo c o xs)) []) /\
                            negb (weighted && existsb (fun g => idx_eqb (fst g) (floors h q)) (ends geo c o xs)) = true).
              { destruct weighted; [|split; [exact Hg|reflexivity]]. apply filter_In in Hg. exact Hg. }
              destruct Hg' as [Hg1 Hg2]. apply add_all_in in Hg1. destruct Hg1 as [[a' Hg1]|[a' []]].
              apply (Hmiss o xs a' Hop). unfold scan_misses. apply filter_In. split; [exact Hg1|exact Hg2].
      * intros b Hb k Hk. rewrite (slot_content c m (floors h q) b k HInv); [f_equal; apply HVal; exact Hk| |exact Hb|exact Hk].
        rewrite Hsh. exact Hbd.
    + destruct (lookup_allocates c Hc (/ h) m q (floors h q) HInv HReg Eb Hu) as [m' [b [E1 [E2 [HI' [Hb' [_ [Hsame Hcon']]]]]]]].
      exists m', b. split; [exact E1|]. split; [exact E2|]. split.
      * rewrite Eg. intros Hne. apply Hsame. congruence.
      * intros k Hk. pose proof HI' as [_ [Hsh' _]].
        rewrite (slot_content c m' (floors h q) b k HI'); [|rewrite Hsh'; exact Hbd|exact Hb'|exact Hk].
        f_equal. rewrite Hcon' by exact Hk. apply HVal. exact Hk.
Qed.
End Occ.

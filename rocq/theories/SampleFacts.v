(** Facts about scoring points on reachable maps. *)
From Coq Require Import QArith Qround Qabs Lqa.
From Verif Require Import Base SeqModel SeqFacts IndexModel IndexFacts OctreeSpec OctreeModel OctreeFacts OctreeHist
  MapModel MapFacts MapHist BackendModel BackendFacts SysModel SysSpec SysFacts ExtentModel ExtentFacts
  SampleModel SampleSpec InterpFacts.
Open Scope Z_scope.

Section Scores.
Context {P : Type}.
Variable c : config P.

Lemma wrap16_idem (bi : idx) : length bi = dimc c -> wrap16 (wrap16 bi) = wrap16 bi.
Proof. intros H. apply (wrap16_id (dimc c)). apply wrap16_range. exact H. Qed.

Lemma oct_get_wrap {V : Type} (t : octree V) (n : nat) (i : idx) :
  otree_wf n (in_tree_range n) t -> key_computable n i -> octree_get t i = octree_get t (wrap16 i).
Proof.
  intros W Hi. destruct Hi as [HL Hr].
  rewrite (octree_get_spec n _ t i W (conj HL Hr)).
  rewrite (octree_get_spec n _ t (wrap16 i) W (in_range_computable _ _ (wrap16_range n i HL))).
  rewrite (otree_find_path t i (wrap16 i)); [reflexivity|].
  rewrite (path_wrap n i (wrap16 i) HL) by (rewrite wrap16_length; exact HL).
  rewrite (wrap16_id n (wrap16 i)) by (apply wrap16_range; exact HL). apply idx_eqb_refl.
Qed.

End Scores.

Lemma static_dom {P : Type} (c : config P) (m : cmap c) (bi : idx) :
  kindc c = Static -> cbget c m bi <> None -> cbdom c (cshape c m) bi.
Proof.
  revert m. destruct c as [dim kd size min g mn mx off df mg ex]. cbn [kindc]. intros m ->. revert m.
  unfold cmap, cbget, bget', cbdom, bdom, cshape, mshape, bdc, bbc.
  cbn [kindc dimc mergec dist_backend bundle_backend bundle_laws dist_laws array_laws shape dom snd array_backend bget].
  intros m H. cbn [fst snd]. destruct (arr_inside (a_size (bundles m)) (a_offset (bundles m)) bi); [reflexivity|contradiction].
Qed.

Lemma dynamic_wrap {P : Type} (c : config P) (m : cmap c) (bi : idx) :
  kindc c = Dynamic -> mwf (mergec c) merge_bundle (bdc c) (bbc c) (dist_laws (mergec c) (dimc c) (kindc c))
                           (bundle_laws (dimc c) (kindc c)) (dimc c) m -> key_computable (dimc c) bi ->
  bget (bbc c) (bundles m) bi = bget (bbc c) (bundles m) (wrap16 bi) /\
  cbdom c (cshape c m) (wrap16 bi).
Proof.
  revert m. destruct c as [dim kd size min g mn mx off df mg ex]. cbn [kindc]. intros m ->. revert m.
  unfold cmap, cbget, bget', cbdom, bdom, cshape, mshape, bdc, bbc.
  cbn [kindc dimc mergec dist_backend bundle_backend bundle_laws dist_laws octree_laws shape dom snd octree_backend bget].
  intros m [_ [_ Hw]] Hk. split.
  - apply (oct_get_wrap _ dim); assumption.
  - apply wrap16_range. apply Hk.
Qed.

Section Scores.
Context {P : Type}.
Variable c : config P.
Hypothesis Hc : config_ok c.
Notation gen := generate_index.
Notation bins_n := (bin_count (dimc c)).

Lemma place_bundle (m : cmap c) (bi : idx) :
  cInv c m -> region c 0 m -> addressable c bi -> cbundle c m bi = Ok (cbget c m (place c bi)).
Proof.
  intros HI HR [HL Hk]. pose proof HI as [[[Hwf _] _] [Hsh Hv]].
  unfold cbundle, get_bundle. fold (cvalid c m bi). rewrite Hv.
  pose proof (new_valid c Hc bi HL) as Hnv.
  destruct (kind_cases (kindc c)) as [E|E]; unfold place; rewrite E.
  - destruct (cvalid c (new_map c) bi) eqn:Ev.
    + pose proof (proj1 Hnv eq_refl E) as Hu. apply (bundle_at _ _ _ _ _ _ _ m bi Hwf).
      change (cbdom c (cshape c m) bi). rewrite Hsh. apply (usable_bdom c Hc 0); [lia|exact Hu].
    + destruct (cbget c m bi) as [b|] eqn:Eb; [|reflexivity]. exfalso.
      assert (Hne : cbget c m bi <> None) by congruence.
      pose proof (static_dom c m bi E Hne) as Hd. rewrite Hsh in Hd.
      pose proof (HR bi Hd Hne) as Hu. pose proof (usable_valid c Hc 0 bi ltac:(lia) Hu). congruence.
  - assert (Ev : cvalid c (new_map c) bi = true) by (apply Hnv; intros C; congruence). rewrite Ev.
    destruct (dynamic_wrap c m bi E Hwf (Hk E)) as [-> Hd].
    apply (bundle_at _ _ _ _ _ _ _ m _ Hwf). exact Hd.
Qed.

Lemma place_usable (bi : idx) : usable c 0 bi -> addressable c bi /\ place c bi = bi.
Proof.
  intros [HL Hu]. unfold addressable, place. destruct (kind_cases (kindc c)) as [E|E]; rewrite E in *.
  - split; [split; [exact HL|congruence]|reflexivity].
  - assert (Hr : in_tree_range (dimc c) bi) by (split; [exact HL|eapply Forall_impl; [|exact Hu]; cbn; intros; lia]).
    split; [split; [exact HL|intros _; apply in_range_computable; exact Hr]|]. apply (wrap16_id (dimc c)). exact Hr.
Qed.

(** The score of bundle [b] with slot weights [w]. *)
Variable dsample : P -> list Q -> Q.
Definition score (m : cmap c) (b : idx) (w : nat -> Q) (p : list Q) : Q :=
  fold_left (fun acc i => (acc + w i * dsample (ccontent c m i (gen b i)) p)%Q) (seq 0 bins_n) 0%Q.

Lemma weighted_sum_spec (m : cmap c) (b : idx) (bd : bundle) (w : nat -> Q) (p : list Q) :
  cInv c m -> cbdom c (cshape c m) b -> cbget c m b = Some bd ->
  weighted_sum c dsample m bd w p = Ok (score m b w p).
Proof.
  intros [[[Hwf HInv] _] _] Hd Hb. destruct (HInv b bd Hd Hb) as [Hok [Hsl Hex]].
  unfold weighted_sum, score. rewrite Hsl. unfold full_slots.
  assert (Hgen : forall l acc, (forall i, In i l -> (i < bins_n)%nat) ->
    ofold (fun acc i => match nth_error (map (fun i => Some (gen b i)) (seq 0 bins_n)) i with
           | None => UB
           | Some sl => let* d := slot_value (bdc c) (bbc c) m i sl in
               Ok (acc + w i * match d with Some v => dsample v p | None => 0 end)%Q end) l acc =
    Ok (fold_left (fun acc i => (acc + w i * dsample (ccontent c m i (gen b i)) p)%Q) l acc)).
  { induction l as [|i l IH]; intros acc Hl; [reflexivity|]. cbn [ofold fold_left].
    assert (Hi : (i < bins_n)%nat) by (apply Hl; left; reflexivity).
    rewrite nth_error_map, (nth_error_nth' (seq 0 bins_n) 0%nat) by (rewrite seq_length; exact Hi).
    rewrite seq_nth by exact Hi. cbn [option_map Nat.add].
    unfold slot_value. destruct Hok as [_ [_ Hdd]].
    destruct (store_at _ _ _ _ _ _ _ m i (gen b i) Hwf (Hdd i Hi)) as [s [Hs [_ [_ Hg]]]].
    unfold get_store. rewrite Hs. cbn [obind]. rewrite Hg. cbn [obind].
    destruct (Hex i Hi) as [v Hvv]. rewrite Hvv. cbn [obind].
    rewrite IH by (intros k Hk; apply Hl; right; exact Hk).
    unfold ccontent, content. rewrite Hvv. reflexivity. }
  apply Hgen. intros i Hi. apply in_seq in Hi. lia.
Qed.

(** All sampling functions have this value. *)
Definition sampled (m : cmap c) (bi : idx) (w : nat -> Q) (p : list Q) : Q :=
  match cbget c m (place c bi) with Some _ => score m (place c bi) w p | None => 0%Q end.

Lemma bundle_dom (m : cmap c) (bi : idx) :
  cInv c m -> addressable c bi -> cbget c m (place c bi) <> None -> cbdom c (cshape c m) (place c bi).
Proof.
  intros HI [HL Hk] Hne. unfold place in *. destruct (kind_cases (kindc c)) as [E|E]; rewrite E in *.
  - apply static_dom; assumption.
  - destruct HI as [[[Hwf _] _] _]. apply (dynamic_wrap c m bi E Hwf (Hk eq_refl)).
Qed.

Lemma sample_at_spec (m : cmap c) (p : list Q) (bi : idx) :
  cInv c m -> region c 0 m -> addressable c bi ->
  sample_at c dsample m p bi = Ok (sampled m bi (fun _ => div_count c) p).
Proof.
  intros HI HR Ha. unfold sample_at, sampled. rewrite (place_bundle m bi HI HR Ha). cbn [obind].
  pose proof (bundle_dom m bi HI Ha) as Hd.
  destruct (cbget c m (place c bi)) as [b|] eqn:Eb; [|reflexivity].
  apply weighted_sum_spec; [exact HI|apply Hd; discriminate|exact Eb].
Qed.

Lemma sample_bilinear_at_spec (inv : Q) (m : cmap c) (p : list Q) (bi : idx) :
  cInv c m -> region c 0 m -> addressable c bi ->
  sample_bilinear_at c inv dsample m p bi =
    Ok (sampled m bi (to_bilinear_interpolation_weight (get_bilinear_interpolation_weights bi p inv)) p).
Proof.
  intros HI HR Ha. unfold sample_bilinear_at, sampled. rewrite (place_bundle m bi HI HR Ha). cbn [obind].
  pose proof (bundle_dom m bi HI Ha) as Hd.
  destruct (cbget c m (place c bi)) as [b|] eqn:Eb; [|reflexivity].
  apply weighted_sum_spec; [exact HI|apply Hd; discriminate|exact Eb].
Qed.

Lemma score_sum (m : cmap c) (b : idx) (w : nat -> Q) (p : list Q) :
  (score m b w p == qsum (map (fun i => w i * dsample (ccontent c m i (gen b i)) p) (seq 0 (2 ^ dimc c))))%Q.
Proof.
  unfold score. rewrite two_pow_spec.
  assert (H : forall l acc, (fold_left (fun acc i => acc + w i * dsample (ccontent c m i (gen b i)) p) l acc ==
            acc + qsum (map (fun i => w i * dsample (ccontent c m i (gen b i)) p) l))%Q).
  { induction l as [|i l IH]; intros acc; cbn [fold_left map]; unfold qsum; cbn [fold_right]; [ring|].
    rewrite IH. unfold qsum. ring. }
  rewrite H. ring.
Qed.

(** A convex combination of numbers in [0,1]. *)
Lemma convex_unit (w f : nat -> Q) (l : list nat) :
  (forall i, In i l -> (0 <= w i)%Q) -> (qsum (map w l) == 1)%Q ->
  (forall i, In i l -> unit_interval (f i)) -> unit_interval (qsum (map (fun i => w i * f i)%Q l)).
Proof.
  intros Hw Hs Hf. split.
  - clear Hs. induction l as [|i l IH]; [apply Qle_refl|]. cbn [map]. unfold qsum in *; cbn [fold_right].
    assert (0 <= w i * f i)%Q by (apply Qmult_le_0_compat; [apply Hw; left; reflexivity|apply Hf; left; reflexivity]).
    assert (0 <= fold_right Qplus 0 (map (fun i => w i * f i) l))%Q
      by (apply IH; intros k Hk; [apply Hw|apply Hf]; right; exact Hk). lra.
  - rewrite <- Hs. apply qsum_le. intros i Hi. destruct (Hf i Hi) as [A B].
    rewrite <- (Qmult_1_r (w i)) at 2. rewrite !(Qmult_comm (w i)). apply Qmult_le_compat_r; [exact B|apply Hw; exact Hi].
Qed.

Lemma qsum_const (x : Q) (n : nat) (from : nat) : (qsum (map (fun _ => x) (seq from n)) == inject_Z (Z.of_nat n) * x)%Q.
Proof.
  revert from; induction n as [|n IH]; intros from; [cbn [seq map Z.of_nat]; unfold qsum; cbn [fold_right]; change (inject_Z 0) with 0%Q; ring|]. cbn [seq map]. unfold qsum in *; cbn [fold_right].
  rewrite IH, Nat2Z.inj_succ. unfold Z.succ. rewrite inject_Z_plus. change (inject_Z 1) with 1%Q. ring.
Qed.

Lemma div_count_pos : (0 < div_count c)%Q.
Proof.
  unfold div_count. rewrite two_pow_spec. apply Qlt_shift_div_l; [|lra].
  change 0%Q with (inject_Z 0). rewrite <- Zlt_Qlt. pose proof (Nat.pow_nonzero 2 (dimc c)). lia.
Qed.
Lemma div_count_sum : (qsum (map (fun _ => div_count c) (seq 0 (2 ^ dimc c))) == 1)%Q.
Proof.
  rewrite qsum_const. unfold div_count. rewrite two_pow_spec. field.
  change 0%Q with (inject_Z 0). intros E. unfold Qeq in E. cbn in E. pose proof (Nat.pow_nonzero 2 (dimc c)). lia.
Qed.

Lemma stored_content (m : cmap c) (b : idx) (i : nat) :
  cInv c m -> cbdom c (cshape c m) b -> cbget c m b <> None -> (i < 2 ^ dimc c)%nat ->
  cstored c m i (gen b i) = Ok (Some (ccontent c m i (gen b i))).
Proof.
  intros HI Hd Hne Hi. pose proof HI as [[[Hwf HInv] _] _].
  destruct (cbget c m b) as [bd|] eqn:Eb; [|contradiction].
  destruct (HInv b bd Hd Eb) as [[_ [_ Hdd]] [_ Hex]]. rewrite <- two_pow_spec in Hi.
  destruct (store_at _ _ _ _ _ _ _ m i (gen b i) Hwf (Hdd i Hi)) as [s [Hs [_ [_ Hg]]]].
  unfold cstored, stored, get_store. rewrite Hs. cbn [obind]. rewrite Hg.
  destruct (Hex i Hi) as [v Hv]. unfold ccontent, content. rewrite Hv. reflexivity.
Qed.

Lemma sampled_unit (m : cmap c) (bi : idx) (w : nat -> Q) (p : list Q) :
  cInv c m -> addressable c bi ->
  (forall i, (i < 2 ^ dimc c)%nat -> (0 <= w i)%Q) -> (qsum (map w (seq 0 (2 ^ dimc c))) == 1)%Q ->
  (forall i j v, cstored c m i j = Ok (Some v) -> unit_interval (dsample v p)) ->
  unit_interval (sampled m bi w p).
Proof.
  intros HI Ha Hw Hs Hd. unfold sampled. pose proof (bundle_dom m bi HI Ha) as Hbd.
  destruct (cbget c m (place c bi)) as [b|] eqn:Eb; [|split; lra].
  specialize (Hbd ltac:(discriminate)).
  unfold unit_interval. rewrite score_sum. apply convex_unit.
  - intros i Hi. apply in_seq in Hi. apply Hw. lia.
  - exact Hs.
  - intros i Hi. apply in_seq in Hi. apply (Hd i (gen (place c bi) i)).
    apply stored_content; [exact HI|exact Hbd|congruence|lia].
Qed.

End Scores.

(** ** The allocating lookup *)
Section Touch.
Context {P : Type}.
Variable c : config P.
Hypothesis Hc : config_ok c.
Notation gen := generate_index.

Lemma touch_spec (k : Z) (m : cmap c) (bi : idx) :
  cInv c m -> 0 <= k -> region c k m -> act_fits c k (Touch bi) ->
  exists m', cact c m (Touch bi) = Ok m' /\ cInv c m' /\ region c k m' /\
    (forall i j, cddom c (cshape c (new_map c)) i j ->
       cdget c m' i j = if cvalid c m bi && idx_eqb (gen bi i) j
                        then Some (ccontent c m i j) else cdget c m i j) /\
    (forall b, cbdom c (cshape c (new_map c)) b -> b <> bi -> cbget c m' b = cbget c m b) /\
    (cbget c m bi <> None \/ cvalid c m bi = false -> m' = m).
Proof.
  intros HI Hk HR Hf. pose proof HI as [HA [Hsh Hv]].
  destruct (cact_spec c Hc k m (Touch bi) HI ltac:(cbn [expansions]; lia) HR Hf) as [m' [E [HI' [HR' _]]]].
  cbn [expansions] in HR'. rewrite Z.sub_0_r in HR'.
  exists m'. split; [exact E|]. split; [exact HI'|]. split; [exact HR'|].
  unfold cact, MapModel.act, getDistributionBundle in E. fold (cvalid c m bi) in E.
  destruct (cvalid c m bi) eqn:Ev.
  - assert (Hok : cokidx c (cshape c m) bi).
    { rewrite Hsh. destruct Hf as [HL Hf]. rewrite Hv, (new_valid c Hc bi HL) in Ev.
      destruct (kind_cases (kindc c)) as [K|K].
      - apply (usable_okidx c Hc 0); [lia|]. apply Ev; exact K.
      - apply (usable_okidx c Hc k); [exact Hk|]. apply Hf; exact K. }
    destruct (getAllocate_all (defaultc c) _ _ _ _ _ _ _ (kindc c) (aminc c) (amaxc c) _ (box c) (box_step c) m bi HA Hok)
      as [m1 [E1 [_ [_ [_ [Ho [Hs [_ Heff]]]]]]]].
    rewrite E1 in E. cbn [obind fst] in E. injection E as <-.
    destruct Heff as [_ [_ [_ [Hd _]]]]. fold (cshape c m) in Ho, Hd. rewrite Hsh in Ho, Hd.
    split; [|split].
    + intros i j Hij. cbn [andb]. unfold cdget. rewrite (Hd i j Hij). reflexivity.
    + intros b Hb Hn. apply Ho; [exact Hb|congruence].
    + intros [H|H]; [|discriminate]. unfold cbget in H.
      destruct (bget' (bdc c) (bbc c) m bi) as [b|] eqn:Eb; [|contradiction]. apply (Hs b eq_refl).
  - cbn [obind fst] in E. injection E as <-. split; [reflexivity|]. split; reflexivity.
Qed.

Lemma usable_touch (k : Z) (bi : idx) : usable c k bi -> act_fits c k (Touch bi).
Proof. intros H. split; [apply H|auto]. Qed.

Lemma fits_app_touch (l : list (map_action (P:=P))) (bi : idx) :
  fits c (l ++ [Touch bi]) -> fits c l /\ Forall (act_fits c (expansions l)) l /\ act_fits c 0 (Touch bi).
Proof.
  unfold fits. rewrite expansions_app. cbn [expansions]. rewrite Z.add_0_r, Forall_app. intros [A B].
  split; [exact A|]. split; [exact A|]. inversion B as [|? ? H _]; subst. destruct H as [H1 H2]. split; [exact H1|].
  intros K. eapply usable_le; [apply (expansions_nonneg l)|]. apply H2; exact K.
Qed.

Lemma score_ext (dsample : P -> list Q -> Q) (m m' : cmap c) (b : idx) (w : nat -> Q) (p : list Q) :
  (forall i, (i < bin_count (dimc c))%nat -> ccontent c m' i (gen b i) = ccontent c m i (gen b i)) ->
  score c dsample m' b w p = score c dsample m b w p.
Proof.
  intros H. unfold score. revert H. generalize 0%Q.
  assert (G : forall l acc, (forall i, In i l -> (i < bin_count (dimc c))%nat) ->
     (forall i, (i < bin_count (dimc c))%nat -> ccontent c m' i (gen b i) = ccontent c m i (gen b i)) ->
     fold_left (fun acc i => (acc + w i * dsample (ccontent c m' i (gen b i)) p)%Q) l acc =
     fold_left (fun acc i => (acc + w i * dsample (ccontent c m i (gen b i)) p)%Q) l acc).
  { induction l as [|i l IH]; intros acc Hl H; [reflexivity|]. cbn [fold_left].
    rewrite (H i (Hl i (or_introl eq_refl))). apply IH; [|exact H]. intros k Hk. apply Hl. right; exact Hk. }
  intros q H. apply G; [|exact H]. intros i Hi. apply in_seq in Hi. lia.
Qed.

Lemma sampled_touch (dsample : P -> list Q -> Q) (m m' : cmap c) (bi b : idx) (w : nat -> Q) (p : list Q) :
  cInv c m -> cInv c m' -> addressable c b -> place c b <> bi ->
  (forall i j, cddom c (cshape c (new_map c)) i j ->
       cdget c m' i j = if cvalid c m bi && idx_eqb (gen bi i) j
                        then Some (ccontent c m i j) else cdget c m i j) ->
  (forall x, cbdom c (cshape c (new_map c)) x -> x <> bi -> cbget c m' x = cbget c m x) ->
  sampled c dsample m' b w p = sampled c dsample m b w p.
Proof.
  intros HI HI' Ha Hne Hd Hb. unfold sampled.
  pose proof HI as [[[Hwf HInv] _] [Hsh _]]. pose proof HI' as [_ [Hsh' _]].
  assert (Heq : cbget c m' (place c b) = cbget c m (place c b)).
  { destruct (kind_cases (kindc c)) as [K|K].
    - destruct (cbget c m (place c b)) as [x|] eqn:E1; destruct (cbget c m' (place c b)) as [y|] eqn:E2; try reflexivity.
      + rewrite <- E1, <- E2. apply Hb; [|exact Hne]. rewrite <- Hsh. apply static_dom; [exact K|congruence].
      + rewrite <- E1, <- E2. apply Hb; [|exact Hne]. rewrite <- Hsh. apply static_dom; [exact K|congruence].
      + rewrite <- E1, <- E2. apply Hb; [|exact Hne]. rewrite <- Hsh'. apply static_dom; [exact K|congruence].
    - apply Hb; [|exact Hne]. rewrite <- Hsh. unfold place. rewrite K.
      apply (dynamic_wrap c m b K Hwf). apply Ha. exact K. }
  rewrite Heq. destruct (cbget c m (place c b)) as [x|] eqn:E; [|reflexivity].
  apply score_ext. intros i Hi.
  assert (Hdom : cbdom c (cshape c m) (place c b)) by (apply (bundle_dom c m b HI Ha); congruence).
  destruct (HInv (place c b) x Hdom E) as [[_ [_ Hdd]] [_ Hex]].
  unfold ccontent at 1, content. fold (cdget c m' i (gen (place c b) i)). rewrite Hd.
  - destruct (cvalid c m bi && idx_eqb (gen bi i) (gen (place c b) i)); reflexivity.
  - fold (cshape c m) in Hdd. rewrite Hsh in Hdd. apply Hdd; exact Hi.
Qed.

Lemma lookup_history (l : list (map_action (P:=P))) (bi : idx) :
  fits c (l ++ [Touch bi]) ->
  exists m m', cact_all c l (new_map c) = Ok m /\ cact c m (Touch bi) = Ok m' /\
    (forall i j, cell_exists c i j -> exists o, cstored c m i j = Ok o /\
       (cstored c m' i j = Ok o \/
        o = None /\ cstored c m' i j = Ok (Some (defaultc c)) /\ gen bi i = j)) /\
    ((exists b, usable c 0 bi /\ cbundle c m bi = Ok (Some b)) \/ cvalid c m bi = false -> m' = m) /\
    (forall dsample inv p b, addressable c b -> place c b <> bi ->
       sample_at c dsample m' p b = sample_at c dsample m p b /\
       sample_bilinear_at c inv dsample m' p b = sample_bilinear_at c inv dsample m p b).
Proof.
  intros Hf. destruct (fits_app_touch l bi Hf) as [Hfl [_ Ht]].
  destruct (run_spec c Hc l Hfl) as [m [E [HI [HR _]]]].
  destruct (touch_spec 0 m bi HI ltac:(lia) HR Ht) as [m' [E' [HI' [HR' [Hd [Hb Hs]]]]]].
  exists m, m'. split; [exact E|]. split; [exact E'|]. split; [|split].
  - intros i j Hij. exists (cdget c m i j). split; [apply cstored_spec; assumption|].
    rewrite (cstored_spec c Hc m' i j HI' Hij). pose proof (cell_ddom c Hc i j Hij) as Hdd. rewrite (Hd i j Hdd).
    destruct (cvalid c m bi && idx_eqb (gen bi i) j) eqn:Ec; [|left; reflexivity].
    apply andb_prop in Ec. destruct Ec as [_ Ec]. destruct (idx_eqb_spec (gen bi i) j) as [Eg|]; [|discriminate].
    unfold ccontent, content. fold (cdget c m i j). destruct (cdget c m i j); [left; reflexivity|].
    right. auto.
  - intros [[b [Hu Hbb]]|Hv]; apply Hs; [left|right; exact Hv].
    rewrite (cbundle_spec c Hc m bi HI Hu) in Hbb. congruence.
  - intros dsample inv p b Ha Hne.
    rewrite !sample_at_spec, !sample_bilinear_at_spec by assumption.
    rewrite !(sampled_touch dsample m m' bi b _ p HI HI' Ha Hne Hd Hb). split; reflexivity.
Qed.

(** ** Scores after a history *)
Lemma addressable_point (h : Q) (p : list Q) :
  (0 < h)%Q -> length p = dimc c ->
  (forall d, (d < dimc c)%nat -> (inject_Z INT_MIN * h <= nth d p 0 /\ nth d p 0 < inject_Z (INT_MAX - 32767) * h)%Q) ->
  exists bi, toBundleIndex (/ h) p = Ok bi /\ addressable c bi /\ inside bi p (/ h).
Proof.
  intros Hh HL Hp. destruct (index_of_point h p Hh) as [[bi [E [Lb Hbi]]]|[_ [d [Hd [H|H]]]]].
  - exists bi. split; [exact E|]. split; [|apply index_inside; assumption].
    split; [congruence|]. intros _. split; [congruence|]. apply Forall_forall. intros z Hz.
    apply (In_nth _ _ 0) in Hz. destruct Hz as [d [Hd <-]].
    destruct (Hbi d ltac:(lia)) as [A B]. destruct (Hp d ltac:(lia)) as [C D].
    assert (X : (inject_Z (nth d bi 0%Z) * h < inject_Z (INT_MAX - 32767) * h)%Q) by lra.
    assert (Y : (inject_Z INT_MIN * h < (inject_Z (nth d bi 0%Z) + 1) * h)%Q) by lra.
    apply Qmult_lt_r in X; [|exact Hh]. apply Qmult_lt_r in Y; [|exact Hh].
    change 1%Q with (inject_Z 1) in Y. rewrite <- inject_Z_plus in Y. rewrite <- Zlt_Qlt in X, Y.
    unfold INT_MIN, INT_MAX in *. lia.
  - exfalso. destruct (Hp d ltac:(lia)) as [C D]. lra.
  - exfalso. destruct (Hp d ltac:(lia)) as [C D].
    assert (X : (inject_Z (INT_MAX - 32767) * h <= (inject_Z INT_MAX + 1) * h)%Q).
    { apply Qmult_le_compat_r; [|lra]. change 1%Q with (inject_Z 1). rewrite <- inject_Z_plus, <- Zle_Qle. unfold INT_MAX; lia. }
    lra.
Qed.

Lemma scores_unit (dsample : P -> list Q -> Q) (h : Q) (l : list (map_action (P:=P))) (m : cmap c) (p : list Q) :
  fits c l -> cact_all c l (new_map c) = Ok m -> (0 < h)%Q -> length p = dimc c ->
  (forall d, (d < dimc c)%nat -> (inject_Z INT_MIN * h <= nth d p 0 /\ nth d p 0 < inject_Z (INT_MAX - 32767) * h)%Q) ->
  (forall i j v, cstored c m i j = Ok (Some v) -> unit_interval (dsample v p)) ->
  (exists s, sampleNonNormalized c (/ h) dsample m p = Ok s /\ unit_interval s) /\
  (exists s, sampleNonNormalizedBilinear c (/ h) dsample m p = Ok s /\ unit_interval s).
Proof.
  intros Hf E Hh HL Hp Hd. destruct (run_spec c Hc l Hf) as [m0 [E0 [HI [HR _]]]].
  assert (m0 = m) by congruence. subst m0.
  destruct (addressable_point h p Hh HL Hp) as [bi [Eb [Ha Hin]]].
  unfold sampleNonNormalized, sampleNonNormalizedBilinear. rewrite Eb. cbn [obind].
  rewrite sample_at_spec, sample_bilinear_at_spec by assumption. split; eexists; (split; [reflexivity|]).
  - apply sampled_unit; try assumption; [|apply div_count_sum].
    intros i _. apply Qlt_le_weak, div_count_pos.
  - apply sampled_unit; try assumption.
    + intros i _. apply (weight_unit bi p (/ h) i Hin).
    + rewrite <- HL, <- (get_weights_length bi p (/ h)). apply weights_sum.
Qed.

(** Exact value of a score. *)
Lemma scores_value (dsample : P -> list Q -> Q) (h : Q) (l : list (map_action (P:=P))) (m : cmap c) (p : list Q) (bi : idx) :
  fits c l -> cact_all c l (new_map c) = Ok m -> (0 < h)%Q -> toBundleIndex (/ h) p = Ok bi -> usable c 0 bi ->
  match cbundle c m bi with
  | Ok None => sampleNonNormalized c (/ h) dsample m p = Ok 0%Q /\
               sampleNonNormalizedBilinear c (/ h) dsample m p = Ok 0%Q
  | Ok (Some _) =>
      exists v s t,
        (forall k, (k < 2 ^ dimc c)%nat -> cstored c m k (gen bi k) = Ok (Some (v k))) /\
        sampleNonNormalized c (/ h) dsample m p = Ok s /\
        (s == qsum (map (fun k => dsample (v k) p) (seq 0 (2 ^ dimc c))) / inject_Z (2 ^ Z.of_nat (dimc c)))%Q /\
        sampleNonNormalizedBilinear c (/ h) dsample m p = Ok t /\
        (t == qsum (map (fun k => cell_hat k (gen bi k) (map (fun x => x * / h)%Q p) * dsample (v k) p) (seq 0 (2 ^ dimc c))))%Q
  | _ => False
  end.
Proof.
  intros Hf E Hh Eb Hu. destruct (run_spec c Hc l Hf) as [m0 [E0 [HI [HR _]]]].
  assert (m0 = m) by congruence. subst m0.
  destruct (place_usable c bi Hu) as [Ha Hpl].
  unfold sampleNonNormalized, sampleNonNormalizedBilinear. rewrite Eb. cbn [obind].
  rewrite sample_at_spec, sample_bilinear_at_spec by assumption. unfold sampled.
  rewrite (place_bundle c Hc m bi HI HR Ha), Hpl.
  pose proof (bundle_dom c m bi HI Ha) as Hbd. rewrite Hpl in Hbd.
  destruct (cbget c m bi) as [b|] eqn:Ebb; [|split; reflexivity].
  specialize (Hbd ltac:(discriminate)).
  exists (fun k => ccontent c m k (gen bi k)). do 2 eexists. split; [|split; [reflexivity|split; [|split; [reflexivity|]]]].
  - intros k Hk. apply stored_content; [exact HI|exact Hbd|congruence|exact Hk].
  - rewrite score_sum. unfold div_count. rewrite two_pow_spec, Nat2Z.inj_pow. change (Z.of_nat 2) with 2.
    set (n := inject_Z (2 ^ Z.of_nat (dimc c))). unfold Qdiv. clearbody n.
    induction (seq 0 (2 ^ dimc c)) as [|k ks IH]; cbn [map]; unfold qsum in *; cbn [fold_right]; [ring|].
    rewrite IH. ring.
  - rewrite score_sum. apply qsum_ext. intros k _.
    rewrite (weight_hat bi p (/ h) k (index_inside h p bi Hh Eb)). reflexivity.
Qed.

Lemma scores_outside (dsample : P -> list Q -> Q) (h : Q) (l : list (map_action (P:=P))) (m : cmap c) (p : list Q) (bi : idx) :
  kindc c = Static -> fits c l -> cact_all c l (new_map c) = Ok m ->
  length p = dimc c -> toBundleIndex (/ h) p = Ok bi -> ~ usable c 0 bi ->
  sampleNonNormalized c (/ h) dsample m p = Ok 0%Q /\ sampleNonNormalizedBilinear c (/ h) dsample m p = Ok 0%Q.
Proof.
  intros K Hf E HL Eb Hn. destruct (run_spec c Hc l Hf) as [m0 [E0 [HI [HR _]]]].
  assert (m0 = m) by congruence. subst m0.
  assert (Lb : length bi = dimc c).
  { rewrite <- HL. clear -Eb. unfold toBundleIndex in Eb. revert bi Eb. induction p as [|x p IH]; intros bi Eb; cbn [omap] in Eb.
    - injection Eb as <-. reflexivity.
    - destruct (to_int (Qfloor (x * / h))); cbn [obind] in Eb; try discriminate.
      destruct (omap _ p) as [r| |] eqn:Er; cbn [obind] in Eb; try discriminate. injection Eb as <-.
      cbn [length]. f_equal. apply IH. reflexivity. }
  assert (Ev : cvalid c m bi = false).
  { destruct HI as [_ [_ Hv]]. rewrite Hv. destruct (cvalid c (new_map c) bi) eqn:Ev; [|reflexivity].
    exfalso. apply Hn. apply (new_valid c Hc bi Lb); assumption. }
  unfold sampleNonNormalized, sampleNonNormalizedBilinear. rewrite Eb. cbn [obind].
  unfold sample_at, sample_bilinear_at, cbundle, get_bundle. fold (cvalid c m bi). rewrite Ev. split; reflexivity.
Qed.

Lemma unit_mult (a b : Q) : unit_interval a -> unit_interval b -> unit_interval (a * b).
Proof.
  intros [A0 A1] [B0 B1]. split; [apply Qmult_le_0_compat; assumption|].
  apply Qle_trans with (1 * b)%Q; [apply Qmult_le_compat_r; assumption|lra].
Qed.

Lemma occ_scores_unit {D M : Type} (inner : P -> option D) (sample : D -> list Q -> Q) (occupancy : M -> P -> Q) (h : Q)
  (l : list (map_action (P:=P))) (m : cmap c) (p : list Q) (ivm : M) :
  fits c l -> cact_all c l (new_map c) = Ok m -> (0 < h)%Q -> length p = dimc c ->
  (forall d, (d < dimc c)%nat -> (inject_Z INT_MIN * h <= nth d p 0 /\ nth d p 0 < inject_Z (INT_MAX - 32767) * h)%Q) ->
  (forall s, unit_interval (sample s p)) -> (forall v, unit_interval (occupancy ivm v)) ->
  (exists s, occ_sampleNonNormalized c (/ h) inner sample occupancy m p (Some ivm) = Ok s /\ unit_interval s) /\
  (exists s, occ_sampleNonNormalizedBilinear c (/ h) inner sample occupancy m p (Some ivm) = Ok s /\ unit_interval s) /\
  occ_sampleNonNormalized c (/ h) inner sample occupancy m p None = Throw /\
  occ_sampleNonNormalizedBilinear c (/ h) inner sample occupancy m p None = Throw.
Proof.
  intros Hf E Hh HL Hp Hs Ho.
  destruct (scores_unit (occ_contribution inner sample occupancy ivm) h l m p Hf E Hh HL Hp) as [A B].
  { intros i j v _. unfold occ_contribution. destruct (inner v); [apply unit_mult; auto|split; lra]. }
  destruct (addressable_point h p Hh HL Hp) as [bi [Eb _]].
  unfold occ_sampleNonNormalized, occ_sampleNonNormalizedBilinear, sampleNonNormalized, sampleNonNormalizedBilinear in *.
  rewrite Eb in *. cbn [obind] in *. auto.
Qed.

End Touch.

(** Index range of dynamic maps and completion of partially allocated bundles. *)
From Verif Require Import Base SeqModel SeqFacts IndexModel IndexFacts OctreeSpec OctreeModel OctreeFacts
  MapModel MapFacts MapHist BackendModel BackendFacts SysModel SysSpec SysFacts.
Open Scope Z_scope.

Section Life.
Context {P : Type}.
Variable c : config P.
Hypothesis Hc : config_ok c.

(** ** The list of bundles *)
Lemma cbundles_spec (m : cmap c) :
  cInv c m -> exists bs, cbundles c m = Ok bs /\ NoDup (map fst bs) /\
    forall bi b, In (bi, b) bs <-> cbdom c (cshape c (new_map c)) bi /\ cbget c m bi = Some b.
Proof.
  intros [[[Hwf _] _] [Hsh _]]. destruct (bundle_list _ _ _ _ _ _ _ m Hwf) as [es [E [Hn Hin]]].
  exists es. split; [exact E|]. split; [exact Hn|]. intros bi b. rewrite Hin.
  fold (cshape c m). rewrite Hsh. reflexivity.
Qed.

Lemma cbundles_in (m : cmap c) (bs : list (idx * bundle)) :
  cInv c m -> cbundles c m = Ok bs ->
  forall bi, In bi (map fst bs) <-> has_b c m bi.
Proof.
  intros HI E. destruct (cbundles_spec m HI) as [bs' [E' [_ Hin]]]. rewrite E in E'. injection E' as <-.
  intros bi. unfold has_b. destruct HI as [_ [Hsh _]]. rewrite Hsh. rewrite in_map_iff. split.
  - intros [[bi' b] [He Hb]]. cbn in He; subst bi'. apply Hin in Hb. destruct Hb as [A B].
    split; [exact A|congruence].
  - intros [A B]. destruct (cbget c m bi) as [b|] eqn:Eb; [|contradiction].
    exists (bi, b). split; [reflexivity|]. apply Hin. auto.
Qed.

(** Bounding box of a non-empty list of indices. *)
Definition bounds (n : nat) (bs : list idx) (lo hi : idx) : Prop :=
  length lo = n /\ length hi = n /\
  forall d, (d < n)%nat ->
    (forall b, In b bs -> nth d lo 0 <= nth d b 0 <= nth d hi 0) /\
    (exists b, In b bs /\ nth d b 0 = nth d lo 0) /\
    (exists b, In b bs /\ nth d b 0 = nth d hi 0).

Lemma range_history (l : list (map_action (P:=P))) :
  aminc c = cw_min -> amaxc c = cw_max -> kindc c = Dynamic -> fits c l ->
  exists m bs, cact_all c l (new_map c) = Ok m /\ cbundles c m = Ok bs /\
    (bs <> [] -> bounds (dimc c) (map fst bs) (min_bi m) (max_bi m)) /\
    (bs = [] -> min_bi m = repeat INT_MAX (dimc c) /\ max_bi m = repeat INT_MIN (dimc c)) /\
    ((0 < dimc c)%nat -> (map_empty c m = true <-> bs = [])).
Proof.
  intros Ha Hb Hk Hf. destruct (run_spec c Hc l Hf) as [m [E [HI [HR _]]]].
  destruct (cbundles_spec m HI) as [bs [Eb _]]. exists m, bs. split; [exact E|]. split; [exact Eb|].
  pose proof (cbundles_in m bs HI Eb) as Hin.
  pose proof HI as [[_ [_ [_ Hbox]]] [Hsh _]]. destruct (Hbox Ha Hb Hk) as [L1 [L2 HQ]].
  assert (Hrange : forall b d, has_b c m b -> (d < dimc c)%nat -> -32768 <= nth d b 0 <= 32767).
  { intros b d [Hbd Hb'] Hd. rewrite Hsh in Hbd. specialize (HR b Hbd Hb'). unfold usable in HR. rewrite Hk in HR.
    destruct HR as [HL HF]. rewrite Forall_forall in HF.
    specialize (HF (nth d b 0) ltac:(apply nth_In; lia)). lia. }
  assert (Hnone : bs = [] -> forall b, ~ has_b c m b) by (intros -> b H; apply Hin in H; exact H).
  assert (Hall : bs = [] -> forall d, (d < dimc c)%nat -> nth d (min_bi m) 0 = INT_MAX /\ nth d (max_bi m) 0 = INT_MIN).
  { intros H d Hd. destruct (HQ d Hd) as [_ [[B|[b [B _]]] [C|[b' [C _]]]]]; try (exfalso; eapply Hnone; eassumption).
    auto. }
  assert (Hsome : bs <> [] -> exists b, has_b c m b).
  { intros H. destruct bs as [|[b x] bs']; [congruence|]. exists b. apply Hin. left; reflexivity. }
  split; [|split].
  - intros Hne. destruct (Hsome Hne) as [b0 Hb0]. split; [exact L1|]. split; [exact L2|]. intros d Hd.
    destruct (HQ d Hd) as [A [B C]]. pose proof (A b0 Hb0) as A0. pose proof (Hrange b0 d Hb0 Hd) as R0.
    unfold INT_MAX, INT_MIN in *.
    split; [intros b Hbin; apply A, Hin, Hbin|]. split.
    + destruct B as [B|[b [B1 B2]]]; [lia|]. exists b. split; [apply Hin; exact B1|exact B2].
    + destruct C as [B'|[b [B1 B2]]]; [lia|]. exists b. split; [apply Hin; exact B1|exact B2].
  - intros He. split; apply (nth_ext _ _ 0 0); rewrite ?repeat_length; try assumption; intros d Hd;
      rewrite nth_repeat_lt by lia; apply (Hall He d); lia.
  - intros Hd0. unfold map_empty. rewrite Z.eqb_eq. split.
    + intros H. destruct bs as [|[b x] bs'] eqn:Ebs; [reflexivity|]. exfalso.
      destruct (Hsome ltac:(congruence)) as [b0 Hb0]. destruct (HQ 0%nat Hd0) as [A _].
      specialize (A b0 Hb0). pose proof (Hrange b0 0%nat Hb0 Hd0). unfold INT_MAX in *. lia.
    + intros He. apply (Hall He 0%nat Hd0).
Qed.

(** ** Completion *)
Lemma gen_same_neighbour (i : nat) (a b : idx) :
  length a = length b -> generate_index a i = generate_index b i ->
  exists o, idx_add a o = b /\ length o = length a /\ Forall (fun z => -1 <= z <= 1) o.
Proof.
  intros HL HG.
  assert (Hn : forall d, (d < length a)%nat -> -1 <= nth d b 0 - nth d a 0 <= 1).
  { intros d Hd. assert (H : nth d (generate_index a i) 0 = nth d (generate_index b i) 0) by congruence.
    rewrite !generate_index_nth in H by lia. destruct (Nat.testbit i d); Z.div_mod_to_equations; lia. }
  clear HG. revert b HL Hn; induction a as [|x a IH]; intros [|y b] HL Hn; cbn [length] in *; try lia.
  - exists []. auto.
  - destruct (IH b ltac:(lia)) as [o [H1 [H2 H3]]].
    { intros d Hd. apply (Hn (S d)). lia. }
    specialize (Hn 0%nat ltac:(lia)). cbn [nth] in Hn.
    exists (y - x :: o). cbn [idx_add length]. split; [f_equal; [lia|exact H1]|]. split; [lia|].
    constructor; [exact Hn|exact H3].
Qed.

Lemma idx_add_zero (a o : idx) : length a = length o -> ~ Exists (fun z => z <> 0) o -> idx_add a o = a.
Proof.
  revert o; induction a as [|x a IH]; intros [|y o] HL Hne; cbn [idx_add length] in *; try lia; [reflexivity|].
  assert (y = 0) by (destruct (Z.eq_dec y 0); [assumption|exfalso; apply Hne; left; assumption]).
  rewrite IH; [f_equal; lia|lia|]. intros H0. apply Hne. right; exact H0.
Qed.

Notation chv := (has_valid (bdc c) (bbc c) (dimc c) (expandc c)).
Notation cgrow := (grow (defaultc c) (mergec c) merge_bundle (bdc c) (bbc c)
   (dist_laws (mergec c) (dimc c) (kindc c)) (bundle_laws (dimc c) (kindc c)) (dimc c) (kindc c)).

(** One call of allocatePartiallyAllocatedBundles. *)
Lemma expand_once (k : Z) (m : cmap c) :
  cInv c m -> region c k m -> 1 <= k ->
  exists m', cact c m ExpandAll = Ok m' /\ cInv c m' /\ region c (k - 1) m' /\ cgrow m m' /\
    (forall bi, has_b c m bi -> chv m bi = true -> exists b, cbget c m' bi = Some b /\ expand b = false) /\
    (forall bi, has_b c m' bi -> has_b c m bi \/
       exists bi0 o, has_b c m bi0 /\ chv m bi0 = true /\ In o (offsetsc c) /\
         cvalid c m bi = true /\ idx_add bi0 o = bi) /\
    ((forall bi b, cbdom c (cshape c m) bi -> cbget c m bi = Some b -> expand b && chv m bi = false) -> m' = m).
Proof.
  intros HI HR Hk. pose proof HI as [HA [Hsh Hv]].
  destruct (cact_spec c Hc k m ExpandAll HI ltac:(cbn [expansions]; lia) HR I) as [m' [E [HI' [HR' _]]]].
  exists m'. split; [exact E|]. split; [exact HI'|]. split; [exact HR'|].
  assert (Hex : expandable (mergec c) merge_bundle (bdc c) (bbc c) (dist_laws (mergec c) (dimc c) (kindc c))
            (bundle_laws (dimc c) (kindc c)) (dimc c) (kindc c) (offsetsc c) m).
  { intros bi Hbd Hne o Ho Hvo. fold (cshape c m) in *. rewrite Hsh in *.
    fold (cvalid c m (idx_add bi o)) in Hvo. rewrite Hv in Hvo.
    apply (usable_okidx c Hc (k - 1)); [lia|].
    apply neighbour_usable; [exact Hc| |exact Ho|exact Hvo]. apply HR; assumption. }
  destruct (apabs_spec (defaultc c) _ _ _ _ _ _ _ _ (aminc c) (amaxc c) _ _ (box c) (box_step c) (ok_default c Hc) m HA Hex)
    as [m1 [E1 [_ [Hg [Hf [_ [Hnew Hid]]]]]]].
  unfold cact, act in E. rewrite E1 in E. injection E as <-.
  split; [exact Hg|]. split; [|split; [|exact Hid]].
  - intros bi [Hbd Hne] Hhv. apply Hf; assumption.
  - intros bi [Hbd Hne]. unfold cshape in Hbd. rewrite (g_shape _ _ _ _ _ _ _ _ _ _ _ Hg) in Hbd.
    destruct (cbget c m bi) as [b|] eqn:Eb; [left; split; [exact Hbd|congruence]|right].
    destruct (Hnew bi Hbd Eb) as [H0|[_ [bi0 [o [A [B [C [D [F G]]]]]]]]]; [contradiction|].
    exists bi0, o. subst bi. split; [split; assumption|]. auto.
Qed.

Lemma has_b_usable (k : Z) (m : cmap c) (bi : idx) : cInv c m -> region c k m -> has_b c m bi -> usable c k bi.
Proof. intros [_ [Hsh _]] HR [A B]. rewrite Hsh in A. apply HR; assumption. Qed.

Lemma flag_neighbours (m : cmap c) (bi : idx) (b : bundle) :
  cInv c m -> cbdom c (cshape c m) bi -> cbget c m bi = Some b -> expand b = false ->
  length bi = dimc c ->
  forall o, length o = dimc c -> Forall (fun z => -1 <= z <= 1) o ->
    cvalid c (new_map c) (idx_add bi o) = true -> has_b c m (idx_add bi o).
Proof.
  intros [[_ [_ [HE _]]] [Hsh Hv]] Hbd Hb Hexp HL o Lo Ro Hvo.
  destruct (Exists_dec (fun z => z <> 0) o) as [Hx|Hx].
  - intros z. destruct (Z.eq_dec z 0); [right; lia|left; lia].
  - destruct (HE bi b Hbd Hb Hexp o) as [A B].
    + apply (ok_complete c Hc); assumption.
    + fold (cvalid c m (idx_add bi o)). rewrite Hv. exact Hvo.
    + split; assumption.
  - rewrite (idx_add_zero bi o ltac:(congruence) Hx). split; [exact Hbd|congruence].
Qed.

Lemma cgrow_has (m m' : cmap c) (bi : idx) : cgrow m m' -> has_b c m bi -> has_b c m' bi.
Proof.
  intros Hg [A B]. split.
  - unfold cshape. rewrite (g_shape _ _ _ _ _ _ _ _ _ _ _ Hg). exact A.
  - destruct (cbget c m bi) as [b|] eqn:Eb; [|contradiction].
    destruct (g_bund _ _ _ _ _ _ _ _ _ _ _ Hg bi b A Eb) as [b' [Eb' _]]. unfold cbget. congruence.
Qed.

(** After one call all bundles of a valid cell exist. *)
Lemma expand_complete (k : Z) (m m' : cmap c) (i : nat) (j : idx) (d : P) :
  cInv c m -> region c k m -> 1 <= k -> cact c m ExpandAll = Ok m' ->
  cddom c (cshape c (new_map c)) i j -> (i < bin_count (dimc c))%nat ->
  cdget c m i j = Some d -> expandc c d = true ->
  forall bi, length bi = dimc c -> generate_index bi i = j -> cvalid c (new_map c) bi = true -> has_b c m' bi.
Proof.
  intros HI HR Hk E Hij Hi Hd Hexp bi HL Hgen Hvb.
  destruct (expand_once k m HI HR Hk) as [m1 [E1 [HI1 [HR1 [Hg [Hf _]]]]]]. rewrite E in E1. injection E1 as <-.
  pose proof HI as [[_ [HD _]] [Hsh Hv]].
  destruct (HD i j d) as [b0 [bb0 [A [B C]]]]; [fold (cshape c m); rewrite Hsh; exact Hij|exact Hd|].
  assert (Hhas0 : has_b c m b0) by (split; [exact A|unfold cbget; congruence]).
  assert (HL0 : length b0 = dimc c) by (apply (has_b_usable k m b0 HI HR Hhas0)).
  assert (Hhv : chv m b0 = true).
  { unfold has_valid. apply existsb_exists. exists i. split; [apply in_seq; lia|].
    rewrite C. unfold cdget in Hd. rewrite Hd. exact Hexp. }
  destruct (Hf b0 Hhas0 Hhv) as [b' [Eb' Hfl]].
  destruct (gen_same_neighbour i b0 bi ltac:(congruence) ltac:(congruence)) as [o [Ho [Lo Ro]]].
  rewrite <- Ho in Hvb |- *.
  apply (flag_neighbours m' b0 b' HI1); [|exact Eb'|exact Hfl|exact HL0|congruence|exact Ro|exact Hvb].
  apply (cgrow_has m m' b0 Hg Hhas0).
Qed.

Lemma chv_spec (m : cmap c) (bi : idx) :
  chv m bi = true <-> exists i d, (i < bin_count (dimc c))%nat /\ cdget c m i (generate_index bi i) = Some d /\ expandc c d = true.
Proof.
  unfold has_valid. rewrite existsb_exists. split.
  - intros [i [Hi H]]. apply in_seq in Hi. destruct (dget _ _ m i (generate_index bi i)) as [d|] eqn:E; [|discriminate].
    exists i, d. split; [lia|]. split; [exact E|exact H].
  - intros [i [d [Hi [Hd He]]]]. exists i. split; [apply in_seq; lia|]. unfold cdget in Hd. rewrite Hd. exact He.
Qed.

(** The third call changes nothing. *)
Lemma expand_fixpoint (k : Z) (m m1 m2 : cmap c) :
  cInv c m -> region c k m -> 3 <= k ->
  cact c m ExpandAll = Ok m1 -> cact c m1 ExpandAll = Ok m2 -> cact c m2 ExpandAll = Ok m2.
Proof.
  intros HI HR Hk E1 E2.
  destruct (expand_once k m HI HR ltac:(lia)) as [x1 [F1 [HI1 [HR1 [Hg1 [Hf1 _]]]]]]. rewrite E1 in F1; injection F1 as <-.
  destruct (expand_once (k - 1) m1 HI1 HR1 ltac:(lia)) as [x2 [F2 [HI2 [HR2 [Hg2 [Hf2 _]]]]]]. rewrite E2 in F2; injection F2 as <-.
  destruct (expand_once (k - 1 - 1) m2 HI2 HR2 ltac:(lia)) as [x3 [F3 [HI3 [HR3 [Hg3 [_ [_ Hid]]]]]]].
  rewrite F3. f_equal. apply Hid. clear x3 F3 HI3 HR3 Hg3 Hid.
  intros bi b Hbd Hb. apply andb_false_iff. destruct (chv m2 bi) eqn:Ehv; [left|right; reflexivity].
  pose proof HI2 as [_ [Hsh2 _]]. pose proof HI1 as [_ [Hsh1 Hv1]]. pose proof HI as [_ [Hsh Hv]].
  assert (Hhas2 : has_b c m2 bi) by (split; [exact Hbd|congruence]).
  assert (Hus : usable c (k - 1 - 1) bi) by (apply (has_b_usable _ m2); assumption).
  assert (Hok : cokidx c (cshape c (new_map c)) bi) by (apply (usable_okidx c Hc (k - 1 - 1)); [lia|exact Hus]).
  assert (Ehv1 : chv m1 bi = true).
  { rewrite <- Ehv. symmetry. eapply has_valid_grow; [apply (ok_default c Hc)| |exact Hg2].
    fold (cshape c m1). rewrite Hsh1. exact Hok. }
  assert (Ehv0 : chv m bi = true).
  { rewrite <- Ehv1. symmetry. eapply has_valid_grow; [apply (ok_default c Hc)| |exact Hg1].
    fold (cshape c m). rewrite Hsh. exact Hok. }
  apply chv_spec in Ehv0. destruct Ehv0 as [i [d [Hi [Hd He]]]].
  assert (Hhas1 : has_b c m1 bi).
  { eapply (expand_complete k m m1 i (generate_index bi i) d); try eassumption; try lia; try reflexivity.
    - apply Hok; exact Hi.
    - apply Hok.
    - apply (usable_valid c Hc (k - 1 - 1)); [lia|exact Hus]. }
  destruct (Hf2 bi Hhas1 Ehv1) as [b' [Eb' Hfl]]. congruence.
Qed.

(** Summary on observable state. *)
Lemma expand_history (l : list (map_action (P:=P))) :
  fits c (l ++ [ExpandAll; ExpandAll; ExpandAll]) ->
  exists m m1 m2, cact_all c l (new_map c) = Ok m /\
    cact c m ExpandAll = Ok m1 /\ cact c m1 ExpandAll = Ok m2 /\ cact c m2 ExpandAll = Ok m2 /\
    (forall i j d, cell_exists c i j -> cstored c m i j = Ok (Some d) -> cstored c m1 i j = Ok (Some d)) /\
    (forall i j, cell_exists c i j -> cstored c m i j = Ok None ->
       cstored c m1 i j = Ok None \/ cstored c m1 i j = Ok (Some (defaultc c))) /\
    (forall bi b, usable c 0 bi -> cbundle c m bi = Ok (Some b) ->
       exists b', cbundle c m1 bi = Ok (Some b') /\ slots b' = slots b) /\
    (forall i j d, cell_exists c i j -> cstored c m i j = Ok (Some d) -> expandc c d = true ->
       forall bi, length bi = dimc c -> generate_index bi i = j ->
         (kindc c = Static -> usable c 0 bi) -> exists b, cbundle c m1 bi = Ok (Some b)) /\
    (forall bi b, usable c 0 bi -> cbundle c m bi = Ok None -> cbundle c m1 bi = Ok (Some b) ->
       exists bi0 b0 i d, usable c 0 bi0 /\ cbundle c m bi0 = Ok (Some b0) /\
         Forall2 (fun x y => -1 <= x - y <= 1) bi bi0 /\
         (i < 2 ^ dimc c)%nat /\ cstored c m i (generate_index bi0 i) = Ok (Some d) /\ expandc c d = true).
Proof.
  intros Hf. unfold fits in Hf. rewrite expansions_app in Hf. cbn [expansions] in Hf.
  apply Forall_app in Hf. destruct Hf as [Hf _].
  destruct (hist_spec c Hc l (expansions l + 3) (new_map c) (new_inv c Hc) ltac:(lia)) as [m [E [HI [HR _]]]].
  { intros bi _ H. rewrite new_empty_b in H. contradiction. }
  { exact Hf. }
  replace (expansions l + 3 - expansions l) with 3 in HR by lia.
  destruct (expand_once 3 m HI HR ltac:(lia)) as [m1 [E1 [HI1 [HR1 [Hg1 [_ [Hnew _]]]]]]].
  destruct (expand_once (3 - 1) m1 HI1 HR1 ltac:(lia)) as [m2 [E2 _]].
  exists m, m1, m2. split; [exact E|]. split; [exact E1|]. split; [exact E2|].
  split; [eapply (expand_fixpoint 3 m); eassumption || lia|].
  pose proof HI as [_ [Hsh _]].
  assert (Hdist : forall i j, cell_exists c i j ->
            cdget c m1 i j = cdget c m i j \/ (cdget c m i j = None /\ cdget c m1 i j = Some (defaultc c))).
  { intros i j Hij. apply (g_dist _ _ _ _ _ _ _ _ _ _ _ Hg1). fold (cshape c m). rewrite Hsh. apply cell_ddom; assumption. }
  split; [|split; [|split; [|split]]].
  - intros i j d Hij Hs. rewrite (cstored_spec c Hc m i j HI Hij) in Hs. injection Hs as Hs.
    rewrite (cstored_spec c Hc m1 i j HI1 Hij). destruct (Hdist i j Hij) as [->|[Hn _]]; congruence.
  - intros i j Hij Hs. rewrite (cstored_spec c Hc m i j HI Hij) in Hs. injection Hs as Hs.
    rewrite (cstored_spec c Hc m1 i j HI1 Hij). destruct (Hdist i j Hij) as [->|[_ ->]]; [left; congruence|right; reflexivity].
  - intros bi b Hu Hb. rewrite (cbundle_spec c Hc m bi HI Hu) in Hb. injection Hb as Hb.
    assert (Hbd : cbdom c (cshape c m) bi) by (rewrite Hsh; apply (usable_bdom c Hc 0); [lia|exact Hu]).
    destruct (g_bund _ _ _ _ _ _ _ _ _ _ _ Hg1 bi b Hbd Hb) as [b' [Eb' [Hsl _]]].
    exists b'. rewrite (cbundle_spec c Hc m1 bi HI1 Hu). unfold cbget. rewrite Eb'. auto.
  - intros i j d Hij Hs He bi HL Hgen Hu. rewrite (cstored_spec c Hc m i j HI Hij) in Hs. injection Hs as Hs.
    assert (Hh : has_b c m1 bi).
    { eapply (expand_complete 3 m m1 i j d); try eassumption; try lia.
      - apply cell_ddom; assumption.
      - rewrite two_pow_spec. apply Hij.
      - apply new_valid; assumption. }
    assert (Hu1 : usable c (3 - 1) bi) by (apply (has_b_usable _ m1); assumption).
    assert (Hu0 : usable c 0 bi) by (eapply usable_le; [|exact Hu1]; lia).
    rewrite (cbundle_spec c Hc m1 bi HI1 Hu0). destruct Hh as [_ Hne].
    destruct (cbget c m1 bi) as [b|]; [exists b; reflexivity|contradiction].
  - intros bi b Hu Hn Hb. rewrite (cbundle_spec c Hc m bi HI Hu) in Hn. rewrite (cbundle_spec c Hc m1 bi HI1 Hu) in Hb.
    assert (Hh : has_b c m1 bi).
    { split; [|congruence]. destruct HI1 as [_ [Hsh1 _]]. rewrite Hsh1. apply (usable_bdom c Hc 0); [lia|exact Hu]. }
    destruct (Hnew bi Hh) as [[_ H0]|[bi0 [o [Hh0 [Hhv [Ho [_ Hadd]]]]]]]; [congruence|].
    assert (Hu0 : usable c 0 bi0) by (eapply usable_le; [|apply (has_b_usable 3 m); eassumption]; lia).
    destruct (cbget c m bi0) as [b0|] eqn:Eb0; [|destruct Hh0; congruence].
    apply chv_spec in Hhv. destruct Hhv as [i [d [Hi [Hd He]]]]. rewrite two_pow_spec in Hi.
    exists bi0, b0, i, d. split; [exact Hu0|]. split; [rewrite (cbundle_spec c Hc m bi0 HI Hu0); congruence|].
    split; [|split; [exact Hi|split; [|exact He]]].
    + destruct (ok_sound c Hc o Ho) as [Lo Ro]. subst bi.
      assert (L : length bi0 = length o) by (destruct Hu0; congruence).
      clear -L Ro. revert o L Ro. induction bi0 as [|x bi0 IH]; intros [|y o] L Ro; try discriminate; [constructor|].
      inversion Ro; subst. cbn. constructor; [lia|]. apply IH; [cbn in L; lia|assumption].
    + rewrite (cstored_spec c Hc m i _ HI); [congruence|]. apply bundle_cell; [exact Hu0|exact Hi].
Qed.

End Life.

(** Facts about map conversion. *)
From Verif Require Import Base SeqModel SeqFacts IndexModel IndexFacts OctreeSpec OctreeModel OctreeFacts
  MapModel MapFacts MapHist BackendModel BackendFacts SysModel SysSpec SysFacts InsertModel ConvModel ConvSpec.
Open Scope Z_scope.
Notation gen := generate_index.

Lemma ofold_ext {A B : Type} (f g : A -> B -> outcome A) (l : list B) :
  (forall a b, In b l -> f a b = g a b) -> forall a, ofold f l a = ofold g l a.
Proof.
  induction l as [|b l IH]; intros H a; cbn [ofold]; [reflexivity|].
  rewrite (H a b) by (left; reflexivity). destruct (g a b); cbn [obind]; [|reflexivity|reflexivity].
  apply IH. intros a' b' Hb. apply H. right; exact Hb.
Qed.

Section Each.
Context {P : Type}.
Variable c : config P.
Hypothesis Hc : config_ok c.

Definition ceach (m : cmap c) (bi : idx) (g : nat -> P -> P) : outcome (cmap c) :=
  modify_each (defaultc c) (bdc c) (bbc c) (dimc c) (kindc c) (aminc c) (amaxc c) m bi g.

Lemma ceach_spec (k : Z) (m : cmap c) (bi : idx) (g : nat -> P -> P) :
  cInv c m -> 0 <= k -> region c k m -> usable c k bi ->
  exists m', ceach m bi g = Ok m' /\ cInv c m' /\ region c k m' /\
    (forall bi', cbdom c (cshape c (new_map c)) bi' ->
       cbget c m' bi' = if idx_eqb bi bi' then Some (match cbget c m bi with
                          | Some b => b | None => {| slots := full_slots (dimc c) bi; expand := true |} end)
                        else cbget c m bi') /\
    (forall i j, cddom c (cshape c (new_map c)) i j ->
       cdget c m' i j = if idx_eqb (gen bi i) j
                        then Some (g i (match cdget c m i j with Some d => d | None => defaultc c end))
                        else cdget c m i j).
Proof.
  intros [HA [Hsh Hv]] Hk HR Hu.
  assert (Hok : cokidx c (cshape c m) bi) by (rewrite Hsh; apply (usable_okidx c Hc k); assumption).
  destruct (modify_each_all (defaultc c) _ _ _ _ _ _ _ (kindc c) (aminc c) (amaxc c) _ (box c) (box_step c) m bi g HA Hok)
    as [m' [E [HA' [Hsh' [Hv' Heff]]]]].
  exists m'. split; [exact E|]. split.
  { split; [exact HA'|]. split; [unfold cshape in *; congruence|]. intros x. unfold cvalid. rewrite Hv'. apply Hv. }
  destruct Heff as [_ [_ [Hb [Hd _]]]]. fold (cshape c m) in Hb, Hd. rewrite Hsh in Hb, Hd.
  split; [|split; [exact Hb|exact Hd]].
  intros bi' Hbd Hne. unfold cbget in Hne. rewrite (Hb bi' Hbd) in Hne.
  destruct (idx_eqb_spec bi bi') as [<-|Hneq]; [exact Hu|]. apply HR; assumption.
Qed.

Lemma cmap_bundles (m : cmap c) :
  cInv c m -> region c 0 m ->
  exists es, cbundles c m = Ok es /\ NoDup (map fst es) /\
    (forall bi b, In (bi, b) es <-> usable c 0 bi /\ cbget c m bi = Some b) /\
    (forall bi b i, In (bi, b) es -> (i < bin_count (dimc c))%nat ->
       slots b = full_slots (dimc c) bi /\ cddom c (cshape c (new_map c)) i (gen bi i) /\
       exists v, cdget c m i (gen bi i) = Some v /\
         slot_value (bdc c) (bbc c) m i (Some (gen bi i)) = Ok (Some v)).
Proof.
  intros [[[Hwf HI] _] [Hsh _]] HR.
  destruct (bundle_list _ _ _ _ _ _ _ m Hwf) as [es [E [Hn Hin]]].
  fold (cshape c m) in Hin, HI. rewrite Hsh in Hin, HI.
  exists es. split; [exact E|]. split; [exact Hn|].
  assert (Hin' : forall bi b, In (bi, b) es <-> usable c 0 bi /\ cbget c m bi = Some b).
  { intros bi b. rewrite (Hin bi b). split; intros [A B]; (split; [|exact B]).
    - apply HR; [exact A|]. unfold cbget. congruence.
    - apply (usable_bdom c Hc 0 bi); [lia|exact A]. }
  split; [exact Hin'|]. intros bi b i Hb Hi. apply Hin in Hb. destruct Hb as [A B].
  destruct (HI bi b A B) as [[_ [_ Hdd]] [Hs Hex]]. split; [exact Hs|].
  specialize (Hdd i Hi). split; [exact Hdd|]. destruct (Hex i Hi) as [v Hv]. exists v.
  split; [exact Hv|]. unfold slot_value.
  assert (Hdd' := Hdd). rewrite <- Hsh in Hdd'.
  destruct (store_at _ _ _ _ _ _ _ m i (gen bi i) Hwf Hdd') as [s [Hs' [_ [_ Hg]]]].
  unfold get_store. rewrite Hs'. cbn [obind]. rewrite Hg, Hv. reflexivity.
Qed.

End Each.

Section Convert.
Context {P : Type}.
Variable conv : option P -> outcome (P -> P).
Variable keep : P -> P -> P.
Hypothesis conv_some : forall v, conv (Some v) = Ok (keep v).
Hypothesis keep_twice : forall v t, keep v (keep v t) = keep v t.
Variable c c' : config P.
Hypothesis Hc : config_ok c.
Hypothesis Hc' : config_ok c'.
Hypothesis Hdim : dimc c' = dimc c.

Definition hit (i : nat) (j : idx) (es : list (idx * bundle)) : bool :=
  existsb (fun e => idx_eqb (gen (fst e) i) j) es.

Lemma hit_app i j l1 l2 : hit i j (l1 ++ l2) = hit i j l1 || hit i j l2.
Proof. apply existsb_app. Qed.

Variable m : cmap c.
Hypothesis HI : cInv c m.
Hypothesis HR : region c 0 m.
Hypothesis Hfit : forall bi, usable c 0 bi -> cbget c m bi <> None -> usable c' 0 bi.

Definition converted (es : list (idx * bundle)) (m' : cmap c') : Prop :=
  cInv c' m' /\ region c' 0 m' /\
  (forall bi, cbdom c' (cshape c' (new_map c')) bi ->
     (In bi (map fst es) -> exists b, cbget c' m' bi = Some b /\ slots b = full_slots (dimc c') bi) /\
     (~ In bi (map fst es) -> cbget c' m' bi = None)) /\
  (forall i j, cddom c' (cshape c' (new_map c')) i j -> (i < bin_count (dimc c'))%nat ->
     cdget c' m' i j = if hit i j es then option_map (fun v => keep v (defaultc c')) (cdget c m i j) else None).

Lemma convert_step (es : list (idx * bundle)) (bi : idx) (b : bundle) (m' : cmap c') :
  converted es m' ->
  usable c 0 bi -> cbget c m bi = Some b -> slots b = full_slots (dimc c) bi ->
  (forall i, (i < bin_count (dimc c))%nat -> exists v, cdget c m i (gen bi i) = Some v /\
         slot_value (bdc c) (bbc c) m i (Some (gen bi i)) = Ok (Some v)) ->
  exists m'', convert_bundle conv c c' m m' (bi, b) = Ok m'' /\ converted (es ++ [(bi, b)]) m''.
Proof.
  intros [HI' [HR' [Hb' Hd']]] Hu Hb Hs Hvals.
  assert (Hu' : usable c' 0 bi) by (apply Hfit; [exact Hu|congruence]).
  set (g := fun i => match cdget c m i (gen bi i) with Some v => keep v | None => fun t => t end).
  destruct (ceach_spec c' Hc' 0 m' bi g HI' ltac:(lia) HR' Hu') as [m'' [E [HI2 [HR2 [Hb2 Hd2]]]]].
  exists m''. split.
  - unfold convert_bundle. cbn [fst snd]. unfold getDistributionBundle.
    fold (cvalid c' m' bi). rewrite (proj2 (proj2 HI') bi), (usable_valid c' Hc' 0 bi ltac:(lia) Hu').
    unfold ceach, modify_each in E. unfold obind at 2.
    destruct (getAllocate _ _ _ _ _ _ _ m' bi) as [m1| |]; [|discriminate E|discriminate E].
    cbn [obind] in *. cbn [fst snd]. rewrite <- E. apply ofold_ext. intros a i Hi. apply in_seq in Hi.
    rewrite Hdim in Hi. unfold convert_slot. rewrite Hs. unfold full_slots. rewrite nth_error_map.
    rewrite (nth_error_nth' (seq 0 (bin_count (dimc c))) 0%nat) by (rewrite seq_length; lia).
    rewrite seq_nth by lia. cbn [option_map Nat.add].
    destruct (Hvals i ltac:(lia)) as [v [Hv Hsv]]. rewrite Hsv. cbn [obind]. rewrite conv_some. cbn [obind].
    unfold g. rewrite Hv. reflexivity.
  - split; [exact HI2|]. split; [exact HR2|]. split.
    + intros bi' Hbd. rewrite (Hb2 bi' Hbd). rewrite map_app. cbn [map fst].
      destruct (Hb' bi' Hbd) as [H1 H2]. destruct (idx_eqb_spec bi bi') as [<-|Hne].
      * split; [|intros H; exfalso; apply H; apply in_or_app; right; left; reflexivity].
        intros _. destruct (in_dec (list_eq_dec Z.eq_dec) bi (map fst es)) as [Hin|Hin].
        -- destruct (H1 Hin) as [b0 [E0 S0]]. rewrite E0. exists b0. auto.
        -- rewrite (H2 Hin). eexists. split; reflexivity.
      * split; intros H.
        -- apply H1. apply in_app_or in H. destruct H as [H|[H|[]]]; [exact H|contradiction].
        -- apply H2. intros Hin. apply H. apply in_or_app. left; exact Hin.
    + intros i j Hij Hi. rewrite (Hd2 i j Hij), (Hd' i j Hij Hi), hit_app. cbn [hit existsb fst].
      rewrite orb_false_r. destruct (idx_eqb_spec (gen bi i) j) as [<-|Hne]; [|rewrite orb_false_r; reflexivity].
      rewrite orb_true_r. rewrite Hdim in Hi. destruct (Hvals i Hi) as [v [Hv _]]. unfold g. rewrite Hv. cbn [option_map].
      destruct (hit i (gen bi i) es); cbn [option_map]; [rewrite keep_twice|]; reflexivity.
Qed.

Lemma convert_spec :
  exists es m', cbundles c m = Ok es /\ convert_map conv c c' m = Ok m' /\ cInv c' m' /\ region c' 0 m' /\
    (forall bi, usable c' 0 bi -> option_map slots (cbget c' m' bi) =
                                  (if in_dec (list_eq_dec Z.eq_dec) bi (map fst es)
                                   then Some (full_slots (dimc c') bi) else None)) /\
    (forall bi b, In (bi, b) es <-> usable c 0 bi /\ cbget c m bi = Some b) /\
    (forall i j, cddom c' (cshape c' (new_map c')) i j -> (i < bin_count (dimc c'))%nat ->
       cdget c' m' i j = if hit i j es then option_map (fun v => keep v (defaultc c')) (cdget c m i j) else None).
Proof.
  destruct (cmap_bundles c Hc m HI HR) as [es [E [_ [Hin Hval]]]].
  exists es. unfold convert_map. rewrite E. cbn [obind].
  assert (H : forall l2 l1 m', es = l1 ++ l2 -> converted l1 m' ->
     exists m'', ofold (convert_bundle conv c c' m) l2 m' = Ok m'' /\ converted es m'').
  { induction l2 as [|[bi b] l2 IH]; intros l1 m' Hes Hm'.
    - exists m'. split; [reflexivity|]. rewrite Hes, app_nil_r. exact Hm'.
    - assert (Hi : In (bi, b) es) by (rewrite Hes; apply in_or_app; right; left; reflexivity).
      destruct (proj1 (Hin bi b) Hi) as [Hu Hb].
      assert (Hn : (0 < bin_count (dimc c))%nat) by (rewrite two_pow_spec; apply Nat.neq_0_lt_0, Nat.pow_nonzero; lia).
      destruct (convert_step l1 bi b m' Hm' Hu Hb (proj1 (Hval bi b 0%nat Hi Hn))) as [m1 [E1 H1]].
      { intros i Hi'. destruct (Hval bi b i Hi Hi') as [_ [_ H]]. exact H. }
      cbn [ofold]. rewrite E1. cbn [obind]. apply (IH (l1 ++ [(bi, b)])); [|exact H1].
      rewrite <- app_assoc. exact Hes. }
  destruct (H es [] (new_map c') eq_refl) as [m' [E' [HI' [HR' [Hb' Hd']]]]].
  { split; [apply new_inv; exact Hc'|]. split; [intros bi _ Hne; rewrite new_empty_b in Hne; contradiction|]. split.
    - intros bi _. split; [intros []|]. intros _. apply new_empty_b.
    - intros i j _ _. cbn [hit existsb]. apply new_empty_d. }
  exists m'. split; [reflexivity|]. split; [exact E'|]. split; [exact HI'|]. split; [exact HR'|]. split; [|split; [exact Hin|exact Hd']].
  intros bi Hu. destruct (Hb' bi (usable_bdom c' Hc' 0 bi ltac:(lia) Hu)) as [H1 H2].
  destruct (in_dec (list_eq_dec Z.eq_dec) bi (map fst es)) as [Hi|Hi].
  - destruct (H1 Hi) as [b [-> Hs]]. cbn [option_map]. rewrite Hs. reflexivity.
  - rewrite (H2 Hi). reflexivity.
Qed.

End Convert.

Section Content.
Context {P : Type}.
Variable c : config P.
Hypothesis Hc : config_ok c.

Lemma cell_bins (i : nat) (j : idx) : cell_exists c i j -> (i < bin_count (dimc c))%nat.
Proof. intros [H _]. rewrite two_pow_spec. exact H. Qed.

Lemma has_bundle_iff (m : cmap c) (bi : idx) (sl : list (option idx)) : cInv c m ->
  (has_bundle c m bi sl <-> usable c 0 bi /\ option_map slots (cbget c m bi) = Some sl).
Proof.
  intros HI. unfold has_bundle. split.
  - intros [Hu [b [E <-]]]. split; [exact Hu|]. rewrite (cbundle_spec c Hc m bi HI Hu) in E.
    injection E as ->. reflexivity.
  - intros [Hu E]. split; [exact Hu|]. rewrite (cbundle_spec c Hc m bi HI Hu).
    destruct (cbget c m bi) as [b|]; [|discriminate E]. exists b. split; [reflexivity|].
    injection E as ->. reflexivity.
Qed.

Lemma has_value_iff (m : cmap c) (i : nat) (j : idx) (v : P) : cInv c m ->
  (has_value c m i j v <-> cell_exists c i j /\ cdget c m i j = Some v).
Proof.
  intros HI. unfold has_value. split; intros [Hj E]; (split; [exact Hj|]).
  - rewrite (cstored_spec c Hc m i j HI Hj) in E. injection E as ->. reflexivity.
  - rewrite (cstored_spec c Hc m i j HI Hj), E. reflexivity.
Qed.

Lemma slots_full (m : cmap c) (bi : idx) (b : bundle) :
  cInv c m -> usable c 0 bi -> cbget c m bi = Some b -> slots b = full_slots (dimc c) bi.
Proof.
  intros [[[_ HI] _] [Hsh _]] Hu Hb. apply (HI bi b); [|exact Hb].
  fold (cshape c m). rewrite Hsh. apply (usable_bdom c Hc 0 bi); [lia|exact Hu].
Qed.

End Content.

(** [m'] answers like [w], an intact map. *)
Definition sees {P : Type} (c : config P) (w m' : cmap c) : Prop :=
  min_bi m' = min_bi w /\ max_bi m' = max_bi w /\ (forall bi, cbundle c m' bi = cbundle c w bi) /\
  cbundles c m' = cbundles c w /\ (forall i j v, has_value c w i j v -> cstored c m' i j = Ok (Some v)).
Definition twin {P : Type} (c c' : config P) (m : cmap c) (m' : cmap c') : Prop :=
  config_ok c' /\ dimc c' = dimc c /\
  exists w, cInv c' w /\ region c' 0 w /\ same_content c c' m w /\ sees c' w m'.
Lemma twin_intact {P : Type} (c c' : config P) (m : cmap c) (m' : cmap c') :
  config_ok c' -> dimc c' = dimc c -> cInv c' m' -> region c' 0 m' -> same_content c c' m m' -> twin c c' m m'.
Proof.
  intros Hc Hd HI HR HS. split; [exact Hc|]. split; [exact Hd|]. exists m'. split; [exact HI|]. split; [exact HR|]. split; [exact HS|].
  repeat (split; [reflexivity|]). intros i j v H. apply H.
Qed.

Section Same.
Context {P : Type}.
Variable conv : option P -> outcome (P -> P).
Variable keep : P -> P -> P.
Hypothesis conv_some : forall v, conv (Some v) = Ok (keep v).
Hypothesis keep_twice : forall v t, keep v (keep v t) = keep v t.

Lemma convert_same (c c' : config P) (Hc : config_ok c) (Hc' : config_ok c') (Hdim : dimc c' = dimc c) (m : cmap c) :
  cInv c m -> region c 0 m ->
  (forall bi, usable c 0 bi -> cbget c m bi <> None -> usable c' 0 bi) ->
  (forall i j v, has_value c m i j v -> keep v (defaultc c') = v) ->
  exists m', convert_map conv c c' m = Ok m' /\ cInv c' m' /\ region c' 0 m' /\ same_content c c' m m'.
Proof.
  intros HI HR Hfit Hkeep.
  destruct (convert_spec conv keep conv_some keep_twice c c' Hc Hc' Hdim m HI HR Hfit)
    as [es [m' [Ees [E [HI' [HR' [Hb [Hin Hd]]]]]]]].
  exists m'. split; [exact E|]. split; [exact HI'|]. split; [exact HR'|]. split.
  - intros bi sl. rewrite (has_bundle_iff c Hc m bi sl HI), (has_bundle_iff c' Hc' m' bi sl HI'). split.
    + intros [Hu Hs]. destruct (cbget c m bi) as [b|] eqn:Eb; [|discriminate Hs]. cbn [option_map] in Hs.
      assert (Hu' : usable c' 0 bi) by (apply Hfit; [exact Hu|congruence]).
      split; [exact Hu'|]. rewrite (Hb bi Hu').
      destruct (in_dec (list_eq_dec Z.eq_dec) bi (map fst es)) as [_|Hn].
      * rewrite Hdim, <- Hs. rewrite (slots_full c Hc m bi b HI Hu Eb). reflexivity.
      * exfalso. apply Hn. apply in_map_iff. exists (bi, b). split; [reflexivity|]. apply Hin. auto.
    + intros [Hu' Hs]. rewrite (Hb bi Hu') in Hs.
      destruct (in_dec (list_eq_dec Z.eq_dec) bi (map fst es)) as [Hi|_]; [|discriminate Hs].
      injection Hs as <-. apply in_map_iff in Hi. destruct Hi as [[bi0 b] [Ebi Hi]]. cbn [fst] in Ebi. subst bi0.
      apply Hin in Hi. destruct Hi as [Hu Eb]. split; [exact Hu|]. rewrite Eb. cbn [option_map].
      rewrite (slots_full c Hc m bi b HI Hu Eb), Hdim. reflexivity.
  - intros i j v. rewrite (has_value_iff c Hc m i j v HI), (has_value_iff c' Hc' m' i j v HI').
    assert (Hhit : hit i j es = true <-> exists bi b, usable c 0 bi /\ cbget c m bi = Some b /\ gen bi i = j).
    { unfold hit. rewrite existsb_exists. split.
      - intros [[bi b] [Hi Hg]]. apply Hin in Hi. exists bi, b. split; [apply Hi|]. split; [apply Hi|].
        cbn [fst] in Hg. destruct (idx_eqb_spec (gen bi i) j); [assumption|discriminate].
      - intros [bi [b [Hu [Eb Hg]]]]. exists (bi, b). split; [apply Hin; auto|]. cbn [fst]. rewrite Hg. apply idx_eqb_refl. }
    split.
    + intros [Hj Hv].
      assert (Hne : cdget c m i j <> None) by congruence.
      apply (present_iff c m i j HI (cell_ddom c Hc i j Hj) (cell_bins c i j Hj)) in Hne.
      destruct Hne as [bi [Hbd [Hbn Hg]]].
      assert (Hu : usable c 0 bi) by (apply HR; assumption).
      assert (Hj' : cell_exists c' i j).
      { rewrite <- Hg. apply bundle_cell; [exact (Hfit bi Hu Hbn)|]. rewrite Hdim. apply Hj. }
      split; [exact Hj'|]. rewrite (Hd i j (cell_ddom c' Hc' i j Hj') (cell_bins c' i j Hj')).
      destruct (cbget c m bi) as [b|] eqn:Eb; [|contradiction].
      rewrite (proj2 Hhit) by (exists bi, b; auto). rewrite Hv. cbn [option_map].
      rewrite (Hkeep i j v) by (apply (has_value_iff c Hc m i j v HI); auto). reflexivity.
    + intros [Hj' Hv]. rewrite (Hd i j (cell_ddom c' Hc' i j Hj') (cell_bins c' i j Hj')) in Hv.
      destruct (hit i j es) eqn:Eh; [|discriminate Hv]. destruct (proj1 Hhit eq_refl) as [bi [b [Hu [Eb Hg]]]].
      assert (Hj : cell_exists c i j) by (rewrite <- Hg; apply bundle_cell; [exact Hu|rewrite <- Hdim; apply Hj']).
      split; [exact Hj|]. destruct (cdget c m i j) as [w|] eqn:Ew; [|discriminate Hv]. cbn [option_map] in Hv.
      rewrite (Hkeep i j w) in Hv by (apply (has_value_iff c Hc m i j w HI); auto). exact Hv.
Qed.

End Same.

(** ** The static box around a dynamic map *)
Lemma box_of_spec (mn : idx) : forall mx : idx,
  length mx = length mn ->
  (forall d, (d < length mn)%nat -> -32768 <= nth d mn 0 <= nth d mx 0 /\ nth d mx 0 <= 32767) ->
  exists size min, box_of mn mx = Ok (size, min) /\ length size = length mn /\ length min = length mn /\
    forall d, (d < length mn)%nat ->
      nth d min 0 <= nth d mn 0 /\ nth d mx 0 < nth d min 0 + 2 * nth d size 0 - 1.
Proof.
  induction mn as [|a mn IH]; intros [|b mx] HL H; cbn [length] in *; try lia.
  - exists [], []. split; [reflexivity|]. split; [reflexivity|]. split; [reflexivity|]. intros d Hd; lia.
  - pose proof (H 0%nat ltac:(lia)) as H0. cbn [nth] in H0.
    destruct (IH mx) as [size [min [E [L1 [L2 HS]]]]]; [lia| |].
    { intros d Hd. exact (H (S d) ltac:(lia)). }
    cbn [box_of]. unfold box_1, int_ok, INT_MIN, INT_MAX.
    match goal with |- context[if ?x then _ else _] => assert (Hx : x = true) end.
    { rewrite !andb_true_iff, !Z.leb_le. Z.div_mod_to_equations; lia. }
    rewrite Hx. cbn [obind]. rewrite E. cbn [obind]. eexists _, _. split; [reflexivity|].
    cbn [length]. split; [lia|]. split; [lia|]. intros [|d] Hd; cbn [nth].
    + Z.div_mod_to_equations; lia.
    + apply HS; lia.
Qed.

Section Range.
Context {P : Type}.
Variable c : config P.
Hypothesis Hc : config_ok c.
Hypothesis Hk : kindc c = Dynamic.
Hypothesis Hmin : aminc c = cw_min.
Hypothesis Hmax : amaxc c = cw_max.

Lemma usable_dynamic (k : Z) (bi : idx) :
  usable c k bi <-> length bi = dimc c /\ Forall (fun z => -32768 + k <= z <= 32767 - k) bi.
Proof. unfold usable. rewrite Hk. reflexivity. Qed.
Lemma usable_coord (bi : idx) (d : nat) : usable c 0 bi -> (d < dimc c)%nat -> -32768 <= nth d bi 0 <= 32767.
Proof.
  intros Hu Hd. apply usable_dynamic in Hu. destruct Hu as [HL HF]. rewrite Forall_forall in HF.
  specialize (HF (nth d bi 0) ltac:(apply nth_In; lia)). lia.
Qed.

Lemma has_b_iff (m : cmap c) (bi : idx) : cInv c m -> region c 0 m ->
  (has_b c m bi <-> exists sl, has_bundle c m bi sl).
Proof.
  intros HI HR. unfold has_b. split.
  - intros [A B]. rewrite (proj1 (proj2 HI)) in A. destruct (cbget c m bi) as [b|] eqn:E; [|contradiction].
    exists (slots b). apply (has_bundle_iff c Hc m bi _ HI). split; [apply HR; [exact A|congruence]|].
    rewrite E. reflexivity.
  - intros [sl H]. apply (has_bundle_iff c Hc m bi _ HI) in H. destruct H as [A B].
    split; [rewrite (proj1 (proj2 HI)); apply (usable_bdom c Hc 0 bi); [lia|exact A]|].
    destruct (cbget c m bi); discriminate.
Qed.

Lemma nonempty_bundle (m : cmap c) : (0 < dimc c)%nat -> cInv c m -> region c 0 m -> map_empty c m = false ->
  exists bi sl, has_bundle c m bi sl.
Proof.
  intros Hdim HI HR He. pose proof HI as [[_ [_ [_ Hbox]]] _].
  destruct (Hbox Hmin Hmax Hk) as [_ [_ H]].
  destruct (H 0%nat Hdim) as [_ [[H0|[bi [H0 _]]] _]].
  - unfold map_empty in He. rewrite H0 in He. discriminate He.
  - exists bi. apply (has_b_iff m bi HI HR). exact H0.
Qed.

Lemma tight_range (m : cmap c) : cInv c m -> region c 0 m -> (exists bi sl, has_bundle c m bi sl) ->
  length (min_bi m) = dimc c /\ length (max_bi m) = dimc c /\
  forall d, (d < dimc c)%nat ->
    -32768 <= nth d (min_bi m) 0 <= nth d (max_bi m) 0 /\ nth d (max_bi m) 0 <= 32767 /\
    (forall bi sl, has_bundle c m bi sl -> nth d (min_bi m) 0 <= nth d bi 0 <= nth d (max_bi m) 0) /\
    (exists bi sl, has_bundle c m bi sl /\ nth d bi 0 = nth d (min_bi m) 0) /\
    (exists bi sl, has_bundle c m bi sl /\ nth d bi 0 = nth d (max_bi m) 0).
Proof.
  intros HI HR [b0 [s0 Hb0]]. pose proof HI as [[_ [_ [_ Hbox]]] [Hsh _]].
  specialize (Hbox Hmin Hmax Hk). destruct Hbox as [L1 [L2 Hbox]]. split; [exact L1|]. split; [exact L2|].
  intros d Hd. destruct (Hbox d Hd) as [A [B C]].
  pose proof (A b0 (proj2 (has_b_iff m b0 HI HR) (ex_intro _ s0 Hb0))) as A0.
  pose proof (usable_coord b0 d (proj1 Hb0) Hd) as R0.
  assert (B' : exists bi sl, has_bundle c m bi sl /\ nth d bi 0 = nth d (min_bi m) 0).
  { destruct B as [B|[bi [B E]]]; [unfold INT_MAX in B; lia|].
    apply (has_b_iff m bi HI HR) in B. destruct B as [sl B]. eauto. }
  assert (C' : exists bi sl, has_bundle c m bi sl /\ nth d bi 0 = nth d (max_bi m) 0).
  { destruct C as [C|[bi [C E]]]; [unfold INT_MIN in C; lia|].
    apply (has_b_iff m bi HI HR) in C. destruct C as [sl C]. eauto. }
  pose proof B' as [b1 [s1 [H1 E1]]]. pose proof C' as [b2 [s2 [H2 E2]]].
  pose proof (usable_coord b1 d (proj1 H1) Hd) as R1. pose proof (usable_coord b2 d (proj1 H2) Hd) as R2.
  split; [lia|]. split; [lia|]. split; [|split; [exact B'|exact C']].
  intros bi sl Hb. apply A, (has_b_iff m bi HI HR). eauto.
Qed.

End Range.

Lemma same_range {P : Type} (c c' : config P) (m : cmap c) (m' : cmap c') :
  config_ok c -> config_ok c' -> kindc c = Dynamic -> kindc c' = Dynamic -> dimc c' = dimc c ->
  aminc c = cw_min -> amaxc c = cw_max -> aminc c' = cw_min -> amaxc c' = cw_max ->
  cInv c m -> region c 0 m -> cInv c' m' -> region c' 0 m' ->
  (exists bi sl, has_bundle c m bi sl) ->
  (forall bi sl, has_bundle c m bi sl <-> has_bundle c' m' bi sl) ->
  min_bi m' = min_bi m /\ max_bi m' = max_bi m.
Proof.
  intros Hc Hc' Hk Hk' Hdim A1 A2 A3 A4 HI HR HI' HR' Hne Hsame.
  destruct (tight_range c Hc Hk A1 A2 m HI HR Hne) as [L1 [L2 Hr]].
  destruct (tight_range c' Hc' Hk' A3 A4 m' HI' HR') as [L1' [L2' Hr']].
  { destruct Hne as [bi [sl H]]. exists bi, sl. apply Hsame. exact H. }
  split; apply list_eq_nth; try congruence; intros d Hd;
    destruct (Hr d ltac:(congruence)) as [_ [_ [A [[b1 [s1 [B1 E1]]] [b2 [s2 [B2 E2]]]]]]];
    destruct (Hr' d ltac:(congruence)) as [_ [_ [A' [[b1' [s1' [B1' E1']]] [b2' [s2' [B2' E2']]]]]]];
    pose proof (A b1' s1' (proj2 (Hsame _ _) B1')); pose proof (A b2' s2' (proj2 (Hsame _ _) B2'));
    pose proof (A' b1 s1 (proj1 (Hsame _ _) B1)); pose proof (A' b2 s2 (proj1 (Hsame _ _) B2)); lia.
Qed.

Lemma same_trans {P : Type} (c1 c2 c3 : config P) (m1 : cmap c1) (m2 : cmap c2) (m3 : cmap c3) :
  same_content c1 c2 m1 m2 -> same_content c2 c3 m2 m3 -> same_content c1 c3 m1 m3.
Proof.
  intros [A B] [C D]. split.
  - intros bi sl. rewrite A. apply C.
  - intros i j v. rewrite B. apply D.
Qed.

Section Trip.
Context {P : Type}.
Variable conv : option P -> outcome (P -> P).
Variable keep : P -> P -> P.
Hypothesis conv_some : forall v, conv (Some v) = Ok (keep v).
Hypothesis keep_twice : forall v t, keep v (keep v t) = keep v t.
Variable c : config P.
Hypothesis Hc : config_ok c.
Hypothesis Hk : kindc c = Dynamic.
Hypothesis Hmin : aminc c = cw_min.
Hypothesis Hmax : amaxc c = cw_max.
Hypothesis Hdim : (0 < dimc c)%nat.

Lemma static_like_ok (size : list Z) (min : idx) :
  length size = dimc c -> length min = dimc c -> config_ok (static_like c size min).
Proof. intros H1 H2. destruct Hc as [_ _ A B C]. constructor; cbn; auto. Qed.
Lemma dynamic_like_ok (g : nat -> Z) (c0 : config P) : config_ok c0 -> config_ok (dynamic_like c0 g).
Proof. intros [_ _ A B C]. constructor; cbn; auto; discriminate. Qed.

Lemma trip_twin (m : cmap c) (g : nat -> Z) :
  cInv c m -> region c 0 m -> map_empty c m = false ->
  (forall i j v, has_value c m i j v -> keep v (defaultc c) = v) ->
  exists size min m' m'',
    to_static conv c m = Ok (existT _ (size, min) m') /\
    same_content c (static_like c size min) m m' /\ twin c (static_like c size min) m m' /\
    to_dynamic conv (static_like c size min) g m' = Ok m'' /\
    same_content c (dynamic_like (static_like c size min) g) m m'' /\ twin c (dynamic_like (static_like c size min) g) m m'' /\
    min_bi m'' = min_bi m /\ max_bi m'' = max_bi m.
Proof.
  intros HI HR He Hkeep.
  pose proof (nonempty_bundle c Hc Hk Hmin Hmax m Hdim HI HR He) as Hne.
  destruct (tight_range c Hc Hk Hmin Hmax m HI HR Hne) as [L1 [L2 Hr]].
  destruct (box_of_spec (min_bi m) (max_bi m) ltac:(congruence)) as [size [min [Eb [Ls [Lm Hs]]]]].
  { intros d Hd. destruct (Hr d ltac:(lia)) as [A [B _]]. lia. }
  rewrite L1 in *.
  set (c1 := static_like c size min). set (c2 := dynamic_like c1 g).
  assert (Hc1 : config_ok c1) by (apply static_like_ok; congruence).
  assert (Hc2 : config_ok c2) by (apply dynamic_like_ok; exact Hc1).
  destruct (convert_same conv keep conv_some keep_twice c c1 Hc Hc1 eq_refl m HI HR) as [m' [E1 [HI1 [HR1 HS1]]]].
  { intros bi Hu Hb. split; [apply Hu|]. intros d Hd. cbn [kindc c1 static_like minc sizec dimc] in *.
    destruct (Hr d Hd) as [_ [_ [A _]]]. destruct (cbget c m bi) as [b|] eqn:Ebi; [|contradiction].
    specialize (A bi (slots b)). specialize (Hs d Hd).
    assert (H : has_bundle c m bi (slots b)).
    { apply (has_bundle_iff c Hc m bi _ HI). rewrite Ebi. auto. }
    specialize (A H). lia. }
  { exact Hkeep. }
  pose proof HS1 as [HSb HSv].
  destruct (convert_same conv keep conv_some keep_twice c1 c2 Hc1 Hc2 eq_refl m' HI1 HR1) as [m'' [E2 [HI2 [HR2 HS2]]]].
  { intros bi Hu Hb. destruct (cbget c1 m' bi) as [b|] eqn:E; [|contradiction].
    assert (H : has_bundle c1 m' bi (slots b)).
    { apply (has_bundle_iff c1 Hc1 m' bi _ HI1). split; [exact Hu|]. rewrite E. reflexivity. }
    apply HSb in H. destruct H as [H _]. apply (usable_dynamic c Hk) in H.
    apply (usable_dynamic c2 eq_refl). exact H. }
  { intros i j v Hv. apply (Hkeep i j v). apply HSv. exact Hv. }
  pose proof (same_trans c c1 c2 m m' m'' HS1 HS2) as HS.
  exists size, min, m', m''. split.
  - unfold to_static. rewrite Eb. cbn [obind fst snd]. fold c1. rewrite E1. reflexivity.
  - split; [exact HS1|]. split; [apply twin_intact; assumption || reflexivity|]. split; [exact E2|]. split; [exact HS|]. split; [apply twin_intact; assumption || reflexivity|].
    apply (same_range c c2 m m''); try assumption; try reflexivity. exact (proj1 HS).
Qed.

End Trip.

(** ** Reachable maps *)
Section Reach.
Context {P : Type}.
Variable c : config P.
Hypothesis Hc : config_ok c.

(** An invariant of all stored distributions. *)
Lemma stored_inv (Q : P -> Prop) (l : list (map_action (P:=P))) :
  fits c l -> Q (defaultc c) ->
  (forall bi f v, In (Modify bi f) l -> Q v -> Q (f v)) ->
  exists m, cact_all c l (new_map c) = Ok m /\ cInv c m /\ region c 0 m /\
    forall i j v, has_value c m i j v -> Q v.
Proof.
  intros Hf HQ0 HQ. destruct (run_spec c Hc l Hf) as [m [E [HI [HR [HC _]]]]].
  exists m. split; [exact E|]. split; [exact HI|]. split; [exact HR|].
  intros i j v Hv. apply (has_value_iff c Hc m i j v HI) in Hv. destruct Hv as [Hj Hv].
  specialize (HC i j (cell_ddom c Hc i j Hj)). unfold ccontent, content in HC. fold (cdget c m i j) in HC.
  rewrite Hv in HC. subst v.
  assert (H : forall l', (forall bi f v, In (Modify bi f) l' -> Q v -> Q (f v)) -> forall d, Q d ->
            Q (apply_changes (changes l' i j) d)).
  { induction l' as [|a l' IH]; intros HQ' d Hd; [exact Hd|].
    assert (IH' := IH (fun bi f v Hin => HQ' bi f v (or_intror Hin))).
    destruct a as [bi f|bi|]; cbn [changes]; [|apply IH'; exact Hd|apply IH'; exact Hd].
    destruct (idx_eqb (gen bi i) j); [|apply IH'; exact Hd].
    apply IH'. apply (HQ' bi f d (or_introl eq_refl) Hd). }
  apply H; [exact HQ|exact HQ0].
Qed.
End Reach.

Lemma distribution_trip_twin {P : Type} (c : config P) (l : list (map_action (P:=P))) (g : nat -> Z) :
  config_ok c -> kindc c = Dynamic -> aminc c = cw_min -> amaxc c = cw_max -> (0 < dimc c)%nat -> fits c l ->
  exists m, cact_all c l (new_map c) = Ok m /\
  (map_empty c m = false ->
   exists size min m' m'',
    to_static convert_distribution c m = Ok (existT _ (size, min) m') /\
    same_content c (static_like c size min) m m' /\ twin c (static_like c size min) m m' /\
    to_dynamic convert_distribution (static_like c size min) g m' = Ok m'' /\
    same_content c (dynamic_like (static_like c size min) g) m m'' /\ twin c (dynamic_like (static_like c size min) g) m m'' /\
    min_bi m'' = min_bi m /\ max_bi m'' = max_bi m).
Proof.
  intros Hc Hk H1 H2 Hd Hf. destruct (run_spec c Hc l Hf) as [m [E [HI [HR _]]]].
  exists m. split; [exact E|]. intros He.
  apply (trip_twin convert_distribution (fun v _ => v)); auto.
Qed.

Lemma distribution_trip {P : Type} (c : config P) (l : list (map_action (P:=P))) (g : nat -> Z) :
  config_ok c -> kindc c = Dynamic -> aminc c = cw_min -> amaxc c = cw_max -> (0 < dimc c)%nat -> fits c l ->
  exists m, cact_all c l (new_map c) = Ok m /\
  (map_empty c m = false ->
   exists size min m' m'',
    to_static convert_distribution c m = Ok (existT _ (size, min) m') /\
    same_content c (static_like c size min) m m' /\
    to_dynamic convert_distribution (static_like c size min) g m' = Ok m'' /\
    same_content c (dynamic_like (static_like c size min) g) m m'' /\
    min_bi m'' = min_bi m /\ max_bi m'' = max_bi m).
Proof.
  intros Hc Hk H1 H2 Hd Hf. destruct (distribution_trip_twin c l g Hc Hk H1 H2 Hd Hf) as [m [E H]].
  exists m. split; [exact E|]. intros He. destruct (H He) as [size [min [m' [m'' [A [B [_ [C [D [_ F]]]]]]]]]].
  exists size, min, m', m''. auto.
Qed.

Lemma occupancy_trip_twin {S : Type} (amount : S -> Z) (s_merge : S -> S -> S) (c : config (occ Z S))
  (l : list (map_action (P:=occ Z S))) (g : nat -> Z) :
  (forall a b, amount (s_merge a b) = amount a + amount b) ->
  config_ok c -> kindc c = Dynamic -> aminc c = cw_min -> amaxc c = cw_max -> (0 < dimc c)%nat ->
  defaultc c = Build_occ 0 None -> fits c l -> Forall (occupancy_action amount s_merge) l ->
  exists m, cact_all c l (new_map c) = Ok m /\
  (map_empty c m = false ->
   let conv := convert_occupancy 0 (fun n => 0 <? n) amount in
   exists size min m' m'',
    to_static conv c m = Ok (existT _ (size, min) m') /\
    same_content c (static_like c size min) m m' /\ twin c (static_like c size min) m m' /\
    to_dynamic conv (static_like c size min) g m' = Ok m'' /\
    same_content c (dynamic_like (static_like c size min) g) m m'' /\ twin c (dynamic_like (static_like c size min) g) m m'' /\
    min_bi m'' = min_bi m /\ max_bi m'' = max_bi m).
Proof.
  intros Ha Hc Hk H1 H2 Hd Hdef Hf HF.
  set (Q := fun v : occ Z S => 0 <= missed v /\ match hits v with Some h => 0 < amount h | None => True end).
  destruct (stored_inv c Hc Q l Hf) as [m [E [HI [HR HQ]]]].
  { rewrite Hdef. split; cbn; [lia|exact I]. }
  { intros bi f v Hin [A B]. rewrite Forall_forall in HF. specialize (HF _ Hin). cbn in HF.
    destruct HF as [[n [Hn ->]]|[s [Hs ->]]].
    - split; cbn; [lia|exact B].
    - split; cbn; [exact A|]. destruct (hits v) as [h|]; [rewrite Ha; lia|exact Hs]. }
  exists m. split; [exact E|]. intros He conv.
  set (keep := fun (v t : occ Z S) =>
     if (0 <? missed v) || (0 <? match hits v with Some h => amount h | None => 0 end) then v else t).
  apply (trip_twin conv keep); auto.
  - intros v. unfold conv, convert_occupancy, keep. destruct (_ || _); reflexivity.
  - intros v t. unfold keep. destruct (_ || _); reflexivity.
  - intros i j v Hv. specialize (HQ i j v Hv). destruct HQ as [A B]. unfold keep.
    destruct v as [n [h|]]; cbn [missed hits] in *.
    + destruct (Z.ltb_spec 0 (amount h)); [|lia]. rewrite orb_true_r. reflexivity.
    + destruct (Z.ltb_spec 0 n); [reflexivity|]. cbn [orb]. change (0 <? 0) with false. cbn.
      assert (n = 0) as -> by lia. exact Hdef.
Qed.

Lemma occupancy_trip {S : Type} (amount : S -> Z) (s_merge : S -> S -> S) (c : config (occ Z S))
  (l : list (map_action (P:=occ Z S))) (g : nat -> Z) :
  (forall a b, amount (s_merge a b) = amount a + amount b) ->
  config_ok c -> kindc c = Dynamic -> aminc c = cw_min -> amaxc c = cw_max -> (0 < dimc c)%nat ->
  defaultc c = Build_occ 0 None -> fits c l -> Forall (occupancy_action amount s_merge) l ->
  exists m, cact_all c l (new_map c) = Ok m /\
  (map_empty c m = false ->
   let conv := convert_occupancy 0 (fun n => 0 <? n) amount in
   exists size min m' m'',
    to_static conv c m = Ok (existT _ (size, min) m') /\
    same_content c (static_like c size min) m m' /\
    to_dynamic conv (static_like c size min) g m' = Ok m'' /\
    same_content c (dynamic_like (static_like c size min) g) m m'' /\
    min_bi m'' = min_bi m /\ max_bi m'' = max_bi m).
Proof.
  intros Ha Hc Hk H1 H2 Hd Hdef Hf HF.
  destruct (occupancy_trip_twin amount s_merge c l g Ha Hc Hk H1 H2 Hd Hdef Hf HF) as [m [E H]].
  exists m. split; [exact E|]. intros He conv. destruct (H He) as [size [min [m' [m'' [A [B [_ [C [D [_ F]]]]]]]]]].
  exists size, min, m', m''. auto.
Qed.

Lemma empty_overflow {P : Type} (conv : option P -> outcome (P -> P)) (c : config P) :
  kindc c = Dynamic -> (0 < dimc c)%nat -> to_static conv c (new_map c) = UB.
Proof.
  intros Hk Hd. unfold to_static. destruct (new_range c Hk) as [-> ->].
  destruct (dimc c) as [|n]; [lia|]. reflexivity.
Qed.

Lemma static_to_dynamic_twin {P : Type} (c : config P) (l : list (map_action (P:=P))) (g : nat -> Z) :
  config_ok c -> kindc c = Static -> fits c l ->
  (forall d, (d < dimc c)%nat -> -32768 <= nth d (minc c) 0 /\ nth d (minc c) 0 + 2 * nth d (sizec c) 0 - 2 <= 32767) ->
  exists m m', cact_all c l (new_map c) = Ok m /\ to_dynamic convert_distribution c g m = Ok m' /\
    same_content c (dynamic_like c g) m m' /\ twin c (dynamic_like c g) m m'.
Proof.
  intros Hc Hk Hf Hr. destruct (run_spec c Hc l Hf) as [m [E [HI [HR _]]]].
  destruct (convert_same convert_distribution (fun v _ => v) (fun v => eq_refl) (fun v t => eq_refl)
              c (dynamic_like c g) Hc (dynamic_like_ok g c Hc) eq_refl m HI HR) as [m' [E' [HI' [HR' HS]]]].
  - intros bi [HL Hu] _. apply (usable_dynamic (dynamic_like c g) eq_refl). split; [exact HL|].
    rewrite Hk in Hu. apply Forall_forall. intros z Hz. apply (In_nth bi z 0) in Hz. destruct Hz as [d [Hd <-]].
    specialize (Hu d ltac:(congruence)). specialize (Hr d ltac:(congruence)). lia.
  - reflexivity.
  - exists m, m'. split; [exact E|]. split; [exact E'|]. split; [exact HS|apply twin_intact; try assumption; [apply dynamic_like_ok; exact Hc|reflexivity]].
Qed.

Lemma static_to_dynamic {P : Type} (c : config P) (l : list (map_action (P:=P))) (g : nat -> Z) :
  config_ok c -> kindc c = Static -> fits c l ->
  (forall d, (d < dimc c)%nat -> -32768 <= nth d (minc c) 0 /\ nth d (minc c) 0 + 2 * nth d (sizec c) 0 - 2 <= 32767) ->
  exists m m', cact_all c l (new_map c) = Ok m /\ to_dynamic convert_distribution c g m = Ok m' /\
    same_content c (dynamic_like c g) m m'.
Proof.
  intros Hc Hk Hf Hr. destruct (static_to_dynamic_twin c l g Hc Hk Hf Hr) as [m [m' [A [B [C _]]]]]. exists m, m'. auto.
Qed.

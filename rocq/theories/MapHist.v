(** Histories of operations on one map, for any lawful storage. *)
From Verif Require Import Base SeqModel SeqFacts IndexModel IndexFacts MapModel MapFacts.
Open Scope Z_scope.

Section Hist.
Context {P : Type}.
Variable default : P.
Variable mergeP : P -> P -> P.
Variable mergeB : bundle -> bundle -> bundle.
Variable bd : backend P.
Variable bb : backend bundle.
Variable ld : blaws mergeP bd.
Variable lb : blaws mergeB bb.
Variable dim : nat.
Variable kd : kind.
Variable amin amax : idx -> idx -> idx.
Variable expandD : P -> bool.
Variable offsets : list idx.

Notation map_t := (ndmap bd bb).
Notation bins_n := (bin_count dim).
Notation gen := generate_index.
Notation mshape := (mshape mergeP mergeB bd bb ld lb).
Notation ddom := (ddom mergeP mergeB bd bb ld lb).
Notation bdom := (bdom mergeP mergeB bd bb ld lb).
Notation okidx := (okidx mergeP mergeB bd bb ld lb dim).
Notation Inv := (Inv mergeP mergeB bd bb ld lb dim).
Notation mwf := (mwf mergeP mergeB bd bb ld lb dim).
Notation dget := (dget bd bb).
Notation bget' := (bget' bd bb).
Notation full := (full_slots dim).
Notation valid := (valid bd bb dim kd).
Notation getAllocate := (getAllocate default bd bb dim kd amin amax).
Notation modify_bundle := (modify_bundle default bd bb dim kd amin amax).
Notation getDistributionBundle := (getDistributionBundle default bd bb dim kd amin amax).
Notation apab := (allocatePartiallyAllocatedBundle default bd bb dim kd amin amax expandD offsets).
Notation apabs := (allocatePartiallyAllocatedBundles default bd bb dim kd amin amax expandD offsets).
Notation alloc_neighbour := (alloc_neighbour default bd bb dim kd amin amax).
Notation act := (act default bd bb dim kd amin amax expandD offsets).
Notation act_all := (act_all default bd bb dim kd amin amax expandD offsets).

(** Every distribution is referred to by an allocated bundle. *)
Definition InvD (m : map_t) : Prop :=
  forall i j d, ddom (mshape m) i j -> dget m i j = Some d ->
    exists bi b, bdom (mshape m) bi /\ bget' m bi = Some b /\ gen bi i = j.

(** A bundle with the expand flag cleared has all its valid neighbours. *)
Definition InvE (m : map_t) : Prop :=
  forall bi b, bdom (mshape m) bi -> bget' m bi = Some b -> expand b = false ->
    forall o, In o offsets -> valid m (idx_add bi o) = true ->
      bdom (mshape m) (idx_add bi o) /\ bget' m (idx_add bi o) <> None.

(** Any further invariant that only looks at which bundles exist and at the index range. *)
Variable Q : map_t -> Prop.
Hypothesis Q_step : forall (m m' : map_t) (bi : idx),
  Inv m -> okidx (mshape m) bi -> mshape m' = mshape m ->
  (forall bi', bdom (mshape m) bi' -> (bget' m' bi' <> None <-> bi' = bi \/ bget' m bi' <> None)) ->
  match bget' m bi with
  | Some _ => min_bi m' = min_bi m /\ max_bi m' = max_bi m
  | None => match kd with
            | Static => min_bi m' = min_bi m /\ max_bi m' = max_bi m
            | Dynamic => min_bi m' = amin (min_bi m) bi /\ max_bi m' = amax (max_bi m) bi
            end
  end -> Q m -> Q m'.

Definition InvAll (m : map_t) : Prop := Inv m /\ InvD m /\ InvE m /\ Q m.

(** The map only grew: bundles stay (the flag may be cleared), distributions keep their contents,
    new ones are default, [valid] is unchanged. *)
Record grow (m m' : map_t) : Prop := {
  g_shape : mshape m' = mshape m;
  g_valid : forall x, valid m' x = valid m x;
  g_bund : forall bi b, bdom (mshape m) bi -> bget' m bi = Some b ->
      exists b', bget' m' bi = Some b' /\ slots b' = slots b /\ (expand b = false -> expand b' = false);
  g_dist : forall i j, ddom (mshape m) i j ->
      dget m' i j = dget m i j \/ (dget m i j = None /\ dget m' i j = Some default)
}.

Lemma grow_refl (m : map_t) : grow m m.
Proof.
  constructor; auto. intros bi b _ Hb. exists b. auto.
Qed.

Lemma grow_trans (m1 m2 m3 : map_t) : grow m1 m2 -> grow m2 m3 -> grow m1 m3.
Proof.
  intros [S1 V1 B1 D1] [S2 V2 B2 D2]. constructor.
  - congruence.
  - intros x. rewrite V2. apply V1.
  - intros bi b Hbd Hb. destruct (B1 bi b Hbd Hb) as [b' [Hb' [Hs He]]].
    rewrite <- S1 in Hbd. destruct (B2 bi b' Hbd Hb') as [b'' [Hb'' [Hs' He']]].
    exists b''. split; [exact Hb''|]. split; [congruence|auto].
  - intros i j Hij. specialize (D1 i j Hij). rewrite <- S1 in Hij. specialize (D2 i j Hij).
    destruct D1 as [D1|[D1 D1']], D2 as [D2|[D2 D2']].
    + left; congruence.
    + right; split; congruence.
    + right; split; congruence.
    + congruence.
Qed.

Lemma valid_same (m m' : map_t) :
  match kd with Static => min_bi m' = min_bi m /\ max_bi m' = max_bi m | Dynamic => True end ->
  forall x, valid m' x = valid m x.
Proof.
  intros H x. unfold MapModel.valid. destruct kd; [|reflexivity]. destruct H as [-> ->]. reflexivity.
Qed.

(** ** getAllocate *)
Lemma alloc_grow (m m' : map_t) (bi : idx) :
  alloc_effect default mergeP mergeB bd bb ld lb dim kd amin amax m m' bi -> grow m m'.
Proof.
  intros [_ [Hsh [Hb [Hd Hm]]]]. constructor.
  - exact Hsh.
  - apply valid_same. destruct (bget' m bi); [subst m'; destruct kd; auto|]. destruct kd; auto.
  - intros bi' b Hbd Hb'. rewrite (Hb bi' Hbd). destruct (idx_eqb_spec bi bi') as [<-|].
    + rewrite Hb'. exists b; auto.
    + exists b; auto.
  - intros i j Hij. rewrite (Hd i j Hij). destruct (idx_eqb (gen bi i) j); [|left; reflexivity].
    destruct (dget m i j); auto.
Qed.

Lemma getAllocate_all (m : map_t) (bi : idx) :
  InvAll m -> okidx (mshape m) bi ->
  exists m', getAllocate m bi = Ok m' /\ InvAll m' /\ grow m m' /\ bget' m' bi <> None /\
    (forall bi', bdom (mshape m) bi' -> bi <> bi' -> bget' m' bi' = bget' m bi') /\
    (forall b, bget' m bi = Some b -> m' = m) /\
    (bget' m bi = None -> bget' m' bi = Some {| slots := full bi; expand := true |}) /\
    alloc_effect default mergeP mergeB bd bb ld lb dim kd amin amax m m' bi.
Proof.
  intros [HI [HD [HE HQ]]] Hok.
  destruct (getAllocate_spec default mergeP mergeB bd bb ld lb dim kd amin amax m bi HI Hok) as [m' [E Heff]].
  pose proof (alloc_grow m m' bi Heff) as Hg. pose proof Heff as Heff0.
  destruct Heff as [HI' [Hsh [Hb [Hd Hm]]]].
  assert (Hbd : bdom (mshape m) bi) by apply Hok.
  pose proof (Hb bi Hbd) as Hbb. rewrite idx_eqb_refl in Hbb.
  exists m'. split; [exact E|]. split; [|split; [exact Hg|split; [|split; [|split; [|split]]]]].
  - split; [exact HI'|]. split; [|split].
    + intros i j d Hij Hdj. rewrite Hsh in Hij. rewrite Hsh. rewrite (Hd i j Hij) in Hdj.
      destruct (idx_eqb_spec (gen bi i) j) as [Hj|Hj].
      * exists bi. eexists. split; [exact Hbd|]. split; [exact Hbb|exact Hj].
      * destruct (HD i j d Hij Hdj) as [bi' [b' [H1 [H2 H3]]]].
        destruct (g_bund _ _ Hg bi' b' H1 H2) as [b'' [H4 _]]. exists bi', b''. auto.
    + intros bi' b' Hbd' Hb' Hexp o Ho Hv. rewrite Hsh in Hbd'. rewrite (g_valid _ _ Hg) in Hv.
      rewrite (Hb bi' Hbd') in Hb'. rewrite Hsh.
      destruct (idx_eqb_spec bi bi') as [<-|Hne].
      * destruct (bget' m bi) as [b0|] eqn:Eb; injection Hb' as <-; [|discriminate].
        subst m'. exact (HE bi b0 Hbd Eb Hexp o Ho Hv).
      * destruct (HE bi' b' Hbd' Hb' Hexp o Ho Hv) as [H1 H2]. split; [exact H1|].
        destruct (bget' m (idx_add bi' o)) as [b2|] eqn:E2; [|congruence].
        destruct (g_bund _ _ Hg _ b2 H1 E2) as [b3 [E3 _]]. congruence.
    + apply (Q_step m m' bi HI Hok Hsh); [|destruct (bget' m bi); [subst m'; auto|exact Hm]|exact HQ].
      intros bi' Hbd'. rewrite (Hb bi' Hbd'). destruct (idx_eqb_spec bi bi') as [<-|Hne].
      * split; [auto|discriminate].
      * split; [auto|]. intros [->|H]; [contradiction|exact H].
  - rewrite Hbb. discriminate.
  - intros bi' Hbd' Hne. rewrite (Hb bi' Hbd'). destruct (idx_eqb_spec bi bi'); [contradiction|reflexivity].
  - intros b Hb0. rewrite Hb0 in Hm. exact Hm.
  - intros Hn. rewrite Hn in Hbb. exact Hbb.
  - exact Heff0.
Qed.

(** ** modify_each, modify_bundle *)
Lemma modify_each_all (m : map_t) (bi : idx) (f : nat -> P -> P) :
  InvAll m -> okidx (mshape m) bi ->
  exists m', modify_each default bd bb dim kd amin amax m bi f = Ok m' /\ InvAll m' /\ mshape m' = mshape m /\
    (forall x, valid m' x = valid m x) /\
    each_effect default mergeP mergeB bd bb ld lb dim kd amin amax m m' bi f.
Proof.
  intros [HI [HD [HE HQ]]] Hok.
  destruct (modify_each_spec default mergeP mergeB bd bb ld lb dim kd amin amax m bi f HI Hok) as [m' [E Heff]].
  exists m'. split; [exact E|]. pose proof Heff as Heff0. destruct Heff as [HI' [Hsh [Hb [Hd Hm]]]].
  assert (Hbd : bdom (mshape m) bi) by apply Hok.
  pose proof (Hb bi Hbd) as Hbb. rewrite idx_eqb_refl in Hbb.
  assert (Hv : forall x, valid m' x = valid m x).
  { apply valid_same. destruct (bget' m bi); destruct kd; auto. }
  split; [|split; [exact Hsh|split; [exact Hv|exact Heff0]]].
  split; [exact HI'|]. split; [|split].
  - intros i j d Hij Hdj. rewrite Hsh in Hij. rewrite Hsh. rewrite (Hd i j Hij) in Hdj.
    destruct (idx_eqb_spec (gen bi i) j) as [Hj|Hj].
    + exists bi. eexists. split; [exact Hbd|]. split; [exact Hbb|exact Hj].
    + destruct (HD i j d Hij Hdj) as [bi' [b' [H1 [H2 H3]]]].
      exists bi'. destruct (bget' m' bi') as [b2|] eqn:E2.
      * exists b2. auto.
      * rewrite (Hb bi' H1) in E2. destruct (idx_eqb bi bi'); congruence.
  - intros bi' b' Hbd' Hb' Hexp o Ho Hvo. rewrite Hsh in Hbd'. rewrite Hv in Hvo.
    rewrite (Hb bi' Hbd') in Hb'. rewrite Hsh.
    assert (Hold : bget' m bi' = Some b').
    { destruct (idx_eqb_spec bi bi') as [<-|Hne]; [|exact Hb'].
      destruct (bget' m bi) as [b0|]; injection Hb' as <-; [reflexivity|discriminate]. }
    destruct (HE bi' b' Hbd' Hold Hexp o Ho Hvo) as [H1 H2]. split; [exact H1|].
    rewrite (Hb _ H1). destruct (idx_eqb bi (idx_add bi' o)); [discriminate|exact H2].
  - apply (Q_step m m' bi HI Hok Hsh); [|exact Hm|exact HQ].
    intros bi' Hbd'. rewrite (Hb bi' Hbd'). destruct (idx_eqb_spec bi bi') as [<-|Hne].
    + split; [auto|discriminate].
    + split; [auto|]. intros [->|H]; [contradiction|exact H].
Qed.

Lemma modify_all (m : map_t) (bi : idx) (f : P -> P) :
  InvAll m -> okidx (mshape m) bi ->
  exists m', modify_bundle m bi f = Ok m' /\ InvAll m' /\ mshape m' = mshape m /\
    (forall x, valid m' x = valid m x) /\
    modify_effect default mergeP mergeB bd bb ld lb dim kd amin amax m m' bi f.
Proof. exact (modify_each_all m bi (fun _ => f)). Qed.

(** ** Completing partially allocated bundles *)
Definition has_valid (m : map_t) (bi : idx) : bool :=
  existsb (fun i => match dget m i (gen bi i) with Some v => expandD v | None => false end) (seq 0 bins_n).

Lemma expandBundle_spec (m : map_t) (bi : idx) (fuel : nat) : forall from,
  mwf m -> okidx (mshape m) bi -> (from + fuel = bins_n)%nat ->
  (forall i, (i < bins_n)%nat -> exists d, dget m i (gen bi i) = Some d) ->
  expandBundle_from bd bb expandD m from (map (fun i => Some (gen bi i)) (seq from fuel)) =
  Ok (existsb (fun i => match dget m i (gen bi i) with Some v => expandD v | None => false end) (seq from fuel)).
Proof.
  induction fuel as [|fuel IH]; intros from Hwf Hok Hn Hex; cbn [seq map expandBundle_from existsb]; [reflexivity|].
  unfold slot_value.
  assert (Hd : ddom (mshape m) from (gen bi from)) by (apply Hok; lia).
  destruct (store_at mergeP mergeB bd bb ld lb dim m from (gen bi from) Hwf Hd) as [s [Hs [_ [_ Hg]]]].
  unfold get_store. rewrite Hs. cbn [obind]. rewrite Hg. cbn [obind].
  destruct (Hex from ltac:(lia)) as [d Hdv]. rewrite Hdv. cbn [obind].
  destruct (expandD d); cbn [orb]; [reflexivity|]. apply IH; auto. lia.
Qed.

Definition neighbours_ok (m : map_t) (bi : idx) : Prop :=
  forall o, In o offsets -> valid m (idx_add bi o) = true -> okidx (mshape m) (idx_add bi o).

Lemma neighbour_loop (bi : idx) (os : list idx) : forall m,
  InvAll m -> (forall o, In o os -> valid m (idx_add bi o) = true -> okidx (mshape m) (idx_add bi o)) ->
  exists m', ofold (alloc_neighbour bi) os m = Ok m' /\ InvAll m' /\ grow m m' /\
    (forall o, In o os -> valid m (idx_add bi o) = true -> bget' m' (idx_add bi o) <> None) /\
    (forall bi', bdom (mshape m) bi' -> bget' m bi' <> None -> bget' m' bi' = bget' m bi') /\
    (forall bi', bdom (mshape m) bi' -> bget' m bi' = None ->
       bget' m' bi' = None \/
       bget' m' bi' = Some {| slots := full bi'; expand := true |} /\
       exists o, In o os /\ valid m (idx_add bi o) = true /\ idx_add bi o = bi') /\
    ((forall o, In o os -> valid m (idx_add bi o) = true -> bget' m (idx_add bi o) <> None) -> m' = m).
Proof.
  induction os as [|o os IH]; intros m HI Hok; cbn [ofold].
  - exists m. split; [reflexivity|]. split; [exact HI|]. split; [apply grow_refl|].
    split; [intros o []|]. split; [reflexivity|]. split; [auto|reflexivity].
  - unfold MapModel.alloc_neighbour at 1. destruct (valid m (idx_add bi o)) eqn:Ev.
    + destruct (getAllocate_all m (idx_add bi o) HI (Hok o (or_introl eq_refl) Ev))
        as [m1 [E1 [HI1 [Hg1 [Hn1 [Ho1 [Hs1 [Hf1 _]]]]]]]].
      rewrite E1. cbn [obind].
      destruct (IH m1 HI1) as [m' [E2 [HI2 [Hg2 [Hn2 [Ho2 [Hf2 Hid2]]]]]]].
      { intros o' Ho' Hv'. rewrite (g_shape _ _ Hg1). rewrite (g_valid _ _ Hg1) in Hv'.
        apply Hok; [right; exact Ho'|exact Hv']. }
      assert (Hbd1 : bdom (mshape m) (idx_add bi o)) by (apply (Hok o (or_introl eq_refl) Ev)).
      exists m'. split; [exact E2|]. split; [exact HI2|]. split; [eapply grow_trans; eassumption|].
      split; [|split; [|split]].
      * intros o' [<-|Ho'] Hv'.
        -- rewrite Ho2; [exact Hn1| rewrite (g_shape _ _ Hg1); exact Hbd1|exact Hn1].
        -- apply Hn2; [exact Ho'|]. rewrite (g_valid _ _ Hg1). exact Hv'.
      * intros bi' Hbd' Hne.
        destruct (list_eq_dec Z.eq_dec (idx_add bi o) bi') as [He|He].
        -- subst bi'. destruct (bget' m (idx_add bi o)) as [b|] eqn:Eb; [|congruence].
           rewrite (Hs1 b eq_refl) in *. rewrite Ho2; [exact Eb|exact Hbd'|congruence].
        -- rewrite Ho2; [apply Ho1; assumption|rewrite (g_shape _ _ Hg1); exact Hbd'|].
           rewrite (Ho1 bi' Hbd' He). exact Hne.
      * intros bi' Hbd' Hno.
        destruct (list_eq_dec Z.eq_dec (idx_add bi o) bi') as [He|He].
        -- right. subst bi'. split.
           ++ rewrite Ho2; [apply Hf1; exact Hno|rewrite (g_shape _ _ Hg1); exact Hbd'|exact Hn1].
           ++ exists o. split; [left; reflexivity|]. auto.
        -- destruct (Hf2 bi') as [Hnn|[Hnew [o' [Ho' [Hv' Ha']]]]].
           ++ rewrite (g_shape _ _ Hg1); exact Hbd'.
           ++ rewrite (Ho1 bi' Hbd' He). exact Hno.
           ++ left; exact Hnn.
           ++ right. split; [exact Hnew|]. exists o'. split; [right; exact Ho'|].
              rewrite (g_valid _ _ Hg1) in Hv'. auto.
      * intros Hall. pose proof (Hall o (or_introl eq_refl) Ev) as Hne.
        destruct (bget' m (idx_add bi o)) as [b|] eqn:Eb; [|congruence].
        rewrite (Hs1 b eq_refl) in *. apply Hid2. intros o' Ho' Hv'. apply Hall; [right; exact Ho'|exact Hv'].
    + cbn [obind]. destruct (IH m HI) as [m' [E2 [HI2 [Hg2 [Hn2 [Ho2 [Hf2 Hid2]]]]]]].
      { intros o' Ho' Hv'. apply Hok; [right; exact Ho'|exact Hv']. }
      exists m'. split; [exact E2|]. split; [exact HI2|]. split; [exact Hg2|].
      split; [|split; [exact Ho2|split]].
      * intros o' [<-|Ho'] Hv'; [congruence|]. apply Hn2; assumption.
      * intros bi' Hbd' Hno. destruct (Hf2 bi' Hbd' Hno) as [Hnn|[Hnew [o' [Ho' Hv']]]]; [left; exact Hnn|].
        right. split; [exact Hnew|]. exists o'. split; [right; exact Ho'|exact Hv'].
      * intros Hall. apply Hid2. intros o' Ho' Hv'. apply Hall; [right; exact Ho'|exact Hv'].
Qed.

Lemma has_valid_grow (m m' : map_t) (bi : idx) :
  expandD default = false -> okidx (mshape m) bi -> grow m m' -> has_valid m' bi = has_valid m bi.
Proof.
  intros Hdef Hok Hg. unfold has_valid.
  assert (Hall : forall i, In i (seq 0 bins_n) ->
    (match dget m' i (gen bi i) with Some v => expandD v | None => false end) =
    (match dget m i (gen bi i) with Some v => expandD v | None => false end)).
  { intros i Hi. apply in_seq in Hi.
    destruct (g_dist _ _ Hg i (gen bi i) (proj2 (proj2 Hok) i ltac:(lia))) as [->|[-> ->]]; [reflexivity|exact Hdef]. }
  induction (seq 0 bins_n) as [|i l IH]; cbn [existsb]; [reflexivity|].
  rewrite Hall by (left; reflexivity). rewrite IH; [reflexivity|].
  intros k Hk. apply Hall. right; exact Hk.
Qed.

(** Effect of completing one bundle. *)
Lemma apab_spec (m : map_t) (bi : idx) (b : bundle) :
  InvAll m -> bdom (mshape m) bi -> bget' m bi = Some b -> neighbours_ok m bi ->
  exists m', apab m bi = Ok m' /\ InvAll m' /\ grow m m' /\
    (forall bi', bdom (mshape m) bi' -> bget' m bi' <> None -> bi <> bi' -> bget' m' bi' = bget' m bi') /\
    (forall bi', bdom (mshape m) bi' -> bget' m bi' = None ->
       bget' m' bi' = None \/
       bget' m' bi' = Some {| slots := full bi'; expand := true |} /\
       exists o, In o offsets /\ valid m (idx_add bi o) = true /\ idx_add bi o = bi') /\
    (if expand b && has_valid m bi
     then bget' m' bi = Some (set_expanded b) /\
          (forall o, In o offsets -> valid m (idx_add bi o) = true -> bget' m' (idx_add bi o) <> None)
     else m' = m).
Proof.
  intros HA Hbd Hb Hnok. pose proof HA as [HI [HD [HE HQ]]]. destruct HI as [Hwf HI].
  destruct (HI bi b Hbd Hb) as [Hok [Hsl Hex]].
  unfold allocatePartiallyAllocatedBundle.
  rewrite (bundle_at mergeP mergeB bd bb ld lb dim m bi Hwf Hbd), Hb. cbn [obind].
  destruct (expand b) eqn:Eexp; cbn [andb].
  2: { exists m. split; [reflexivity|]. split; [exact HA|]. split; [apply grow_refl|]. auto. }
  unfold expandBundle. rewrite Hsl. unfold full_slots.
  rewrite (expandBundle_spec m bi bins_n 0 Hwf Hok eq_refl Hex). cbn [obind].
  fold (has_valid m bi). destruct (has_valid m bi) eqn:Ehv.
  2: { exists m. split; [reflexivity|]. split; [exact HA|]. split; [apply grow_refl|]. auto. }
  destruct (neighbour_loop bi offsets m HA Hnok) as [m1 [E1 [HA1 [Hg1 [Hn1 [Ho1 [Hf1 _]]]]]]].
  rewrite E1. cbn [obind].
  pose proof HA1 as [[Hwf1 HI1] [HD1 [HE1 HQ1]]].
  assert (Hbd1 : bdom (mshape m1) bi) by (rewrite (g_shape _ _ Hg1); exact Hbd).
  assert (Hb1 : bget' m1 bi = Some b) by (rewrite Ho1; [exact Hb|exact Hbd|congruence]).
  destruct (bmod_spec mergeP mergeB bd bb ld lb dim m1 bi set_expanded b Hwf1 Hbd1 Hb1)
    as [bs [E2 [Hwf2 [Hsh2 [Hst2 [Hmn2 [Hmx2 Hb2]]]]]]].
  rewrite E2. cbn [obind]. set (m2 := set_bundles bd bb m1 bs) in *.
  assert (Hv2 : forall x, valid m2 x = valid m1 x) by (apply valid_same; destruct kd; auto).
  assert (Hg2 : grow m1 m2).
  { constructor.
    - exact Hsh2.
    - exact Hv2.
    - intros bi' b' Hbd' Hb'. rewrite (Hb2 bi' Hbd'). destruct (idx_eqb_spec bi bi') as [<-|].
      + rewrite Hb1 in Hb'. injection Hb' as <-. exists (set_expanded b). auto.
      + exists b'. auto.
    - intros i j Hij. left. apply dget_stores. exact Hst2. }
  assert (Hn2 : forall bi', bdom (mshape m1) bi' -> bget' m1 bi' <> None -> bget' m2 bi' <> None).
  { intros bi' Hbd' Hne. rewrite (Hb2 bi' Hbd'). destruct (idx_eqb bi bi'); [discriminate|exact Hne]. }
  exists m2. split; [reflexivity|]. split; [|split; [eapply grow_trans; eassumption|split; [|split]]].
  - split; [split; [exact Hwf2|]|split; [|split]].
    + rewrite Hsh2. intros bi' b' Hbd' Hb'. rewrite (Hb2 bi' Hbd') in Hb'.
      assert (Hd12 : forall i j, dget m2 i j = dget m1 i j) by (intros; apply dget_stores; exact Hst2).
      destruct (idx_eqb_spec bi bi') as [<-|].
      * injection Hb' as <-. destruct (HI1 bi b Hbd1 Hb1) as [A [B C]].
        split; [exact A|]. split; [exact B|]. intros i Hi. rewrite Hd12. apply C; exact Hi.
      * destruct (HI1 bi' b' Hbd' Hb') as [A [B C]].
        split; [exact A|]. split; [exact B|]. intros i Hi. rewrite Hd12. apply C; exact Hi.
    + intros i j d Hij Hd. rewrite Hsh2 in Hij. rewrite (dget_stores bd bb m1 m2 i j Hst2) in Hd.
      destruct (HD1 i j d Hij Hd) as [bi' [b' [H1 [H2 H3]]]]. rewrite Hsh2.
      destruct (g_bund _ _ Hg2 bi' b' H1 H2) as [b'' [H4 _]]. exists bi', b''. auto.
    + intros bi' b' Hbd' Hb' Hexp o Ho Hvo. rewrite Hsh2 in *. rewrite Hv2 in Hvo.
      rewrite (Hb2 bi' Hbd') in Hb'.
      destruct (idx_eqb_spec bi bi') as [<-|Hne].
      * rewrite (g_valid _ _ Hg1) in Hvo.
        assert (Hbo : bdom (mshape m1) (idx_add bi o)).
        { rewrite (g_shape _ _ Hg1). apply (Hnok o Ho Hvo). }
        split; [exact Hbo|]. apply Hn2; [exact Hbo|]. apply Hn1; assumption.
      * destruct (HE1 bi' b' Hbd' Hb' Hexp o Ho Hvo) as [H1 H2]. split; [exact H1|].
        apply Hn2; assumption.
    + apply (Q_step m1 m2 bi); [split; assumption|apply (HI1 bi b Hbd1 Hb1)|exact Hsh2| | |exact HQ1].
      * intros bi' Hbd'. rewrite (Hb2 bi' Hbd'). destruct (idx_eqb_spec bi bi') as [<-|Hne].
        -- split; [auto|discriminate].
        -- split; [auto|]. intros [->|H]; [contradiction|exact H].
      * rewrite Hb1. auto.
  - intros bi' Hbd' Hne Hd. rewrite (Hb2 bi') by (rewrite (g_shape _ _ Hg1); exact Hbd').
    destruct (idx_eqb_spec bi bi'); [contradiction|]. apply Ho1; assumption.
  - intros bi' Hbd' Hno. rewrite (Hb2 bi') by (rewrite (g_shape _ _ Hg1); exact Hbd').
    destruct (idx_eqb_spec bi bi') as [<-|]; [congruence|]. apply Hf1; assumption.
  - split.
    + rewrite (Hb2 bi Hbd1), idx_eqb_refl. reflexivity.
    + intros o Ho Hv. apply Hn2; [rewrite (g_shape _ _ Hg1); apply (Hnok o Ho Hv)|]. apply Hn1; assumption.
Qed.

(** One pass over a snapshot of the bundles. *)
Definition all_neighbours (m : map_t) (bi : idx) : Prop :=
  forall o, In o offsets -> valid m (idx_add bi o) = true -> bget' m (idx_add bi o) <> None.

Lemma apabs_loop (Hdef : expandD default = false) (l : list idx) : forall m,
  InvAll m -> NoDup l ->
  (forall bi, In bi l -> bdom (mshape m) bi /\ bget' m bi <> None /\ neighbours_ok m bi) ->
  exists m', ofold apab l m = Ok m' /\ InvAll m' /\ grow m m' /\
    (forall bi, In bi l -> has_valid m bi = true ->
       exists b', bget' m' bi = Some b' /\ expand b' = false) /\
    (forall bi', bdom (mshape m) bi' -> bget' m bi' <> None -> ~ In bi' l -> bget' m' bi' = bget' m bi') /\
    (forall bi', In bi' l -> has_valid m bi' = false -> bget' m' bi' = bget' m bi') /\
    (forall bi', bdom (mshape m) bi' -> bget' m bi' = None ->
       bget' m' bi' = None \/
       bget' m' bi' = Some {| slots := full bi'; expand := true |} /\
       exists bi o, In bi l /\ has_valid m bi = true /\ In o offsets /\
         valid m (idx_add bi o) = true /\ idx_add bi o = bi') /\
    ((forall bi b, In bi l -> bget' m bi = Some b -> expand b && has_valid m bi = false) -> m' = m).
Proof.
  induction l as [|bi l IH]; intros m HA Hnd Hl; cbn [ofold].
  - exists m. split; [reflexivity|]. split; [exact HA|]. split; [apply grow_refl|].
    split; [intros bi []|]. split; [reflexivity|]. split; [intros bi' []|]. split; [auto|reflexivity].
  - inversion Hnd as [|? ? Hni Hnd']; subst.
    destruct (Hl bi (or_introl eq_refl)) as [Hbd [Hne Hnok]].
    destruct (bget' m bi) as [b|] eqn:Eb; [|congruence].
    destruct (apab_spec m bi b HA Hbd Eb Hnok) as [m1 [E1 [HA1 [Hg1 [Ho1 [Hf1 Hif]]]]]].
    rewrite E1. cbn [obind].
    assert (Hpres : forall bi', bdom (mshape m) bi' -> bget' m bi' <> None -> bget' m1 bi' <> None).
    { intros bi' Hbd' Hb'. destruct (bget' m bi') as [b'|] eqn:Eb'; [|congruence].
      destruct (g_bund _ _ Hg1 bi' b' Hbd' Eb') as [b'' [E'' _]]. congruence. }
    assert (Hokb : forall bi', bdom (mshape m) bi' -> bget' m bi' <> None -> okidx (mshape m) bi').
    { intros bi' Hbd' Hb'. destruct (bget' m bi') as [b'|] eqn:Eb'; [|congruence].
      apply (proj2 (proj1 HA) bi' b' Hbd' Eb'). }
    destruct (IH m1 HA1 Hnd') as [m' [E2 [HA2 [Hg2 [Hv2 [Ho2 [Hs2 [Hf2 Hid2]]]]]]]].
    { intros bi' Hin. destruct (Hl bi' (or_intror Hin)) as [A [B C]].
      split; [rewrite (g_shape _ _ Hg1); exact A|]. split; [apply Hpres; assumption|].
      intros o Ho Hv. rewrite (g_shape _ _ Hg1). rewrite (g_valid _ _ Hg1) in Hv. apply C; assumption. }
    exists m'. split; [exact E2|]. split; [exact HA2|]. split; [eapply grow_trans; eassumption|].
    assert (Hhv : forall bi', bdom (mshape m) bi' -> bget' m bi' <> None -> has_valid m1 bi' = has_valid m bi').
    { intros bi' A B. apply has_valid_grow; [exact Hdef|apply Hokb; assumption|exact Hg1]. }
    split; [|split; [|split; [|split]]].
    + intros bi' [<-|Hin] Hv.
      * rewrite Hv in Hif. destruct (expand b) eqn:Eexp; cbn [andb] in Hif.
        -- destruct Hif as [Hset _]. rewrite Ho2; [eauto|rewrite (g_shape _ _ Hg1); exact Hbd|congruence|exact Hni].
        -- subst m1. rewrite Ho2; [eauto|exact Hbd|congruence|exact Hni].
      * destruct (Hl bi' (or_intror Hin)) as [A [B C]].
        apply Hv2; [exact Hin|]. rewrite (Hhv bi' A B). exact Hv.
    + intros bi' Hbd' Hb' Hnin.
      assert (bi <> bi') by (intros ->; apply Hnin; left; reflexivity).
      rewrite Ho2; [apply Ho1; assumption|rewrite (g_shape _ _ Hg1); exact Hbd'|apply Hpres; assumption|].
      intros Hin; apply Hnin; right; exact Hin.
    + intros bi' [<-|Hin] Hv.
      * rewrite Hv, andb_false_r in Hif. subst m1.
        apply Ho2; [exact Hbd|congruence|exact Hni].
      * destruct (Hl bi' (or_intror Hin)) as [A [B C]].
        rewrite (Hs2 bi' Hin); [|rewrite (Hhv bi' A B); exact Hv].
        apply Ho1; [exact A|exact B|]. intros ->; contradiction.
    + intros bi' Hbd' Hno. destruct (Hf1 bi' Hbd' Hno) as [Hn|[Hn [o [Ho [Hv Ha]]]]].
      * destruct (Hf2 bi') as [H0|[H0 [bx [o [H3 [Hvx [H4 [H5 H6]]]]]]]];
          [rewrite (g_shape _ _ Hg1); exact Hbd'|exact Hn|left; exact H0|].
        right. split; [exact H0|]. exists bx, o. rewrite (g_valid _ _ Hg1) in H5.
        split; [right; exact H3|]. destruct (Hl bx (or_intror H3)) as [A [B _]].
        rewrite (Hhv bx A B) in Hvx. auto.
      * right. split.
        -- rewrite Ho2; [exact Hn|rewrite (g_shape _ _ Hg1); exact Hbd'|congruence|].
           intros Hin. destruct (Hl bi' (or_intror Hin)) as [_ [B _]]. congruence.
        -- exists bi, o. split; [left; reflexivity|]. split; [|auto].
           destruct (has_valid m bi); [reflexivity|]. rewrite andb_false_r in Hif. subst m1. congruence.
    + intros Hall. rewrite (Hall bi b (or_introl eq_refl) Eb) in Hif. subst m1. apply Hid2.
      intros bi' b' Hin Hb'. apply Hall; [right; exact Hin|exact Hb'].
Qed.

Definition expandable (m : map_t) : Prop :=
  forall bi, bdom (mshape m) bi -> bget' m bi <> None -> neighbours_ok m bi.

Lemma bundle_list (m : map_t) :
  mwf m -> exists es, btrav bb (bundles m) = Ok es /\ NoDup (map fst es) /\
    forall bi b, In (bi, b) es <-> bdom (mshape m) bi /\ bget' m bi = Some b.
Proof.
  intros Hwf. destruct (l_trav lb (bundles m) (proj2 (proj2 Hwf))) as [es [E [Hn Hin]]].
  exists es. split; [exact E|]. split; [exact Hn|]. intros bi b. rewrite Hin.
  split; intros [A B]; (split; [exact A|]).
  - pose proof (bundle_at mergeP mergeB bd bb ld lb dim m bi Hwf A) as C. congruence.
  - rewrite (bundle_at mergeP mergeB bd bb ld lb dim m bi Hwf A). congruence.
Qed.

Lemma apabs_spec (Hdef : expandD default = false) (m : map_t) :
  InvAll m -> expandable m ->
  exists m', apabs m = Ok m' /\ InvAll m' /\ grow m m' /\
    (forall bi, bdom (mshape m) bi -> bget' m bi <> None -> has_valid m bi = true ->
       exists b', bget' m' bi = Some b' /\ expand b' = false) /\
    (forall bi, bdom (mshape m) bi -> bget' m bi <> None -> has_valid m bi = false ->
       bget' m' bi = bget' m bi) /\
    (forall bi, bdom (mshape m) bi -> bget' m bi = None ->
       bget' m' bi = None \/
       bget' m' bi = Some {| slots := full bi; expand := true |} /\
       exists bi0 o, bdom (mshape m) bi0 /\ bget' m bi0 <> None /\ has_valid m bi0 = true /\ In o offsets /\
         valid m (idx_add bi0 o) = true /\ idx_add bi0 o = bi) /\
    ((forall bi b, bdom (mshape m) bi -> bget' m bi = Some b -> expand b && has_valid m bi = false) -> m' = m).
Proof.
  intros HA Hex. unfold allocatePartiallyAllocatedBundles.
  destruct (bundle_list m (proj1 (proj1 HA))) as [es [E [Hn Hin]]]. rewrite E. cbn [obind].
  assert (Hin' : forall bi, In bi (map fst es) <-> bdom (mshape m) bi /\ bget' m bi <> None).
  { intros bi. rewrite in_map_iff. split.
    - intros [[bi' b] [He Hb]]. cbn in He; subst bi'. apply Hin in Hb. destruct Hb; split; congruence.
    - intros [A B]. destruct (bget' m bi) as [b|] eqn:Eb; [|congruence].
      exists (bi, b). split; [reflexivity|]. apply Hin. auto. }
  destruct (apabs_loop Hdef (map fst es) m HA Hn) as [m' [E' [HA' [Hg [Hv [Ho [Hs [Hf Hid]]]]]]]].
  { intros bi Hbi. apply Hin' in Hbi. destruct Hbi as [A B]. split; [exact A|]. split; [exact B|].
    apply Hex; assumption. }
  exists m'. split; [exact E'|]. split; [exact HA'|]. split; [exact Hg|].
  split; [|split; [|split]].
  - intros bi A B Hvb. apply Hv; [apply Hin'; auto|exact Hvb].
  - intros bi A B Hvb. apply Hs; [apply Hin'; auto|exact Hvb].
  - intros bi A B. destruct (Hf bi A B) as [H0|[H0 [bx [o [H3 [H4 H5]]]]]]; [left; exact H0|].
    right. split; [exact H0|]. exists bx, o. apply Hin' in H3. destruct H3. auto.
  - intros H. apply Hid. intros bi b Hbi Hb. apply Hin' in Hbi. apply H; [apply Hbi|exact Hb].
Qed.

(** ** General histories *)
Definition content (m : map_t) (i : nat) (j : idx) : P :=
  match dget m i j with Some v => v | None => default end.

(** The functions a history applies to cell [(i, j)], in order. *)
Fixpoint updates_at (l : list (map_action (P:=P))) (i : nat) (j : idx) : list (P -> P) :=
  match l with
  | [] => []
  | Modify bi f :: l' => if idx_eqb (gen bi i) j then f :: updates_at l' i j else updates_at l' i j
  | _ :: l' => updates_at l' i j
  end.

Definition act_ok (m : map_t) (a : map_action (P:=P)) : Prop :=
  match a with
  | Modify bi _ => okidx (mshape m) bi
  | Touch bi => valid m bi = true -> okidx (mshape m) bi
  | ExpandAll => expandable m
  end.

Lemma act_spec (Hdef : expandD default = false) (m : map_t) (a : map_action (P:=P)) :
  InvAll m -> act_ok m a ->
  exists m', act m a = Ok m' /\ InvAll m' /\ mshape m' = mshape m /\ (forall x, valid m' x = valid m x) /\
    (forall i j, ddom (mshape m) i j ->
       content m' i j = fold_left (fun v f => f v) (updates_at [a] i j) (content m i j)) /\
    (forall bi, bdom (mshape m) bi -> bget' m bi <> None -> bget' m' bi <> None) /\
    (forall bi, bdom (mshape m) bi -> bget' m bi = None -> bget' m' bi <> None ->
       match a with
       | Modify b _ => bi = b
       | Touch b => bi = b /\ valid m b = true
       | ExpandAll => exists bi0 o, bdom (mshape m) bi0 /\ bget' m bi0 <> None /\ In o offsets /\
                        valid m bi = true /\ idx_add bi0 o = bi
       end).
Proof.
  intros HA Hok. destruct a as [bi f|bi|]; cbn [act_ok MapModel.act updates_at] in *.
  - destruct (modify_all m bi f HA Hok) as [m' [E [HA' [Hsh [Hv Heff]]]]].
    exists m'. split; [exact E|]. split; [exact HA'|]. split; [exact Hsh|]. split; [exact Hv|].
    destruct Heff as [_ [_ [Hb [Hd _]]]]. split.
    + intros i j Hij. unfold content. rewrite (Hd i j Hij).
      destruct (idx_eqb (gen bi i) j); reflexivity.
    + split; intros bi' Hbd Hne; rewrite (Hb bi' Hbd); destruct (idx_eqb_spec bi bi'); try congruence; auto.
  - unfold MapModel.getDistributionBundle. destruct (valid m bi) eqn:Ev.
    + destruct (getAllocate_all m bi HA (Hok eq_refl)) as [m' [E [HA' [Hg [_ [Ho _]]]]]].
      rewrite E. cbn [obind fst]. exists m'. split; [reflexivity|]. split; [exact HA'|].
      split; [apply (g_shape _ _ Hg)|]. split; [apply (g_valid _ _ Hg)|]. split.
      * intros i j Hij. cbn [fold_left]. unfold content.
        destruct (g_dist _ _ Hg i j Hij) as [->|[-> ->]]; reflexivity.
      * split; intros bi' Hbd Hne.
        -- destruct (bget' m bi') as [b|] eqn:Eb; [|congruence].
           destruct (g_bund _ _ Hg bi' b Hbd Eb) as [b' [-> _]]. discriminate.
        -- intros Hn. destruct (list_eq_dec Z.eq_dec bi bi') as [<-|Hd]; [auto|].
           rewrite (Ho bi' Hbd Hd) in Hn. contradiction.
    + cbn [obind fst]. exists m. split; [reflexivity|]. split; [exact HA|].
      split; [reflexivity|]. split; [reflexivity|]. split; [reflexivity|]. split; [auto|]. intros; contradiction.
  - destruct (apabs_spec Hdef m HA Hok) as [m' [E [HA' [Hg [_ [_ [Hnew _]]]]]]].
    exists m'. split; [exact E|]. split; [exact HA'|].
    split; [apply (g_shape _ _ Hg)|]. split; [apply (g_valid _ _ Hg)|]. split.
    + intros i j Hij. cbn [fold_left]. unfold content.
      destruct (g_dist _ _ Hg i j Hij) as [->|[-> ->]]; reflexivity.
    + split; intros bi' Hbd Hne.
      * destruct (bget' m bi') as [b|] eqn:Eb; [|congruence].
        destruct (g_bund _ _ Hg bi' b Hbd Eb) as [b' [-> _]]. discriminate.
      * intros Hn. destruct (Hnew bi' Hbd Hne) as [H0|[_ [b0 [o [A [B [_ [C [D <-]]]]]]]]]; [contradiction|].
        exists b0, o. auto.
Qed.

End Hist.

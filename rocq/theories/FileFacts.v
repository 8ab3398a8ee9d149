(** Facts about saving and loading a map. *)
From Verif Require Import Base SeqModel SeqFacts IndexModel IndexFacts OctreeSpec OctreeModel OctreeFacts
  MapModel MapFacts MapHist BackendModel BackendFacts SysModel SysSpec SysFacts MapLifeFacts ConvSpec ConvFacts
  LoaderModel SerialModel SerialSpec SerialFacts ThreadModel ThreadSpec ThreadFacts FileModel.
Open Scope Z_scope.

Lemma nat_choice {A : Type} (Q : nat -> A -> Prop) (n : nat) :
  (forall i, (i < n)%nat -> exists x, Q i x) ->
  exists l, length l = n /\ forall i, (i < n)%nat -> exists x, nth_error l i = Some x /\ Q i x.
Proof.
  induction n as [|n IH]; intros H.
  - exists []. split; [reflexivity|]. intros i Hi; lia.
  - destruct IH as [l [L Hl]]; [intros i Hi; apply H; lia|]. destruct (H n ltac:(lia)) as [x Hx].
    exists (l ++ [x]). split; [rewrite app_length; cbn; lia|]. intros i Hi.
    destruct (Nat.eq_dec i n) as [->|Hne].
    + exists x. split; [rewrite nth_error_app2 by lia; rewrite L, Nat.sub_diag; reflexivity|exact Hx].
    + destruct (Hl i ltac:(lia)) as [y [E Q']]. exists y. split; [rewrite nth_error_app1 by lia; exact E|exact Q'].
Qed.

Lemma map_seq_nth {A B : Type} (f : nat -> B) (h : A -> B) (l : list A) :
  (forall i x, nth_error l i = Some x -> f i = h x) -> map f (seq 0 (length l)) = map h l.
Proof.
  intros H. apply nth_error_ext_list; [rewrite !map_length, seq_length; reflexivity|].
  intros i Hi. rewrite map_length, seq_length in Hi. rewrite !nth_error_map.
  destruct (nth_error l i) as [x|] eqn:E; [|apply nth_error_None in E; lia].
  rewrite (nth_error_nth' (seq 0 (length l)) 0%nat) by (rewrite seq_length; exact Hi). rewrite seq_nth by exact Hi.
  cbn [option_map Nat.add]. f_equal. apply H; exact E.
Qed.

Section Fresh.
Context {P : Type}.
Variable c : config P.
Hypothesis Hk : kindc c = Dynamic.
Notation ld := (dist_laws (mergec c) (dimc c) (kindc c)).
Notation lb := (bundle_laws (dimc c) (kindc c)).

Lemma fresh_store_new (g : nat -> Z) (size : list Z) (min : idx) (i : nat) :
  bwf ld (fresh_store c g size min i) /\
  (forall j, dom ld (shape ld (fresh_store c g size min i)) j -> bget (bdc c) (fresh_store c g size min i) j = Ok None) /\
  (forall s : st (bdc c), shape ld (fresh_store c g size min i) = shape ld s).
Proof.
  unfold fresh_store, bdc. revert Hk. destruct (kindc c); intros K; try discriminate K.
  cbn [dist_laws dist_backend octree_laws octree_backend bwf dom shape bget].
  split; [apply octree_new_wf|]. split; [|reflexivity].
  intros j Hj. rewrite (oct_get (dimc c) (octree_new (g i)) j (octree_new_wf _ _ (g i)) Hj). reflexivity.
Qed.
Lemma fresh_bundles_new (g : nat -> Z) (size : list Z) (min : idx) :
  bwf lb (fresh_bundles c g size min) /\
  (forall j, dom lb (shape lb (fresh_bundles c g size min)) j -> bget (bbc c) (fresh_bundles c g size min) j = Ok None) /\
  (forall s : st (bbc c), shape lb (fresh_bundles c g size min) = shape lb s).
Proof.
  unfold fresh_bundles, bbc. revert Hk. destruct (kindc c); intros K; try discriminate K.
  cbn [bundle_laws bundle_backend octree_laws octree_backend bwf dom shape bget].
  split; [apply octree_new_wf|]. split; [|reflexivity].
  intros j Hj. rewrite (oct_get (dimc c) (octree_new (g (bin_count (dimc c)))) j (octree_new_wf _ _ (g (bin_count (dimc c)))) Hj).
  reflexivity.
Qed.
Lemma store_index (sh : shape_t ld) (j : idx) : dom ld sh j -> length j = dimc c /\ Forall (fun z => int_ok z = true) j.
Proof.
  revert sh. revert Hk. destruct (kindc c); intros K; try discriminate K. intros sh. apply tree_range_int.
Qed.
Lemma store_range (sh : shape_t ld) (j : idx) : dom ld sh j -> length j = dimc c /\ Forall (fun z => -32768 <= z <= 32767) j.
Proof.
  revert sh. unfold bdc. revert Hk. destruct (kindc c); intros K; try discriminate K. intros sh H. exact H.
Qed.
End Fresh.

Section Trip.
Variable junk : list Z -> nat -> list Z.
Context {P Po T : Type}.
Variable po : codec Po.
Variable tp : codec T.
Variable fmt : format P.
Variable ok : P -> Prop.
Variable len : nat.
Hypothesis Hpo : codec_ok po.
Hypothesis Htp : codec_ok tp.
Hypothesis Hfmt : format_ok fmt ok len.
Hypothesis Hcount : f_count fmt = Z.of_nat len.
Variable c : config P.
Hypothesis Hc : config_ok c.
Hypothesis Hk : kindc c = Dynamic.
Hypothesis Hmin : aminc c = cw_min.
Hypothesis Hmax : amaxc c = cw_max.
Hypothesis Hdim : (0 < dimc c)%nat.
Notation ld := (dist_laws (mergec c) (dimc c) (kindc c)).
Notation lb := (bundle_laws (dimc c) (kindc c)).
Notation n := (bin_count (dimc c)).
Notation sh0 := (cshape c (new_map c)).
Variable m : cmap c.
Hypothesis HI : cInv c m.
Hypothesis HR : region c 0 m.
Hypothesis Hok : forall i j v, has_value c m i j v -> ok v.

Lemma ddom_cell (i : nat) (j : idx) : (i < n)%nat -> cddom c sh0 i j -> cell_exists c i j.
Proof.
  intros Hi H. unfold cell_exists. rewrite <- two_pow_spec. split; [exact Hi|].
  unfold cddom, ddom in H. destruct (nth_error (fst sh0) i) as [x|]; [|contradiction].
  apply (store_range c Hk) in H. rewrite Hk. exact H.
Qed.

Lemma one_storage (g : nat -> Z) (size : list Z) (min : idx) (i : nat) : (i < n)%nat ->
  exists s file s', nth_error (stores m) i = Some s /\
    storage_save (bdc c) fmt s = Ok file /\
    storage_load junk (bdc c) (dimc c) fmt file (fresh_store c g size min i) = Ok (s', []) /\
    bwf ld s' /\ shape ld s' = shape ld s /\
    (forall j, dom ld (shape ld s) j -> bget (bdc c) s' j = bget (bdc c) s j).
Proof.
  intros Hi. pose proof HI as [[[[HL [HF HB]] _] _] [Hsh _]].
  destruct (nth_error (stores m) i) as [s|] eqn:Es; [|apply nth_error_None in Es; lia].
  assert (Hw : bwf ld s) by (rewrite Forall_forall in HF; apply HF; eapply nth_error_In; exact Es).
  destruct (fresh_store_new c Hk g size min i) as [W0 [E0 S0]].
  destruct (storage_round_trip junk (mergec c) (bdc c) ld (dimc c) fmt ok len Hfmt s (fresh_store c g size min i) Hw W0 (S0 s) E0)
    as [es [file [s' [_ [Hs [_ [Hl [W' [S' G']]]]]]]]].
  - intros j. apply (store_index c Hk).
  - intros j v Hj Hv.
    assert (Hdd : cddom c sh0 i j).
    { rewrite <- Hsh. unfold cddom, ddom, cshape, mshape. cbn [fst]. rewrite nth_error_map, Es. exact Hj. }
    apply (Hok i j v). apply (has_value_iff c Hc m i j v HI). split; [apply ddom_cell; assumption|].
    unfold cdget, dget. rewrite Es, Hv. reflexivity.
  - exact Hcount.
  - lia.
  - exists s, file, s'. auto 10.
Qed.

Lemma all_storages (g : nat -> Z) (size : list Z) (min : idx) :
  exists files ss, length files = n /\ length ss = n /\
    map (save_operation fmt c all_open m) (seq 0 n) = map (fun r => Ok (true, r)) (map Some files) /\
    map (load_operation junk fmt c all_open (fresh_store c g size min) (map Some files)) (seq 0 n) =
      map (fun r => Ok (true, r)) (map Some ss) /\
    Forall (bwf ld) ss /\ map (shape ld) ss = map (shape ld) (stores m) /\
    (forall i j, cddom c sh0 i j -> exists s', nth_error ss i = Some s' /\ bget (bdc c) s' j = Ok (cdget c m i j)).
Proof.
  destruct (nat_choice (fun i x => nth_error (stores m) i = Some (fst (fst x)) /\
      storage_save (bdc c) fmt (fst (fst x)) = Ok (snd (fst x)) /\
      storage_load junk (bdc c) (dimc c) fmt (snd (fst x)) (fresh_store c g size min i) = Ok (snd x, []) /\
      bwf ld (snd x) /\ shape ld (snd x) = shape ld (fst (fst x)) /\
      (forall j, dom ld (shape ld (fst (fst x))) j -> bget (bdc c) (snd x) j = bget (bdc c) (fst (fst x)) j)) n)
    as [l [L Hl]].
  { intros i Hi. destruct (one_storage g size min i Hi) as [s [file [s' H]]]. exists (s, file, s'). exact H. }
  pose proof HI as [[[[HL [HF HB]] _] _] [Hsh _]].
  exists (map (fun x => snd (fst x)) l), (map snd l). rewrite !map_length.
  split; [exact L|]. split; [exact L|].
  assert (Hx : forall i x, nth_error l i = Some x -> (i < n)%nat /\ nth_error (stores m) i = Some (fst (fst x)) /\
      storage_save (bdc c) fmt (fst (fst x)) = Ok (snd (fst x)) /\
      storage_load junk (bdc c) (dimc c) fmt (snd (fst x)) (fresh_store c g size min i) = Ok (snd x, []) /\
      bwf ld (snd x) /\ shape ld (snd x) = shape ld (fst (fst x)) /\
      (forall j, dom ld (shape ld (fst (fst x))) j -> bget (bdc c) (snd x) j = bget (bdc c) (fst (fst x)) j)).
  { intros i x E. assert (Hi : (i < n)%nat) by (rewrite <- L; apply nth_error_Some; congruence).
    destruct (Hl i Hi) as [y [Ey Hy]]. rewrite E in Ey. injection Ey as <-. split; [exact Hi|exact Hy]. }
  split; [|split; [|split; [|split]]].
  - rewrite <- L, !map_map. apply map_seq_nth. intros i x E. destruct (Hx i x E) as [_ [A [B _]]].
    unfold save_operation, get_store. cbn [all_open open_store]. rewrite A. cbn [obind]. rewrite B. reflexivity.
  - rewrite <- L, !map_map. apply map_seq_nth. intros i x E. destruct (Hx i x E) as [_ [A [B [C _]]]].
    unfold load_operation. rewrite nth_error_map, E. cbn [option_map all_open open_store]. rewrite C. reflexivity.
  - apply Forall_forall. intros s Hs. apply in_map_iff in Hs. destruct Hs as [x [<- Hs]].
    apply In_nth_error in Hs. destruct Hs as [i Hs]. apply (Hx i x Hs).
  - apply nth_error_ext_list; [rewrite !map_length; etransitivity; [exact L|symmetry; exact HL]|]. intros i Hi. rewrite !map_length in Hi.
    destruct (nth_error l i) as [x|] eqn:E; [|apply nth_error_None in E; lia].
    destruct (Hx i x E) as [_ [A [_ [_ [_ [D _]]]]]]. etransitivity; [apply map_nth_error, map_nth_error; exact E|].
    etransitivity; [|symmetry; apply map_nth_error; exact A]. rewrite D. reflexivity.
  - intros i j Hij.
    assert (Hij' : cddom c (cshape c m) i j) by (rewrite Hsh; exact Hij).
    destruct (store_at _ _ _ _ _ _ _ m i j (conj HL (conj HF HB)) Hij') as [s [Es [_ [Hd Hg]]]].
    destruct (nth_error l i) as [x|] eqn:E.
    + destruct (Hx i x E) as [_ [A [_ [_ [_ [_ G]]]]]]. rewrite Es in A. injection A as ->.
      exists (snd x). split; [rewrite nth_error_map, E; reflexivity|]. rewrite (G j Hd). exact Hg.
    + exfalso. apply nth_error_None in E. assert (i < n)%nat by (rewrite <- HL; apply nth_error_Some; congruence). lia.
Qed.

Definition full_bundle (bi : idx) : bundle := {| slots := full_slots (dimc c) bi; expand := true |}.

Lemma slots_found (ss : list (st (bdc c))) (bi : idx) :
  (forall i j, cddom c sh0 i j -> exists s', nth_error ss i = Some s' /\ bget (bdc c) s' j = Ok (cdget c m i j)) ->
  usable c 0 bi -> cbget c m bi <> None ->
  bundle_slots c (map Some ss) bi (seq 0 n) = Ok (full_slots (dimc c) bi).
Proof.
  intros Hss Hu Hb. unfold full_slots.
  assert (H : forall is, (forall i, In i is -> (i < n)%nat) ->
            bundle_slots c (map Some ss) bi is = Ok (map (fun i => Some (generate_index bi i)) is)).
  { induction is as [|i is IH]; intros His; [reflexivity|]. cbn [bundle_slots map].
    assert (Hi : (i < n)%nat) by (apply His; left; reflexivity).
    pose proof (usable_okidx c Hc 0 bi ltac:(lia) Hu) as [_ [Hbd Hdd]]. specialize (Hdd i Hi).
    destruct (Hss i (generate_index bi i) Hdd) as [s' [E G]].
    rewrite nth_error_map, E. cbn [option_map]. rewrite G. cbn [obind]. rewrite IH by (intros k Hk'; apply His; right; exact Hk').
    cbn [obind].
    assert (Hp : cdget c m i (generate_index bi i) <> None).
    { apply (present_iff c m i _ HI Hdd Hi). exists bi. auto. }
    destruct (cdget c m i (generate_index bi i)); [reflexivity|contradiction]. }
  apply H. intros i Hi. apply in_seq in Hi. lia.
Qed.

Lemma bundles_found (ss : list (st (bdc c))) (g : nat -> Z) (size : list Z) (min : idx) (es : list (idx * bundle)) :
  (forall i j, cddom c sh0 i j -> exists s', nth_error ss i = Some s' /\ bget (bdc c) s' j = Ok (cdget c m i j)) ->
  NoDup (map fst es) -> (forall bi b, In (bi, b) es <-> usable c 0 bi /\ cbget c m bi = Some b) ->
  exists bs, ofold (allocate_bundle c (map Some ss)) (map fst es) (fresh_bundles c g size min) = Ok bs /\
    bwf lb bs /\ shape lb bs = shape lb (bundles m) /\
    (forall bi, cbdom c sh0 bi -> bget (bbc c) bs bi = Ok (option_map (fun _ => full_bundle bi) (cbget c m bi))).
Proof.
  intros Hss Hn Hin. destruct (fresh_bundles_new c Hk g size min) as [W0 [E0 S0]].
  pose proof HI as [_ [Hsh _]].
  assert (Hdom : forall bi, cbdom c sh0 bi <-> dom lb (shape lb (fresh_bundles c g size min)) bi).
  { intros bi. rewrite <- Hsh. rewrite (S0 (bundles m)). reflexivity. }
  set (es' := map (fun bi => (bi, full_bundle bi)) (map fst es)).
  assert (Hfst : map fst es' = map fst es) by (unfold es'; rewrite !map_map; reflexivity).
  destruct (insert_all_spec merge_bundle (bbc c) lb es' (fresh_bundles c g size min) W0) as [bs [E [W [S G]]]].
  - rewrite Hfst. exact Hn.
  - apply Forall_forall. intros e He. apply Hdom. apply (in_map fst) in He. rewrite Hfst in He.
    apply in_map_iff in He. destruct He as [[bi b] [<- He]]. cbn [fst]. apply Hin in He.
    apply (usable_bdom c Hc 0); [lia|apply He].
  - intros bi Hbi. apply E0, Hdom. rewrite Hfst in Hbi. apply in_map_iff in Hbi. destruct Hbi as [[bi' b] [<- He]].
    cbn [fst]. apply Hin in He. apply (usable_bdom c Hc 0); [lia|apply He].
  - exists bs. split; [|split; [exact W|split; [etransitivity; [exact S|apply S0]|]]].
    + rewrite <- E. unfold es'.
      assert (Hgo : forall l b, (forall bi, In bi l -> In bi (map fst es)) ->
        ofold (allocate_bundle c (map Some ss)) l b =
        ofold (fun s e => bins (bbc c) s (fst e) (snd e)) (map (fun bi => (bi, full_bundle bi)) l) b).
      { induction l as [|bi l IH]; intros b Hl; [reflexivity|]. cbn [map ofold fst snd].
        unfold allocate_bundle at 1.
        assert (Hbi : In bi (map fst es)) by (apply Hl; left; reflexivity).
        apply in_map_iff in Hbi. destruct Hbi as [[bi' b'] [Ebi He]]. cbn [fst] in Ebi. subst bi'. apply Hin in He.
        rewrite (slots_found ss bi Hss) by (try apply He; destruct He as [_ ->]; discriminate).
        cbn [obind]. change {| slots := full_slots (dimc c) bi; expand := true |} with (full_bundle bi).
        destruct (bins (bbc c) b bi (full_bundle bi)); cbn [obind]; try reflexivity.
        apply IH. intros x Hx. apply Hl. right; exact Hx. }
      apply Hgo. auto.
    + intros bi Hbd. rewrite (G bi) by (apply Hdom; exact Hbd).
      destruct (cbget c m bi) as [b|] eqn:Eb; cbn [option_map].
      * assert (Ha : assoc es' bi = Some (full_bundle bi)).
        { apply assoc_in; [rewrite Hfst; exact Hn|]. unfold es'. apply in_map_iff. exists bi. split; [reflexivity|].
          apply in_map_iff. exists (bi, b). split; [reflexivity|]. apply Hin. split; [|exact Eb]. apply HR; [exact Hbd|congruence]. }
        rewrite Ha. reflexivity.
      * destruct (assoc es' bi) as [b|] eqn:Ea; [|apply E0, Hdom; exact Hbd].
        apply assoc_in in Ea; [|rewrite Hfst; exact Hn]. apply (in_map fst) in Ea. rewrite Hfst in Ea.
        apply in_map_iff in Ea. destruct Ea as [[bi' b'] [Ebi He]]. cbn [fst] in Ebi. subst bi'. apply Hin in He. destruct He; congruence.
Qed.

(** What is known about a restored map. *)
Definition restores (m' : cmap c) : Prop :=
  cInv c m' /\ region c 0 m' /\ min_bi m' = min_bi m /\ max_bi m' = max_bi m /\
  (forall i j, cddom c sh0 i j -> cdget c m' i j = cdget c m i j) /\
  (forall bi, cbdom c sh0 bi -> cbget c m' bi = option_map (fun _ => full_bundle bi) (cbget c m bi)).

Lemma restored (ss : list (st (bdc c))) (bs : st (bbc c)) :
  length ss = n -> Forall (bwf ld) ss -> map (shape ld) ss = map (shape ld) (stores m) ->
  (forall i j, cddom c sh0 i j -> exists s', nth_error ss i = Some s' /\ bget (bdc c) s' j = Ok (cdget c m i j)) ->
  bwf lb bs -> shape lb bs = shape lb (bundles m) ->
  (forall bi, cbdom c sh0 bi -> bget (bbc c) bs bi = Ok (option_map (fun _ => full_bundle bi) (cbget c m bi))) ->
  restores (Build_ndmap (bdc c) (bbc c) ss bs (min_bi m) (max_bi m)).
Proof.
  intros L W S Hss Wb Sb Hbs. set (m' := Build_ndmap (bdc c) (bbc c) ss bs (min_bi m) (max_bi m)).
  pose proof HI as [[[Hwf Hbund] [HD [HE Hbox]]] [Hsh Hv]].
  assert (Hsh' : cshape c m' = cshape c m).
  { exact (f_equal2 pair S Sb). }
  assert (Hd : forall i j, cddom c sh0 i j -> cdget c m' i j = cdget c m i j).
  { intros i j Hij. destruct (Hss i j Hij) as [s' [E G]]. unfold cdget at 1, dget. cbn [m' stores]. rewrite E, G. reflexivity. }
  assert (Hb : forall bi, cbdom c sh0 bi -> cbget c m' bi = option_map (fun _ => full_bundle bi) (cbget c m bi)).
  { intros bi Hbd. unfold cbget at 1, bget'. cbn [m' bundles]. rewrite (Hbs bi Hbd). reflexivity. }
  assert (Hhas : forall bi, has_b c m' bi <-> has_b c m bi).
  { intros bi. unfold has_b. rewrite Hsh', Hsh. split; intros [A B]; (split; [exact A|]); rewrite (Hb bi A) in *.
    - destruct (cbget c m bi); [discriminate|contradiction].
    - destruct (cbget c m bi); [discriminate|contradiction]. }
  split; [|split; [|split; [reflexivity|split; [reflexivity|split; [exact Hd|exact Hb]]]]].
  - split; [|split; [rewrite Hsh'; exact Hsh|]].
    + split; [|split; [|split]].
      * split; [split; [exact L|split; [exact W|exact Wb]]|].
        intros bi b Hbd Eb. fold (cshape c m') in *. rewrite Hsh', Hsh in *.
        fold (cbget c m' bi) in Eb. rewrite (Hb bi Hbd) in Eb. destruct (cbget c m bi) as [b0|] eqn:E0; [|discriminate].
        injection Eb as <-. fold (cshape c m) in Hbund. rewrite Hsh in Hbund.
        destruct (Hbund bi b0 Hbd E0) as [A [_ B]]. split; [exact A|]. split; [reflexivity|].
        intros i Hi. destruct (B i Hi) as [d Hdd]. exists d. fold (cdget c m' i (generate_index bi i)).
        rewrite Hd; [exact Hdd|]. apply A; exact Hi.
      * intros i j d Hij Ed. fold (cshape c m') in *. rewrite Hsh', Hsh in *.
        fold (cdget c m' i j) in Ed. rewrite (Hd i j Hij) in Ed.
        destruct (HD i j d) as [bi [b [A [B C]]]]; [fold (cshape c m); rewrite Hsh; exact Hij|exact Ed|].
        fold (cshape c m) in A. rewrite Hsh in A.
        exists bi, (full_bundle bi). split; [exact A|]. split; [|exact C].
        fold (cbget c m' bi). rewrite (Hb bi A). unfold cbget. rewrite B. reflexivity.
      * intros bi b Hbd Eb Hf. exfalso. fold (cshape c m') in *. rewrite Hsh', Hsh in *. fold (cbget c m' bi) in Eb.
        rewrite (Hb bi Hbd) in Eb. destruct (cbget c m bi); [|discriminate]. injection Eb as <-. discriminate Hf.
      * intros H1 H2 H3. destruct (Hbox H1 H2 H3) as [L1 [L2 H]]. cbn [m' min_bi max_bi]. split; [exact L1|]. split; [exact L2|].
        intros d Hdd. destruct (H d Hdd) as [A [B C]]. split; [intros bi Hbi; apply A, Hhas, Hbi|]. split.
        -- destruct B as [B|[x [Hx Ex]]]; [left; exact B|right; exists x; split; [apply Hhas, Hx|exact Ex]].
        -- destruct C as [C|[x [Hx Ex]]]; [left; exact C|right; exists x; split; [apply Hhas, Hx|exact Ex]].
    + intros x. rewrite <- Hv. unfold cvalid, valid. cbn [m' min_bi max_bi]. reflexivity.
  - intros bi Hbd Hne. apply HR; [exact Hbd|]. rewrite (Hb bi Hbd) in Hne. destruct (cbget c m bi); [discriminate|contradiction].
Qed.

Lemma not_null_some {A : Type} (l : list A) : not_null (map Some l) = Ok l.
Proof. induction l as [|x l IH]; [reflexivity|]. cbn [map not_null]. rewrite IH. reflexivity. Qed.

Lemma header_of (origin : Po) (resolution : T) (es : list (idx * bundle)) :
  map_empty c m = false -> cbundles c m = Ok es ->
  (forall bi b, In (bi, b) es <-> usable c 0 bi /\ cbget c m bi = Some b) ->
  exists h, map_header po tp c origin resolution m = Ok h /\
    map_header_load junk po tp c h = Ok (origin, resolution, ([], min_bi m, max_bi m), map fst es).
Proof.
  intros He Ees Hin.
  pose proof (nonempty_bundle c Hc Hk Hmin Hmax m Hdim HI HR He) as Hne.
  destruct (tight_range c Hc Hk Hmin Hmax m HI HR Hne) as [L1 [L2 Hr]].
  assert (Hint : forall a : idx, length a = dimc c -> (forall d, (d < dimc c)%nat -> -32768 <= nth d a 0 <= 32767) -> int_index a).
  { intros a La Ha. apply Forall_forall. intros z Hz. apply (In_nth a z 0) in Hz. destruct Hz as [d [Hd <-]].
    specialize (Ha d ltac:(congruence)). unfold INT_MIN, INT_MAX. lia. }
  destruct (dynamic_header_trip' junk po tp (dimc c) origin resolution (min_bi m) (max_bi m) (map fst es) Hpo Htp Hdim L1)
    as [h [E1 E2]]; try assumption.
  - apply Hint; [exact L1|]. intros d Hd. destruct (Hr d Hd) as [A [B _]]. lia.
  - apply Hint; [exact L2|]. intros d Hd. destruct (Hr d Hd) as [A [B _]]. lia.
  - intros d Hd. destruct (Hr d Hd) as [A [B _]]. unfold INT_MIN, INT_MAX. lia.
  - apply Forall_forall. intros bi Hbi. apply in_map_iff in Hbi. destruct Hbi as [[bi' b] [<- He']]. cbn [fst].
    apply Hin in He'. destruct He' as [Hu _]. split; [apply Hu|]. apply Hint; [apply Hu|].
    intros d Hd. apply (usable_coord c Hk); assumption.
  - exists h. unfold map_header, map_header_load. rewrite Ees, Hk. cbn [obind]. split; [exact E1|]. rewrite E2. reflexivity.
Qed.

Lemma save_load (s1 s2 : list nat) (g : nat -> Z) (origin : Po) (resolution : T) :
  complete n s1 -> complete n s2 -> map_empty c m = false ->
  exists d m', map_save po tp fmt c all_open s1 origin resolution m = Ok (true, Some d) /\
    map_load junk po tp fmt c all_open s2 g (Some d) =
      Ok (Some {| l_origin := origin; l_resolution := resolution; l_map := m' |}) /\ restores m'.
Proof.
  intros C1 C2 He. destruct (cmap_bundles c Hc m HI HR) as [es [Ees [Hn [Hin _]]]].
  destruct (header_of origin resolution es He Ees Hin) as [h [H1 H2]].
  destruct (all_storages g [] (min_bi m)) as [files [ss [L1 [L2 [O1 [O2 [W [S G]]]]]]]].
  destruct (bundles_found ss g [] (min_bi m) es G Hn Hin) as [bs [B1 [B2 [B3 B4]]]].
  destruct (all_ok_run (map (save_operation fmt c all_open m) (seq 0 n)) (map Some files) O1 s1) as [w1 [R1 [F1 M1]]].
  { rewrite map_length, seq_length. exact C1. }
  destruct (all_ok_run (map (load_operation junk fmt c all_open (fresh_store c g [] (min_bi m)) (map Some files)) (seq 0 n))
              (map Some ss) O2 s2) as [w2 [R2 [F2 M2]]].
  { rewrite map_length, seq_length. exact C2. }
  exists {| header_file := Some h; store_files := map Some files |}. eexists.
  split; [|split; [|apply (restored ss bs L2 W S G B2 B3 B4)]].
  - unfold map_save. cbn [all_open no_directory open_header]. rewrite H1. cbn [obind]. rewrite R1. cbn [obind].
    rewrite F1, M1. reflexivity.
  - unfold map_load. cbn [store_files header_file].
    assert (Hall : forallb (fun f => match f with Some _ => true | None => false end) (map Some files) = true).
    { apply forallb_forall. intros f Hf. apply in_map_iff in Hf. destruct Hf as [x [<- _]]. reflexivity. }
    rewrite Hall. cbn [all_open open_header]. rewrite H2. cbn [obind]. rewrite R2. cbn [obind]. rewrite F2, M2, B1.
    cbn [obind]. rewrite not_null_some. reflexivity.
Qed.
End Trip.

(** ** Two maps with the same bundles and distributions stay alike *)
Section Alike.
Context {P : Type}.
Variable c : config P.
Hypothesis Hc : config_ok c.
Notation n := (bin_count (dimc c)).
Notation sh0 := (cshape c (new_map c)).
Notation chv := (has_valid (bdc c) (bbc c) (dimc c) (expandc c)).

Definition alike (m m' : cmap c) : Prop :=
  (forall bi, has_b c m bi <-> has_b c m' bi) /\
  (forall i j, cddom c sh0 i j -> cdget c m i j = cdget c m' i j).

Lemma ddom_bins (m : cmap c) (i : nat) (j : idx) : cInv c m -> cddom c sh0 i j -> (i < n)%nat.
Proof.
  intros [[[[HL [HF HB]] _] _] [Hsh _]] H. rewrite <- Hsh in H.
  destruct (store_at _ _ _ _ _ _ _ m i j (conj HL (conj HF HB)) H) as [s [Es _]].
  rewrite <- HL. apply nth_error_Some. congruence.
Qed.

(** Same bundles and same values up to defaults: alike. *)
Lemma alike_content (m m' : cmap c) : cInv c m -> cInv c m' ->
  (forall bi, has_b c m bi <-> has_b c m' bi) ->
  (forall i j, cddom c sh0 i j -> ccontent c m i j = ccontent c m' i j) -> alike m m'.
Proof.
  intros HI HI' Hb Hd. split; [exact Hb|]. intros i j Hij.
  pose proof (ddom_bins m i j HI Hij) as Hi.
  pose proof (present_iff c m i j HI Hij Hi) as P1. pose proof (present_iff c m' i j HI' Hij Hi) as P2.
  assert (Hiff : cdget c m i j <> None <-> cdget c m' i j <> None).
  { rewrite P1, P2. pose proof HI as [_ [Hsh _]]. pose proof HI' as [_ [Hsh' _]].
    split; intros [bi [A [B C]]]; exists bi; (split; [exact A|split; [|exact C]]);
      [specialize (proj1 (Hb bi)) as H|specialize (proj2 (Hb bi)) as H];
      unfold has_b in H; rewrite Hsh, Hsh' in H; apply (H (conj A B)). }
  specialize (Hd i j Hij). unfold ccontent, content in Hd. fold (cdget c m i j) in Hd. fold (cdget c m' i j) in Hd.
  destruct (cdget c m i j) as [v|], (cdget c m' i j) as [v'|]; try congruence.
  - exfalso. apply (proj1 Hiff); [discriminate|reflexivity].
  - exfalso. apply (proj2 Hiff); [discriminate|reflexivity].
Qed.

Lemma alike_chv (m m' : cmap c) (bi : idx) : cInv c m -> alike m m' -> has_b c m bi -> chv m bi = chv m' bi.
Proof.
  intros HI [_ Hd] [Hbd Hb]. apply eq_true_iff_eq. rewrite (chv_spec c m bi), (chv_spec c m' bi).
  pose proof HI as [[[_ HB] _] [Hsh _]]. destruct (cbget c m bi) as [b|] eqn:Eb; [|contradiction].
  destruct (HB bi b Hbd Eb) as [[_ [_ Hdd]] _]. fold (cshape c m) in Hdd. rewrite Hsh in Hdd.
  split; intros [i [d [Hi [E X]]]]; exists i, d; (split; [exact Hi|split; [|exact X]]).
  - rewrite <- (Hd i _ (Hdd i Hi)). exact E.
  - rewrite (Hd i _ (Hdd i Hi)). exact E.
Qed.

(** Which bundles one completion adds. *)
Lemma expand_bundles (k : Z) (m m' : cmap c) : cInv c m -> region c k m -> 1 <= k -> cact c m ExpandAll = Ok m' ->
  forall bi, has_b c m' bi <-> has_b c m bi \/
    exists bi0 o, has_b c m bi0 /\ chv m bi0 = true /\ In o (offsetsc c) /\
      cvalid c (new_map c) bi = true /\ idx_add bi0 o = bi.
Proof.
  intros HI HR Hk E bi. destruct (expand_once c Hc k m HI HR Hk) as [m1 [E1 [HI1 [HR1 [Hg [Hf [Hn _]]]]]]].
  rewrite E in E1. injection E1 as <-. pose proof HI as [_ [Hsh Hv]].
  split.
  - intros H. destruct (Hn bi H) as [A|[bi0 [o [A [B [C [D F]]]]]]]; [left; exact A|right].
    exists bi0, o. rewrite Hv in D. auto 10.
  - intros [A|[bi0 [o [A [B [C [D F]]]]]]]; [apply (cgrow_has c m m' bi Hg A)|].
    subst bi. destruct (Hf bi0 A B) as [b [Eb Fb]].
    destruct (ok_sound c Hc o C) as [Lo Ro].
    apply (flag_neighbours c Hc m' bi0 b HI1); try assumption.
    + apply (cgrow_has c m m' bi0 Hg A).
    + apply (has_b_usable c k m bi0 HI HR A).
Qed.

Lemma act_bundles (k : Z) (m m' : cmap c) (a : map_action (P:=P)) :
  cInv c m -> 0 <= k - expansions [a] -> region c k m -> act_fits c k a -> a <> ExpandAll -> cact c m a = Ok m' ->
  forall bi, has_b c m' bi <-> has_b c m bi \/ (cbdom c sh0 bi /\ names c a bi).
Proof.
  intros HI Hk HR Hf Ha E bi.
  destruct (cact_spec c Hc k m a HI Hk HR Hf) as [m1 [E1 [HI1 [_ [_ [Hp [Hn Ho]]]]]]].
  rewrite E in E1. injection E1 as <-. pose proof HI as [_ [Hsh _]]. pose proof HI1 as [_ [Hsh1 _]].
  unfold has_b. rewrite Hsh, Hsh1. split.
  - intros [A B]. destruct (cbget c m bi) as [b|] eqn:Eb; [left; split; [exact A|discriminate]|].
    right. split; [exact A|]. apply (Ho bi A Ha Eb B).
  - intros [[A B]|[A B]]; (split; [exact A|]); [apply Hp; assumption|apply Hn; assumption].
Qed.

Lemma alike_step (k : Z) (m1 m2 : cmap c) (a : map_action (P:=P)) :
  cInv c m1 -> cInv c m2 -> region c k m1 -> region c k m2 -> 0 <= k - expansions [a] -> act_fits c k a -> alike m1 m2 ->
  exists m1' m2', cact c m1 a = Ok m1' /\ cact c m2 a = Ok m2' /\ cInv c m1' /\ cInv c m2' /\
    region c (k - expansions [a]) m1' /\ region c (k - expansions [a]) m2' /\ alike m1' m2'.
Proof.
  intros I1 I2 R1 R2 Hk Hf HA.
  destruct (cact_spec c Hc k m1 a I1 Hk R1 Hf) as [m1' [E1 [I1' [R1' [C1 _]]]]].
  destruct (cact_spec c Hc k m2 a I2 Hk R2 Hf) as [m2' [E2 [I2' [R2' [C2 _]]]]].
  exists m1', m2'. split; [exact E1|]. split; [exact E2|]. split; [exact I1'|]. split; [exact I2'|].
  split; [exact R1'|]. split; [exact R2'|]. apply alike_content; try assumption.
  - assert (Hcase : a = ExpandAll \/ a <> ExpandAll) by (destruct a; [right; discriminate|right; discriminate|left; reflexivity]).
    destruct Hcase as [->|Ha].
    + cbn [expansions] in Hk. intros bi.
      rewrite (expand_bundles k m1 m1' I1 R1 ltac:(lia) E1 bi), (expand_bundles k m2 m2' I2 R2 ltac:(lia) E2 bi).
      rewrite (proj1 HA bi). split; (intros [H|[bi0 [o [A [B C]]]]]; [left; exact H|right; exists bi0, o]).
      * split; [apply HA; exact A|]. split; [rewrite <- (alike_chv m1 m2 bi0 I1 HA A); exact B|exact C].
      * assert (A' : has_b c m1 bi0) by (apply HA; exact A). split; [exact A'|].
        split; [rewrite (alike_chv m1 m2 bi0 I1 HA A'); exact B|exact C].
    + intros bi. rewrite (act_bundles k m1 m1' a I1 Hk R1 Hf Ha E1 bi), (act_bundles k m2 m2' a I2 Hk R2 Hf Ha E2 bi).
      rewrite (proj1 HA bi). reflexivity.
  - intros i j Hij. rewrite (C1 i j Hij), (C2 i j Hij). f_equal. unfold ccontent, content.
    fold (cdget c m1 i j). fold (cdget c m2 i j). rewrite (proj2 HA i j Hij). reflexivity.
Qed.

Lemma fits_weaken (k k' : Z) (l : list (map_action (P:=P))) : k' <= k -> Forall (act_fits c k) l -> Forall (act_fits c k') l.
Proof.
  intros Hk. apply Forall_impl. intros x H. destruct x; cbn [act_fits] in *; [eapply usable_le; eassumption| |exact I].
  destruct H as [A B]. split; [exact A|]. intros C. eapply usable_le; [eassumption|apply B; exact C].
Qed.

Lemma alike_run (l : list (map_action (P:=P))) : forall (k : Z) (m1 m2 : cmap c),
  cInv c m1 -> cInv c m2 -> region c k m1 -> region c k m2 -> 0 <= k - expansions l -> Forall (act_fits c k) l -> alike m1 m2 ->
  exists m1' m2', cact_all c l m1 = Ok m1' /\ cact_all c l m2 = Ok m2' /\ cInv c m1' /\ cInv c m2' /\
    region c (k - expansions l) m1' /\ region c (k - expansions l) m2' /\ alike m1' m2'.
Proof.
  induction l as [|a l IH]; intros k m1 m2 I1 I2 R1 R2 Hk Hf HA.
  - exists m1, m2. cbn [expansions] in *. rewrite Z.sub_0_r. auto 10.
  - inversion Hf as [|? ? Hfa Hfl]; subst.
    assert (Hsplit : expansions (a :: l) = expansions [a] + expansions l)
      by (change (a :: l) with ([a] ++ l); apply expansions_app).
    pose proof (expansions_nonneg l) as Hn0. pose proof (expansions_nonneg [a]) as Hn1.
    destruct (alike_step k m1 m2 a I1 I2 R1 R2 ltac:(lia) Hfa HA) as [x1 [x2 [E1 [E2 [J1 [J2 [S1 [S2 HA']]]]]]]].
    destruct (IH (k - expansions [a]) x1 x2 J1 J2 S1 S2 ltac:(lia) (fits_weaken k (k - expansions [a]) l ltac:(lia) Hfl) HA')
      as [m1' [m2' [F1 [F2 [K1 [K2 [T1 [T2 HA2]]]]]]]].
    exists m1', m2'. unfold cact_all, act_all in *. cbn [ofold]. fold (cact c m1 a). fold (cact c m2 a).
    rewrite E1, E2. cbn [obind]. split; [exact F1|]. split; [exact F2|]. split; [exact K1|]. split; [exact K2|].
    rewrite Hsplit, Z.sub_add_distr. auto.
Qed.

Lemma alike_same (m1 m2 : cmap c) : cInv c m1 -> cInv c m2 -> region c 0 m1 -> region c 0 m2 -> alike m1 m2 ->
  same_content c c m1 m2.
Proof.
  intros I1 I2 R1 R2 [Hb Hd]. pose proof I1 as [_ [Hsh1 _]]. pose proof I2 as [_ [Hsh2 _]]. split.
  - intros bi sl. rewrite (has_bundle_iff c Hc m1 bi sl I1), (has_bundle_iff c Hc m2 bi sl I2).
    assert (Hgo : forall x y : cmap c, cInv c x -> cInv c y -> (has_b c x bi -> has_b c y bi) -> usable c 0 bi ->
              option_map slots (cbget c x bi) = Some sl -> option_map slots (cbget c y bi) = Some sl).
    { intros x y Ix Iy Hxy Hu E. destruct (cbget c x bi) as [b|] eqn:Eb; [|discriminate].
      assert (Hx : has_b c x bi).
      { split; [|congruence]. pose proof Ix as [_ [-> _]]. apply (usable_bdom c Hc 0); [lia|exact Hu]. }
      destruct (Hxy Hx) as [_ Hy]. destruct (cbget c y bi) as [b'|] eqn:Eb'; [|contradiction].
      cbn [option_map] in *. rewrite (slots_full c Hc y bi b' Iy Hu Eb'). rewrite (slots_full c Hc x bi b Ix Hu Eb) in E. exact E. }
    split; intros [Hu E]; (split; [exact Hu|]).
    + apply (Hgo m1 m2 I1 I2); [apply Hb|exact Hu|exact E].
    + apply (Hgo m2 m1 I2 I1); [apply Hb|exact Hu|exact E].
  - intros i j v. rewrite (has_value_iff c Hc m1 i j v I1), (has_value_iff c Hc m2 i j v I2).
    split; intros [Hj E]; (split; [exact Hj|]).
    + rewrite <- (Hd i j (cell_ddom c Hc i j Hj)). exact E.
    + rewrite (Hd i j (cell_ddom c Hc i j Hj)). exact E.
Qed.
End Alike.

(** ** A restored map stays alike *)
Section Later.
Context {P : Type}.
Variable c : config P.
Hypothesis Hc : config_ok c.
Hypothesis Hk : kindc c = Dynamic.
Hypothesis Hmin : aminc c = cw_min.
Hypothesis Hmax : amaxc c = cw_max.

(** Maps with the same bundles have the same range, also without any bundle. *)
Lemma alike_range (m m' : cmap c) : cInv c m -> cInv c m' -> region c 0 m -> region c 0 m' -> alike c m m' ->
  min_bi m' = min_bi m /\ max_bi m' = max_bi m.
Proof.
  intros HI HI' HR HR' HA. pose proof (alike_same c Hc m m' HI HI' HR HR' HA) as Hsame.
  destruct (cmap_bundles c Hc m HI HR) as [es [_ [_ [Hin _]]]]. destruct es as [|[bi b] es].
  - assert (H0 : forall bi, ~ has_b c m bi).
    { intros bi [A B]. pose proof HI as [_ [Hsh _]]. rewrite Hsh in A. destruct (cbget c m bi) as [b|] eqn:E; [|contradiction].
      apply (proj2 (Hin bi b)). split; [|exact E]. apply HR; [exact A|congruence]. }
    assert (H0' : forall bi, ~ has_b c m' bi) by (intros bi H; apply (H0 bi), HA, H).
    pose proof HI as [[_ [_ [_ Hbox]]] _]. pose proof HI' as [[_ [_ [_ Hbox']]] _].
    destruct (Hbox Hmin Hmax Hk) as [L1 [L2 H]]. destruct (Hbox' Hmin Hmax Hk) as [L1' [L2' H']].
    split; apply list_eq_nth; try congruence; intros d Hd;
      destruct (H d ltac:(congruence)) as [_ [[B|[x [Hx _]]] [C|[y [Hy _]]]]]; try (exfalso; eapply H0; eassumption);
      destruct (H' d ltac:(congruence)) as [_ [[B'|[x' [Hx' _]]] [C'|[y' [Hy' _]]]]]; try (exfalso; eapply H0'; eassumption);
      congruence.
  - apply (same_range c c m m'); try assumption; try reflexivity; [|apply Hsame].
    exists bi, (slots b). apply (has_bundle_iff c Hc m bi _ HI). destruct (proj1 (Hin bi b) (or_introl eq_refl)) as [A B].
    rewrite B. auto.
Qed.

Lemma restores_later (l : list (map_action (P:=P))) (m m' : cmap c) :
  fits c l -> cact_all c l (new_map c) = Ok m -> restores c m m' ->
  same_content c c m m' /\ twin c c m m' /\ min_bi m' = min_bi m /\ max_bi m' = max_bi m /\
  (forall bi sl, has_bundle c m' bi sl -> length sl = (2 ^ dimc c)%nat /\
     forall i, (i < 2 ^ dimc c)%nat -> exists j v, nth_error sl i = Some (Some j) /\ has_value c m' i j v) /\
  (forall l2, fits c (l ++ l2) ->
     exists m2 m2', cact_all c l2 m = Ok m2 /\ cact_all c l2 m' = Ok m2' /\ same_content c c m2 m2' /\ twin c c m2 m2' /\
       min_bi m2' = min_bi m2 /\ max_bi m2' = max_bi m2).
Proof.
  intros Hf Hrun [HI' [HR' [Hmn [Hmx [Hd Hb]]]]].
  destruct (run_spec c Hc l Hf) as [m0 [E0 [HI [HR _]]]]. rewrite Hrun in E0. injection E0 as <-.
  assert (HA : alike c m m').
  { split.
    - intros bi. unfold has_b. pose proof HI as [_ [-> _]]. pose proof HI' as [_ [-> _]].
      split; intros [A B]; (split; [exact A|]); rewrite (Hb bi A) in *; destruct (cbget c m bi); try contradiction; discriminate.
    - intros i j Hij. symmetry. apply Hd; exact Hij. }
  assert (HS : same_content c c m m') by (apply alike_same; assumption).
  split; [exact HS|]. split; [apply twin_intact; assumption || reflexivity|]. split; [exact Hmn|]. split; [exact Hmx|]. split.
  - intros bi sl Hsl. apply (has_bundle_iff c Hc m' bi sl HI') in Hsl. destruct Hsl as [Hu E].
    destruct (cbget c m' bi) as [b|] eqn:Eb; [|discriminate]. injection E as <-.
    pose proof (slots_full c Hc m' bi b HI' Hu Eb) as Hs. rewrite Hs. rewrite <- two_pow_spec. unfold full_slots.
    split; [rewrite map_length, seq_length; reflexivity|]. intros i Hi.
    pose proof HI' as [[[_ HB] _] [Hsh _]].
    destruct (HB bi b) as [_ [_ Hex]]; [fold (cshape c m'); rewrite Hsh; apply (usable_bdom c Hc 0); [lia|exact Hu]|exact Eb|].
    destruct (Hex i Hi) as [v Hv]. exists (generate_index bi i), v. split.
    + rewrite nth_error_map, (nth_error_nth' (seq 0 (bin_count (dimc c))) 0%nat) by (rewrite seq_length; exact Hi).
      rewrite seq_nth by exact Hi. reflexivity.
    + apply (has_value_iff c Hc m' i _ v HI'). split; [|exact Hv]. apply bundle_cell; [exact Hu|]. rewrite <- two_pow_spec. exact Hi.
  - intros l2 Hf2.
    (* the region with room for the expansions of l2 *)
    unfold fits in Hf2. rewrite expansions_app in Hf2. pose proof Hf2 as Hall. apply Forall_app in Hf2. destruct Hf2 as [Hfl Hfl2].
    destruct (hist_spec c Hc l (expansions l + expansions l2) (new_map c) (new_inv c Hc)) as [m0 [E0 [_ [HRk _]]]].
    { pose proof (expansions_nonneg l2). lia. }
    { intros bi _ H. rewrite new_empty_b in H. contradiction. }
    { exact Hfl. }
    rewrite Hrun in E0. injection E0 as <-.
    replace (expansions l + expansions l2 - expansions l) with (expansions l2) in HRk by lia.
    assert (HRk' : region c (expansions l2) m').
    { intros bi Hbd Hne. apply HRk; [exact Hbd|]. rewrite (Hb bi Hbd) in Hne. destruct (cbget c m bi); [discriminate|contradiction]. }
    destruct (alike_run c Hc l2 (expansions l2) m m' HI HI' HRk HRk' ltac:(lia)
                (fits_weaken c (expansions l + expansions l2) (expansions l2) l2 ltac:(pose proof (expansions_nonneg l); lia) Hfl2) HA)
      as [m2 [m2' [F1 [F2 [K1 [K2 [T1 [T2 HA2]]]]]]]].
    rewrite Z.sub_diag in T1, T2. exists m2, m2'. split; [exact F1|]. split; [exact F2|].
    assert (Hsame : same_content c c m2 m2') by (apply alike_same; assumption). split; [exact Hsame|]. split; [apply twin_intact; assumption || reflexivity|].
    apply alike_range; assumption.
Qed.
End Later.

(** ** The complete round trip *)
Section Restore.
Variable junk : list Z -> nat -> list Z.
Context {P Po T : Type}.
Variable po : codec Po.
Variable tp : codec T.
Variable fmt : format P.
Variable ok : P -> Prop.
Variable len : nat.
Hypothesis Hpo : codec_ok po.
Hypothesis Htp : codec_ok tp.
Hypothesis Hfmt : format_ok fmt ok len.
Hypothesis Hcount : f_count fmt = Z.of_nat len.

Lemma restore_map_twin (c : config P) (l : list (map_action (P:=P))) (s1 s2 : list nat) (g : nat -> Z) (origin : Po) (resolution : T) (m : cmap c) :
  config_ok c -> kindc c = Dynamic -> aminc c = cw_min -> amaxc c = cw_max -> (0 < dimc c)%nat ->
  fits c l -> cact_all c l (new_map c) = Ok m -> map_empty c m = false ->
  (forall i j v, has_value c m i j v -> ok v) ->
  complete (bin_count (dimc c)) s1 -> complete (bin_count (dimc c)) s2 ->
  exists d m', map_save po tp fmt c all_open s1 origin resolution m = Ok (true, Some d) /\
    map_load junk po tp fmt c all_open s2 g (Some d) =
      Ok (Some {| l_origin := origin; l_resolution := resolution; l_map := m' |}) /\
    same_content c c m m' /\ twin c c m m' /\ min_bi m' = min_bi m /\ max_bi m' = max_bi m /\
    (forall bi sl, has_bundle c m' bi sl -> length sl = (2 ^ dimc c)%nat /\
       forall i, (i < 2 ^ dimc c)%nat -> exists j v, nth_error sl i = Some (Some j) /\ has_value c m' i j v) /\
    (forall l2, fits c (l ++ l2) ->
       exists m2 m2', cact_all c l2 m = Ok m2 /\ cact_all c l2 m' = Ok m2' /\ same_content c c m2 m2' /\ twin c c m2 m2' /\
         min_bi m2' = min_bi m2 /\ max_bi m2' = max_bi m2).
Proof.
  intros Hc Hk Hmin Hmax Hdim Hf Hrun He Hok C1 C2.
  destruct (run_spec c Hc l Hf) as [m0 [E0 [HI [HR _]]]]. rewrite Hrun in E0. injection E0 as <-.
  destruct (save_load junk po tp fmt ok len Hpo Htp Hfmt Hcount c Hc Hk Hmin Hmax Hdim m HI HR Hok s1 s2 g origin resolution C1 C2 He)
    as [d [m' [Es [El Hr]]]].
  exists d, m'. split; [exact Es|]. split; [exact El|]. apply (restores_later c Hc Hk Hmin Hmax l m m' Hf Hrun Hr).
Qed.

Lemma restore_map (c : config P) (l : list (map_action (P:=P))) (s1 s2 : list nat) (g : nat -> Z) (origin : Po) (resolution : T) (m : cmap c) :
  config_ok c -> kindc c = Dynamic -> aminc c = cw_min -> amaxc c = cw_max -> (0 < dimc c)%nat ->
  fits c l -> cact_all c l (new_map c) = Ok m -> map_empty c m = false ->
  (forall i j v, has_value c m i j v -> ok v) ->
  complete (bin_count (dimc c)) s1 -> complete (bin_count (dimc c)) s2 ->
  exists d m', map_save po tp fmt c all_open s1 origin resolution m = Ok (true, Some d) /\
    map_load junk po tp fmt c all_open s2 g (Some d) =
      Ok (Some {| l_origin := origin; l_resolution := resolution; l_map := m' |}) /\
    same_content c c m m' /\ min_bi m' = min_bi m /\ max_bi m' = max_bi m /\
    (forall bi sl, has_bundle c m' bi sl -> length sl = (2 ^ dimc c)%nat /\
       forall i, (i < 2 ^ dimc c)%nat -> exists j v, nth_error sl i = Some (Some j) /\ has_value c m' i j v) /\
    (forall l2, fits c (l ++ l2) ->
       exists m2 m2', cact_all c l2 m = Ok m2 /\ cact_all c l2 m' = Ok m2' /\ same_content c c m2 m2' /\
         min_bi m2' = min_bi m2 /\ max_bi m2' = max_bi m2).
Proof.
  intros Hc Hk Hmin Hmax Hdim Hf Hrun He Hok C1 C2.
  destruct (restore_map_twin c l s1 s2 g origin resolution m Hc Hk Hmin Hmax Hdim Hf Hrun He Hok C1 C2)
    as [d [m' [A [B [C [_ [D [E [F H]]]]]]]]].
  exists d, m'. split; [exact A|]. split; [exact B|]. split; [exact C|]. split; [exact D|]. split; [exact E|]. split; [exact F|].
  intros l2 Hl2. destruct (H l2 Hl2) as [m2 [m2' [X1 [X2 [X3 [_ X4]]]]]]. exists m2, m2'. auto.
Qed.
End Restore.

(** ** What arrives on the disk does not matter to the result *)
Section Ignore.
Context {R S : Type}.
Variable f : nat -> R -> S.
Definition relabel (ops : list (operation R)) : list (operation S) :=
  map (fun io => match snd io with
                 | Ok (b, r) => Ok (b, option_map (f (fst io)) r)
                 | UB => UB
                 | Throw => Throw
                 end) (combine (seq 0 (length ops)) ops).
Lemma relabel_nth (ops : list (operation R)) (i : nat) :
  nth_error (relabel ops) i = option_map (fun o => match o with
                 | Ok (b, r) => Ok (b, option_map (f i) r) | UB => UB | Throw => Throw end) (nth_error ops i).
Proof.
  unfold relabel. rewrite nth_error_map.
  assert (H : forall s, nth_error (combine (seq s (length ops)) ops) i = option_map (fun x => ((s + i)%nat, x)) (nth_error ops i)).
  { clear. revert i. induction ops as [|x l IH]; intros [|i] s; cbn [length seq combine nth_error option_map]; try reflexivity.
    - rewrite Nat.add_0_r. reflexivity.
    - rewrite IH. replace (Datatypes.S s + i)%nat with (s + Datatypes.S i)%nat by lia. reflexivity. }
  rewrite H. destruct (nth_error ops i); reflexivity.
Qed.
Lemma relabel_length (ops : list (operation R)) : length (relabel ops) = length ops.
Proof. unfold relabel. rewrite map_length, combine_length, seq_length. apply Nat.min_id. Qed.
Lemma relabel_run (ops : list (operation R)) (sched : list nat) : forall (w : workers R) (w' : workers S) w1,
  flag w' = flag w -> phases w' = phases w -> ofold (worker_step ops) sched w = Ok w1 ->
  exists w1', ofold (worker_step (relabel ops)) sched w' = Ok w1' /\ flag w1' = flag w1.
Proof.
  induction sched as [|i l IH]; intros w w' w1 Hf Hp E; cbn [ofold] in *.
  - injection E as <-. eauto.
  - apply obind_ok in E. destruct E as [w2 [E2 E]]. unfold worker_step in E2 |- *. rewrite Hp.
    destruct (nth_error (phases w) i) as [[| |b|]|] eqn:Ep.
    + injection E2 as <-. cbn [obind]. eapply IH; [| |exact E]; cbn [flag phases]; [exact Hf|rewrite Hf; reflexivity].
    + rewrite relabel_nth. destruct (nth_error ops i) as [[[b r]| |]|]; try discriminate E2. injection E2 as <-.
      cbn [option_map obind fst snd]. eapply IH; [| |exact E]; cbn [flag phases]; [exact Hf|reflexivity].
    + injection E2 as <-. cbn [obind]. eapply IH; [| |exact E]; reflexivity.
    + injection E2 as <-. cbn [obind]. eapply IH; eassumption.
    + injection E2 as <-. cbn [obind]. eapply IH; eassumption.
Qed.
End Ignore.

Lemma save_ignores {D Po T : Type} (po : codec Po) (tp : codec T) (fmt : format D) (c : config D)
  (kh : list Z -> list Z) (ks : nat -> list Z -> list Z) (sched : list nat) (origin : Po) (resolution : T) (m : cmap c) (d : directory) :
  map_save po tp fmt c all_open sched origin resolution m = Ok (true, Some d) ->
  exists d', map_save po tp fmt c {| no_directory := None; open_header := true; open_store := fun _ => true;
                                     keep_header := kh; keep_store := ks |} sched origin resolution m = Ok (true, Some d').
Proof.
  unfold map_save. cbn [all_open no_directory open_header]. intros E.
  apply obind_ok in E. destruct E as [h [Eh E]]. apply obind_ok in E. destruct E as [w [Ew E]].
  rewrite Eh. cbn [obind]. set (n := bin_count (dimc c)) in *.
  set (e := {| no_directory := None; open_header := true; open_store := fun _ => true; keep_header := kh; keep_store := ks |}).
  replace (map (save_operation fmt c e m) (seq 0 n)) with (relabel ks (map (save_operation fmt c all_open m) (seq 0 n))).
  - unfold workers_run in *. rewrite relabel_length.
    destruct (relabel_run ks (map (save_operation fmt c all_open m) (seq 0 n)) sched _ (workers_start (length (map (save_operation fmt c all_open m) (seq 0 n)))) w eq_refl eq_refl Ew)
      as [w' [E' F']]. rewrite E'. cbn [obind]. rewrite F'. injection E as -> _. eauto.
  - apply nth_error_ext_list; [rewrite relabel_length, !map_length; reflexivity|].
    intros i Hi. rewrite relabel_length, map_length, seq_length in Hi. rewrite relabel_nth, !nth_error_map.
    rewrite (nth_error_nth' (seq 0 n) 0%nat) by (rewrite seq_length; exact Hi). rewrite seq_nth by exact Hi.
    cbn [option_map Nat.add]. f_equal. unfold save_operation. cbn [all_open e open_store keep_store].
    destruct (get_store (bdc c) (bbc c) m i); cbn [obind]; try reflexivity.
    destruct (storage_save (bdc c) fmt _); cbn [obind]; reflexivity.
Qed.

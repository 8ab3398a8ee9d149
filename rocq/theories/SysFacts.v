(** Histories of a concrete map object. *)
From Verif Require Import Base SeqModel SeqFacts IndexModel IndexFacts OctreeSpec OctreeModel OctreeFacts
  MapModel MapFacts MapHist BackendModel BackendFacts SysModel SysSpec.
Open Scope Z_scope.

Section Sys.
Context {P : Type}.
Variable c : config P.
Hypothesis Hc : config_ok c.

Notation bd := (bdc c).
Notation bb := (bbc c).
Notation ld := (dist_laws (mergec c) (dimc c) (kindc c)).
Notation lb := (bundle_laws (dimc c) (kindc c)).
Notation map_t := (cmap c).
Notation gen := generate_index.
Definition cshape (m : map_t) := mshape (mergec c) merge_bundle bd bb ld lb m.
Definition cddom sh i j := ddom (mergec c) merge_bundle bd bb ld lb sh i j.
Definition cbdom sh bi := bdom (mergec c) merge_bundle bd bb ld lb sh bi.
Definition cokidx sh bi := okidx (mergec c) merge_bundle bd bb ld lb (dimc c) sh bi.
Definition cdget (m : map_t) i j := dget bd bb m i j.
Definition cbget (m : map_t) bi := bget' bd bb m bi.

(** Index range of a dynamic map with componentwise minimum and maximum. *)
Definition has_b (m : map_t) (bi : idx) : Prop := cbdom (cshape m) bi /\ cbget m bi <> None.
Definition box (m : map_t) : Prop :=
  aminc c = cw_min -> amaxc c = cw_max -> kindc c = Dynamic ->
  length (min_bi m) = dimc c /\ length (max_bi m) = dimc c /\
  forall d, (d < dimc c)%nat ->
    (forall bi, has_b m bi -> nth d (min_bi m) 0 <= nth d bi 0 <= nth d (max_bi m) 0) /\
    (nth d (min_bi m) 0 = INT_MAX \/ exists bi, has_b m bi /\ nth d bi 0 = nth d (min_bi m) 0) /\
    (nth d (max_bi m) 0 = INT_MIN \/ exists bi, has_b m bi /\ nth d bi 0 = nth d (max_bi m) 0).

Lemma zip_with_length (f : Z -> Z -> Z) (a b : list Z) : length a = length b -> length (zip_with f a b) = length a.
Proof.
  revert b; induction a as [|x a IH]; intros [|y b] H; cbn in *; try lia; try reflexivity. rewrite IH; lia.
Qed.

Lemma box_step (m m' : map_t) (bi : idx) :
  Inv (mergec c) merge_bundle bd bb ld lb (dimc c) m -> cokidx (cshape m) bi -> cshape m' = cshape m ->
  (forall bi', cbdom (cshape m) bi' -> (cbget m' bi' <> None <-> bi' = bi \/ cbget m bi' <> None)) ->
  match cbget m bi with
  | Some _ => min_bi m' = min_bi m /\ max_bi m' = max_bi m
  | None => match kindc c with
            | Static => min_bi m' = min_bi m /\ max_bi m' = max_bi m
            | Dynamic => min_bi m' = aminc c (min_bi m) bi /\ max_bi m' = amaxc c (max_bi m) bi
            end
  end -> box m -> box m'.
Proof.
  intros HI Hok Hsh Hb Hm HQ H1 H2 H3. specialize (HQ H1 H2 H3). destruct HQ as [L1 [L2 HQ]].
  assert (Hhas : forall x, has_b m' x <-> (x = bi /\ cbdom (cshape m) bi) \/ has_b m x).
  { intros x. unfold has_b. rewrite Hsh. split.
    - intros [A B]. apply Hb in B; [|exact A]. destruct B as [->|B]; auto.
    - intros [[-> A]|[A B]]; (split; [exact A|]); apply Hb; auto. }
  assert (Hbd : cbdom (cshape m) bi) by apply Hok.
  assert (HL : length bi = dimc c) by apply Hok.
  destruct (cbget m bi) as [b|] eqn:Eb.
  - destruct Hm as [-> ->]. split; [exact L1|]. split; [exact L2|]. intros d Hd.
    destruct (HQ d Hd) as [A [B C]].
    assert (Hsame : forall x, has_b m' x <-> has_b m x).
    { intros x. rewrite Hhas. split; [|auto]. intros [[-> _]|H]; [|exact H]. split; [exact Hbd|congruence]. }
    split; [intros x Hx; apply A, Hsame, Hx|]. split.
    + destruct B as [B|[x [Hx Ex]]]; [left; exact B|right; exists x; split; [apply Hsame, Hx|exact Ex]].
    + destruct C as [B'|[x [Hx Ex]]]; [left; exact B'|right; exists x; split; [apply Hsame, Hx|exact Ex]].
  - rewrite H3, H1, H2 in Hm. destruct Hm as [-> ->]. unfold cw_min, cw_max.
    split; [rewrite zip_with_length; lia|]. split; [rewrite zip_with_length; lia|].
    intros d Hd. rewrite !zip_with_nth by lia. destruct (HQ d Hd) as [A [B C]].
    assert (Hbi : has_b m' bi) by (apply Hhas; auto).
    split; [|split].
    + intros x Hx. apply Hhas in Hx. destruct Hx as [[-> _]|Hx]; [lia|]. specialize (A x Hx). lia.
    + destruct (Z.min_spec (nth d (min_bi m) 0) (nth d bi 0)) as [[_ ->]|[_ ->]].
      * destruct B as [B|[x [Hx Ex]]]; [left; exact B|right; exists x; split; [apply Hhas; auto|exact Ex]].
      * right. exists bi. auto.
    + destruct (Z.max_spec (nth d (max_bi m) 0) (nth d bi 0)) as [[_ ->]|[_ ->]].
      * right. exists bi. auto.
      * destruct C as [B'|[x [Hx Ex]]]; [left; exact B'|right; exists x; split; [apply Hhas; auto|exact Ex]].
Qed.

Definition cInv (m : map_t) : Prop :=
  InvAll (mergec c) merge_bundle bd bb ld lb (dimc c) (kindc c) (offsetsc c) box m /\
  cshape m = cshape (new_map c) /\ (forall x, cvalid c m x = cvalid c (new_map c) x).
Definition ccontent (m : map_t) i j := content (defaultc c) bd bb m i j.

Lemma kind_cases (k : kind) : k = Static \/ k = Dynamic.
Proof. destruct k; auto. Qed.

Lemma usable_okidx (k : Z) (bi : idx) :
  0 <= k -> usable c k bi -> cokidx (cshape (new_map c)) bi.
Proof.
  intros Hk [HL H]. unfold cokidx, cshape, new_map, bdc, bbc. destruct Hc as [Hs Hm _ _ _].
  destruct (kindc c).
  - apply static_okidx; auto.
  - apply dynamic_okidx. split; [exact HL|]. revert H. apply Forall_impl. intros z Hz. lia.
Qed.

Lemma new_valid (bi : idx) :
  length bi = dimc c ->
  (cvalid c (new_map c) bi = true <-> (kindc c = Static -> usable c 0 bi)).
Proof.
  intros HL. unfold cvalid, new_map, usable, bdc, bbc. destruct Hc as [Hs Hm _ _ _].
  destruct (kindc c); unfold valid; [|split; [discriminate|reflexivity]].
  specialize (Hs eq_refl). specialize (Hm eq_refl).
  cbn [min_bi max_bi static_new]. rewrite forallb_forall. unfold static_max. split.
  - intros H _. split; [exact HL|]. intros d Hd. specialize (H d ltac:(apply in_seq; lia)).
    rewrite zip_with_nth in H by lia. lia.
  - intros H d Hd. apply in_seq in Hd. destruct (H eq_refl) as [_ H']. specialize (H' d ltac:(lia)).
    rewrite zip_with_nth by lia. lia.
Qed.

Lemma static_none_d i j : dget (dist_backend (mergec c) (dimc c) Static) (bundle_backend (dimc c) Static)
  (static_new (mergec c) (dimc c) (sizec c) (minc c)) i j = None.
Proof.
  unfold dget. cbn [stores static_new]. rewrite nth_error_map.
  destruct (nth_error (seq 0 (bin_count (dimc c))) i); cbn [option_map]; [|reflexivity].
  cbn [dist_backend array_backend bget static_store a_cells a_size a_offset assoc].
  destruct arr_inside; reflexivity.
Qed.

Lemma static_none_b j : bget' (dist_backend (mergec c) (dimc c) Static) (bundle_backend (dimc c) Static)
  (static_new (mergec c) (dimc c) (sizec c) (minc c)) j = None.
Proof.
  unfold bget'. cbn [bundles static_new bundle_backend array_backend bget a_cells a_size a_offset assoc].
  destruct arr_inside; reflexivity.
Qed.

Lemma dynamic_none_d i j : dget (dist_backend (mergec c) (dimc c) Dynamic) (bundle_backend (dimc c) Dynamic)
  (dynamic_new (mergec c) (dimc c) (garbagec c)) i j = None.
Proof.
  unfold dget. cbn [stores dynamic_new]. rewrite nth_error_map.
  destruct (nth_error (seq 0 (bin_count (dimc c))) i); reflexivity.
Qed.

Lemma nth_repeat_lt (x y : Z) (n d : nat) : (d < n)%nat -> nth d (repeat x n) y = x.
Proof. revert d; induction n as [|n IH]; intros [|d] H; cbn; try lia; try reflexivity. apply IH; lia. Qed.

Lemma new_empty_b (bi : idx) : cbget (new_map c) bi = None.
Proof.
  unfold cbget, bget', new_map, bdc, bbc. destruct (kindc c); [|reflexivity].
  cbn [bundles static_new bundle_backend array_backend bget a_cells a_size a_offset assoc].
  destruct arr_inside; reflexivity.
Qed.

Lemma new_range : kindc c = Dynamic ->
  min_bi (new_map c) = repeat INT_MAX (dimc c) /\ max_bi (new_map c) = repeat INT_MIN (dimc c).
Proof. unfold new_map, bdc, bbc. destruct (kindc c); [discriminate|]. intros _. split; reflexivity. Qed.

Lemma new_inv : cInv (new_map c).
Proof.
  split; [|split; reflexivity].
  assert (Hbox : box (new_map c)).
  { intros _ _ Hk. destruct (new_range Hk) as [-> ->].
    rewrite !repeat_length. split; [reflexivity|]. split; [reflexivity|].
    intros d Hd. split; [intros bi [_ H]; rewrite new_empty_b in H; contradiction|].
    split; left; apply nth_repeat_lt; exact Hd. }
  split; [|split; [|split; [|exact Hbox]]]; clear Hbox;
  unfold new_map, bdc, bbc; destruct Hc as [Hs Hm _ _ _]; destruct (kindc c).
  - split; [split; [cbn; rewrite map_length, seq_length; reflexivity|]; split|].
    + apply Forall_forall. cbn [stores static_new]. intros s Hin. apply in_map_iff in Hin.
      destruct Hin as [i [<- _]]. split; cbn; constructor.
    + split; cbn; constructor.
    + intros bi b _ Hb. rewrite static_none_b in Hb. discriminate.
  - split; [split; [cbn; rewrite map_length, seq_length; reflexivity|]; split|].
    + apply Forall_forall. cbn [stores dynamic_new]. intros s Hin. apply in_map_iff in Hin.
      destruct Hin as [i [<- _]]. apply octree_new_wf.
    + apply octree_new_wf.
    + intros bi b _ Hb. discriminate.
  - intros i j d _ Hd. rewrite static_none_d in Hd. discriminate.
  - intros i j d _ Hd. rewrite dynamic_none_d in Hd. discriminate.
  - intros bi b _ Hb. rewrite static_none_b in Hb. discriminate.
  - intros bi b _ Hb. discriminate.
Qed.

Lemma usable_le (k k' : Z) (bi : idx) : k' <= k -> usable c k bi -> usable c k' bi.
Proof.
  intros Hk [HL H]. split; [exact HL|]. destruct (kindc c); [exact H|].
  revert H. apply Forall_impl. intros z Hz. lia.
Qed.

Lemma idx_add_length (a b : idx) : length a = length b -> length (idx_add a b) = length a.
Proof.
  revert b; induction a as [|x a IH]; intros [|y b] H; cbn in *; try reflexivity; try lia.
  rewrite IH by lia. reflexivity.
Qed.

Lemma idx_add_range (lo hi : Z) (a b : idx) :
  Forall (fun z => lo <= z <= hi) a -> Forall (fun z => -1 <= z <= 1) b ->
  Forall (fun z => lo - 1 <= z <= hi + 1) (idx_add a b).
Proof.
  revert b; induction a as [|x a IH]; intros [|y b] Ha Hb; cbn [idx_add]; try constructor.
  - inversion Ha; inversion Hb; subst. lia.
  - inversion Ha; inversion Hb; subst. apply IH; assumption.
Qed.

Lemma neighbour_usable (k : Z) (bi o : idx) :
  usable c k bi -> In o (offsetsc c) -> cvalid c (new_map c) (idx_add bi o) = true ->
  usable c (k - 1) (idx_add bi o).
Proof.
  intros [HL H] Ho Hv. destruct (ok_sound c Hc o Ho) as [Lo Ro].
  assert (HL' : length (idx_add bi o) = dimc c) by (rewrite idx_add_length; congruence).
  pose proof (proj1 (new_valid _ HL') Hv) as Hu. unfold usable in *.
  split; [exact HL'|]. destruct (kindc c); [apply Hu; reflexivity|].
  pose proof (idx_add_range _ _ _ _ H Ro) as Hr. revert Hr. apply Forall_impl. intros z Hz. lia.
Qed.

Lemma cell_ddom (i : nat) (j : idx) : cell_exists c i j -> cddom (cshape (new_map c)) i j.
Proof.
  intros [Hi [HL H]]. unfold cddom, ddom, cshape, mshape, new_map, bdc, bbc. destruct Hc as [Hs Hm _ _ _].
  destruct (kindc c); cbn [fst stores static_new dynamic_new].
  - specialize (Hs eq_refl). specialize (Hm eq_refl). rewrite map_map, nth_error_map.
    rewrite (nth_error_nth' (seq 0 (bin_count (dimc c))) 0%nat) by (rewrite seq_length, two_pow_spec; exact Hi).
    rewrite seq_nth by (rewrite two_pow_spec; exact Hi).
    cbn [option_map Nat.add dist_laws array_laws shape dom static_store a_size a_offset fst snd].
    apply arr_inside_iff. unfold static_offset. rewrite map_length.
    split; [destruct (i =? 0)%nat; rewrite ?map_length; congruence|]. split; [congruence|].
    intros d Hd. specialize (H d ltac:(lia)). rewrite (nth_map_lt _ (minc c) d 0) by lia. rewrite shiftr1_div.
    destruct (i =? 0)%nat; [lia|]. rewrite (nth_map_lt _ (sizec c) d 0) by lia. lia.
  - rewrite map_map, nth_error_map.
    rewrite (nth_error_nth' (seq 0 (bin_count (dimc c))) 0%nat) by (rewrite seq_length, two_pow_spec; exact Hi).
    cbn [option_map dist_laws octree_laws shape dom]. split; assumption.
Qed.

Lemma bundle_cell (bi : idx) (i : nat) : usable c 0 bi -> (i < 2 ^ dimc c)%nat -> cell_exists c i (generate_index bi i).
Proof.
  intros [HL H] Hi. split; [exact Hi|]. split; [rewrite generate_index_length; exact HL|].
  destruct (kindc c).
  - intros d Hd. specialize (H d Hd). rewrite generate_index_nth by lia.
    destruct (Nat.eqb_spec i 0) as [->|Hne].
    + rewrite Nat.bits_0. Z.div_mod_to_equations; lia.
    + destruct (Nat.testbit i d); Z.div_mod_to_equations; lia.
  - destruct (generate_index_in_range (dimc c) bi i) as [_ R]; [|exact R].
    split; [exact HL|]. revert H. apply Forall_impl. intros z Hz. lia.
Qed.

Lemma cstored_spec (m : map_t) (i : nat) (j : idx) :
  cInv m -> cell_exists c i j -> cstored c m i j = Ok (cdget m i j).
Proof.
  intros [[[Hwf _] _] [Hsh _]] Hj. apply cell_ddom in Hj. rewrite <- Hsh in Hj.
  destruct (store_at _ _ _ _ _ _ _ m i j Hwf Hj) as [s [Hs [_ [_ Hg]]]].
  unfold cstored, stored, get_store. rewrite Hs. cbn [obind]. exact Hg.
Qed.

Lemma usable_bdom (k : Z) (bi : idx) : 0 <= k -> usable c k bi -> cbdom (cshape (new_map c)) bi.
Proof. intros Hk Hu. apply (proj1 (proj2 (usable_okidx k bi Hk Hu))). Qed.

Lemma usable_valid (k : Z) (bi : idx) : 0 <= k -> usable c k bi -> cvalid c (new_map c) bi = true.
Proof.
  intros Hk Hu. apply new_valid; [apply Hu|]. intros _. eapply usable_le; [exact Hk|exact Hu].
Qed.

Lemma cbundle_spec (m : map_t) (bi : idx) :
  cInv m -> usable c 0 bi -> cbundle c m bi = Ok (cbget m bi).
Proof.
  intros [[[Hwf _] _] [Hsh Hv]] Hu. unfold cbundle, get_bundle.
  fold (cvalid c m bi). rewrite Hv, (usable_valid 0 bi ltac:(lia) Hu).
  apply (bundle_at _ _ _ _ _ _ _ m bi Hwf).
  change (cbdom (cshape m) bi). rewrite Hsh. apply (usable_bdom 0); [lia|exact Hu].
Qed.

Definition region (k : Z) (m : map_t) : Prop :=
  forall bi, cbdom (cshape (new_map c)) bi -> cbget m bi <> None -> usable c k bi.

(** Named by an operation that allocates. *)
Definition names (a : map_action (P:=P)) (bi : idx) : Prop :=
  match a with
  | Modify b _ => bi = b
  | Touch b => bi = b /\ cvalid c (new_map c) b = true
  | ExpandAll => False
  end.

Lemma cact_spec (k : Z) (m : map_t) (a : map_action (P:=P)) :
  cInv m -> 0 <= k - expansions [a] -> region k m -> act_fits c k a ->
  exists m', cact c m a = Ok m' /\ cInv m' /\ region (k - expansions [a]) m' /\
    (forall i j, cddom (cshape (new_map c)) i j ->
       ccontent m' i j = apply_changes (changes [a] i j) (ccontent m i j)) /\
    (forall bi, cbdom (cshape (new_map c)) bi -> cbget m bi <> None -> cbget m' bi <> None) /\
    (forall bi, cbdom (cshape (new_map c)) bi -> names a bi -> cbget m' bi <> None) /\
    (forall bi, cbdom (cshape (new_map c)) bi -> a <> ExpandAll -> cbget m bi = None ->
       cbget m' bi <> None -> names a bi).
Proof.
  intros HI Hk HR Hf. pose proof HI as [HA [Hsh Hv]].
  assert (Hk0 : 0 <= k) by (destruct a; cbn [expansions] in Hk; lia).
  assert (Hok : act_ok (mergec c) merge_bundle bd bb ld lb (dimc c) (kindc c) (offsetsc c) m a).
  { destruct a as [bi f|bi|]; cbn [act_ok act_fits] in *.
    - fold (cshape m). rewrite Hsh. apply (usable_okidx k); assumption.
    - intros Hvb. fold (cshape m). rewrite Hsh. fold (cvalid c m bi) in Hvb. rewrite Hv in Hvb.
      destruct Hf as [HL Hf]. rewrite new_valid in Hvb by exact HL.
      apply (usable_okidx 0); [lia|]. destruct (kind_cases (kindc c)) as [E|E].
      + apply Hvb; exact E.
      + eapply usable_le; [exact Hk0|]. apply Hf; exact E.
    - intros bi Hbd Hne o Ho Hvo. fold (cshape m) in *. rewrite Hsh in *.
      fold (cvalid c m (idx_add bi o)) in Hvo. rewrite Hv in Hvo.
      apply (usable_okidx (k - 1)); [cbn [expansions] in Hk; lia|].
      apply neighbour_usable; [|exact Ho|exact Hvo]. apply HR; assumption. }
  destruct (act_spec _ _ _ _ _ _ _ _ _ (aminc c) (amaxc c) _ _ box box_step (ok_default c Hc) m a HA Hok)
    as [m' [E [HA' [Hsh' [Hv' [Hc' [Hp Hn]]]]]]].
  fold (cshape m) in *. fold (cshape m') in *. rewrite Hsh in *.
  exists m'. split; [exact E|].
  assert (HI' : cInv m').
  { split; [exact HA'|]. split; [exact Hsh'|]. intros x. unfold cvalid. rewrite Hv'. apply Hv. }
  split; [exact HI'|].
  assert (Hnames : forall bi, cbdom (cshape (new_map c)) bi -> names a bi -> cbget m' bi <> None).
  { intros bi Hbd Hna. destruct a as [b f|b|]; cbn [names] in Hna; [subst b| |contradiction].
    - cbn [cact MapModel.act] in E. cbn [act_ok] in Hok. fold (cshape m) in Hok.
      destruct (modify_all (defaultc c) _ _ _ _ _ _ _ (kindc c) (aminc c) (amaxc c) _ box box_step m bi f HA Hok) as [m1 [E1 [_ [_ [_ Heff]]]]].
      unfold cact, MapModel.act in E. rewrite E1 in E. injection E as <-.
      destruct Heff as [_ [_ [Hb _]]]. unfold cbget. rewrite Hb.
      + rewrite idx_eqb_refl. discriminate.
      + fold (cshape m). rewrite Hsh. exact Hbd.
    - destruct Hna as [-> Hvb]. cbn [act_ok] in Hok. fold (cshape m) in Hok. fold (cvalid c m b) in Hok.
      rewrite Hv in Hok. specialize (Hok Hvb).
      destruct (getAllocate_all (defaultc c) _ _ _ _ _ _ _ (kindc c) (aminc c) (amaxc c) _ box box_step m b HA Hok)
        as [m1 [E1 [_ [_ [Hne _]]]]].
      unfold cact, MapModel.act, getDistributionBundle in E. fold (cvalid c m b) in E. rewrite Hv, Hvb in E.
      rewrite E1 in E. cbn [obind fst] in E. injection E as <-. exact Hne. }
  split; [|split; [exact Hc'|split; [exact Hp|split; [exact Hnames|]]]].
  - intros bi Hbd Hne. destruct (cbget m bi) as [b|] eqn:Eb.
    + eapply usable_le; [|apply HR; [exact Hbd|congruence]]. destruct a; cbn [expansions]; lia.
    + specialize (Hn bi Hbd Eb Hne). destruct a as [b f|b|]; cbn [expansions act_fits] in *.
      * subst b. rewrite Z.sub_0_r. exact Hf.
      * destruct Hn as [-> Hvb]. destruct Hf as [HL Hf].
        rewrite Z.sub_0_r. fold (cvalid c m b) in Hvb. rewrite Hv, new_valid in Hvb by exact HL.
        destruct (kind_cases (kindc c)) as [E0|E0]; [|apply Hf; exact E0].
        specialize (Hvb E0). unfold usable in *. rewrite E0 in *. exact Hvb.
      * destruct Hn as [b0 [o [A [B [C [D F]]]]]]. subst bi. fold (cvalid c m (idx_add b0 o)) in D.
        rewrite Hv in D.
        apply neighbour_usable; [|exact C|exact D]. apply HR; assumption.
  - intros bi Hbd Hne Hno Hyes. specialize (Hn bi Hbd Hno Hyes).
    destruct a as [b f|b|]; cbn [names]; [exact Hn| |contradiction].
    destruct Hn as [-> Hvb]. split; [reflexivity|]. rewrite <- Hv. exact Hvb.
Qed.

Lemma expansions_nonneg (l : list (map_action (P:=P))) : 0 <= expansions l.
Proof. induction l as [|[?|?|] l IH]; cbn [expansions]; lia. Qed.

Lemma changes_cons (a : map_action (P:=P)) l i j : changes (a :: l) i j = changes [a] i j ++ changes l i j.
Proof. destruct a; cbn [changes]; try reflexivity. destruct idx_eqb; reflexivity. Qed.

Lemma changes_app (l1 l2 : list (map_action (P:=P))) i j : changes (l1 ++ l2) i j = changes l1 i j ++ changes l2 i j.
Proof.
  induction l1 as [|a l1 IH]; [reflexivity|]. cbn [app]. rewrite changes_cons, (changes_cons a l1), IH, app_assoc.
  reflexivity.
Qed.

Lemma expansions_app (l1 l2 : list (map_action (P:=P))) : expansions (l1 ++ l2) = expansions l1 + expansions l2.
Proof. induction l1 as [|[?|?|] l IH]; cbn [app expansions]; lia. Qed.

Lemma apply_changes_app (f g : list (P -> P)) (d : P) :
  apply_changes (f ++ g) d = apply_changes g (apply_changes f d).
Proof. unfold apply_changes. apply fold_left_app. Qed.

Lemma cact_all_app (l1 l2 : list (map_action (P:=P))) (m : map_t) :
  cact_all c (l1 ++ l2) m = let* m1 := cact_all c l1 m in cact_all c l2 m1.
Proof. unfold cact_all, act_all. apply ofold_app. Qed.

Lemma hist_spec (l : list (map_action (P:=P))) : forall (k : Z) (m : map_t),
  cInv m -> 0 <= k - expansions l -> region k m -> Forall (act_fits c k) l ->
  exists m', cact_all c l m = Ok m' /\ cInv m' /\ region (k - expansions l) m' /\
    (forall i j, cddom (cshape (new_map c)) i j ->
       ccontent m' i j = apply_changes (changes l i j) (ccontent m i j)) /\
    (forall bi, cbdom (cshape (new_map c)) bi -> cbget m bi <> None -> cbget m' bi <> None) /\
    (forall bi a, In a l -> cbdom (cshape (new_map c)) bi -> names a bi -> cbget m' bi <> None) /\
    (forall bi, cbdom (cshape (new_map c)) bi -> ~ In ExpandAll l -> cbget m bi = None ->
       cbget m' bi <> None -> exists a, In a l /\ names a bi).
Proof.
  induction l as [|a l IH]; intros k m HI Hk HR HF.
  - exists m. cbn [expansions changes] in *. split; [reflexivity|]. split; [exact HI|].
    split; [rewrite Z.sub_0_r; exact HR|]. split; [reflexivity|]. split; [auto|].
    split; [intros bi a []|]. intros; contradiction.
  - inversion HF as [|? ? Hfa HFl]; subst.
    assert (Hsplit : expansions (a :: l) = expansions [a] + expansions l)
      by (change (a :: l) with ([a] ++ l); apply expansions_app).
    pose proof (expansions_nonneg l) as Hn0.
    destruct (cact_spec k m a HI ltac:(lia) HR Hfa) as [m1 [E1 [HI1 [HR1 [Hc1 [Hp1 [Hn1 Ho1]]]]]]].
    destruct (IH (k - expansions [a]) m1 HI1 ltac:(lia) HR1) as [m' [E2 [HI2 [HR2 [Hc2 [Hp2 [Hn2 Ho2]]]]]]].
    { apply Forall_forall. rewrite Forall_forall in HFl. intros x Hx. specialize (HFl x Hx).
      assert (k - expansions [a] <= k) by (pose proof (expansions_nonneg [a]); lia).
      destruct x; cbn [act_fits] in *; [eapply usable_le; eassumption| |exact I].
      destruct HFl as [A B]. split; [exact A|]. intros C. eapply usable_le; [eassumption|apply B; exact C]. }
    exists m'. split; [|split; [exact HI2|split; [|split; [|split; [|split]]]]].
    + unfold cact_all, act_all in *. cbn [ofold]. fold (cact c m a). rewrite E1. cbn [obind]. exact E2.
    + rewrite Hsplit. replace (k - (expansions [a] + expansions l)) with (k - expansions [a] - expansions l) by lia.
      exact HR2.
    + intros i j Hij. rewrite changes_cons, apply_changes_app, <- (Hc1 i j Hij). apply Hc2; exact Hij.
    + intros bi Hbd Hne. apply Hp2; [exact Hbd|]. apply Hp1; assumption.
    + intros bi x [<-|Hin] Hbd Hna; [apply Hp2; [exact Hbd|]; apply Hn1; assumption|]. eapply Hn2; eassumption.
    + intros bi Hbd Hni Hno Hyes.
      destruct (cbget m1 bi) as [b|] eqn:Eb.
      * exists a. split; [left; reflexivity|]. apply Ho1; [exact Hbd| |exact Hno|congruence].
        intros ->; apply Hni; left; reflexivity.
      * destruct (Ho2 bi Hbd) as [x [Hx Hna]].
        -- intros Hin; apply Hni; right; exact Hin.
        -- exact Eb.
        -- exact Hyes.
        -- exists x. split; [right; exact Hx|exact Hna].
Qed.

Lemma new_empty_d (i : nat) (j : idx) : cdget (new_map c) i j = None.
Proof.
  unfold cdget, dget, new_map, bdc, bbc. destruct (kindc c); cbn [stores static_new dynamic_new]; rewrite nth_error_map;
  destruct (nth_error (seq 0 (bin_count (dimc c))) i); cbn [option_map]; try reflexivity.
  cbn [dist_backend array_backend bget static_store a_cells a_size a_offset assoc].
  destruct arr_inside; reflexivity.
Qed.

(** The history theorem from an empty map. *)
Lemma run_spec (l : list (map_action (P:=P))) :
  fits c l ->
  exists m, cact_all c l (new_map c) = Ok m /\ cInv m /\ region 0 m /\
    (forall i j, cddom (cshape (new_map c)) i j ->
       ccontent m i j = apply_changes (changes l i j) (defaultc c)) /\
    (forall bi a, In a l -> cbdom (cshape (new_map c)) bi -> names a bi -> cbget m bi <> None) /\
    (forall bi, cbdom (cshape (new_map c)) bi -> ~ In ExpandAll l -> cbget m bi <> None ->
       exists a, In a l /\ names a bi).
Proof.
  intros Hf.
  destruct (hist_spec l (expansions l) (new_map c) new_inv ltac:(lia)) as [m [E [HI [HR [HC [_ [Hn Ho]]]]]]].
  { intros bi _ H. rewrite new_empty_b in H. contradiction. }
  { exact Hf. }
  exists m. split; [exact E|]. split; [exact HI|]. split; [rewrite Z.sub_diag in HR; exact HR|].
  split; [|split; [exact Hn|]].
  - intros i j Hij. rewrite (HC i j Hij). unfold ccontent, content. fold (cdget (new_map c) i j).
    rewrite new_empty_d. reflexivity.
  - intros bi Hbd Hni Hyes. apply Ho; auto. apply new_empty_b.
Qed.

(** A distribution is present exactly when an allocated bundle refers to it. *)
Lemma present_iff (m : map_t) (i : nat) (j : idx) :
  cInv m -> cddom (cshape (new_map c)) i j -> (i < bin_count (dimc c))%nat ->
  (cdget m i j <> None <->
   exists bi, cbdom (cshape (new_map c)) bi /\ cbget m bi <> None /\ gen bi i = j).
Proof.
  intros [[[Hwf HI] [HD [_ _]]] [Hsh _]] Hij Hi. split.
  - intros H. destruct (cdget m i j) as [d|] eqn:E; [|contradiction].
    destruct (HD i j d) as [bi [b [A [B C]]]]; [|exact E|].
    + fold (cshape m). rewrite Hsh. exact Hij.
    + exists bi. fold (cshape m) in A. rewrite Hsh in A. split; [exact A|]. split; [|exact C].
      unfold cbget. congruence.
  - intros [bi [A [B <-]]]. destruct (cbget m bi) as [b|] eqn:E; [|contradiction].
    destruct (HI bi b) as [_ [_ Hex]]; [fold (cshape m); rewrite Hsh; exact A|exact E|].
    destruct (Hex i Hi) as [d Hd]. unfold cdget. congruence.
Qed.

End Sys.

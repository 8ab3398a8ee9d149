(** Histories of the map with pointers in memory. *)
From Verif Require Import Base SeqModel SeqFacts IndexModel IndexFacts OctreeSpec OctreeModel OctreeFacts OctreeHist MapModel BackendModel SysModel.
From Verif Require Import TreeHeapSpec TreeHeapModel TreeHeapFacts TreeHeapHist PtrMapModel PtrMapFacts.
Open Scope Z_scope.
Local Opaque tree_depth tree_get tree_insert tree_refs octree_get octree_insert octree_modify octree_traverse write data_of.

Section Map.
Context {P : Type}.
Variable default : P.
Variable mergeP : P -> P -> P.
Variable dim : nat.
Variable amin amax : idx -> idx -> idx.
Variable expandDistribution : P -> bool.
Variable offsets : list idx.
Hypothesis Hoff : Forall (fun o => length o = dim) offsets.

Notation bd := (octree_backend mergeP dim).
Notation bb := (octree_backend merge_bundle dim).
Notation ndmap := (@ndmap P bd bb).

(** Slot [k] of a bundle points to the element its index names in storage [k]. *)
Definition slot_rel (h : memory P) (xs : list tree) (k : nat) (p : option nat) (q : option idx) : Prop :=
  match p, q with
  | Some d, Some j => length j = dim /\ exists x, nth_error xs k = Some x /\ tree_get h x j = Ok (Some d)
  | None, None => True
  | _, _ => False
  end.
Definition brel (h : memory P) (xs : list tree) (hb : hbundle) (b : bundle) : Prop :=
  hexpand hb = expand b /\ forall k, srel (slot_rel h xs k) (nth_error (hslots hb) k) (nth_error (slots b) k).

Definition rel (m : ndmap) (s : hmap P) : Prop :=
  family dim (dmem s) (dtrees s) (stores m) /\
  (exists tb fp, has dim (bmem s) (btree s) tb fp /\ trel (brel (dmem s) (dtrees s)) tb (bundles m)) /\
  hmin s = min_bi m /\ hmax s = max_bi m.

(** Pointers stay valid from one state to the next. *)
Definition trees_kept (xs xs' : list tree) : Prop :=
  forall k x, nth_error xs k = Some x -> exists x', nth_error xs' k = Some x' /\ kept_root x x'.
Definition ext (s s' : hmap P) : Prop :=
  grows (dmem s) (dmem s') /\ trees_kept (dtrees s) (dtrees s') /\
  grows (bmem s) (bmem s') /\ kept_root (btree s) (btree s').
Lemma kept_refl (x : tree) : kept_root x x.
Proof. right. reflexivity. Qed.
Lemma trees_kept_refl (xs : list tree) : trees_kept xs xs.
Proof. intros k x H. exists x. split; [exact H|apply kept_refl]. Qed.
Lemma trees_kept_upd (xs xs' : list tree) (k : nat) (x x' : tree) :
  nth_error xs k = Some x -> kept_root x x' -> upd xs k x' = Some xs' -> trees_kept xs xs'.
Proof.
  intros H K U q y Hy. rewrite (upd_nth_error _ _ _ _ _ U). destruct (Nat.eqb_spec k q) as [E|E].
  - subst q. exists x'. split; [reflexivity|]. rewrite H in Hy. injection Hy as <-. exact K.
  - exists y. split; [exact Hy|apply kept_refl].
Qed.
Lemma ext_refl (s : hmap P) : ext s s.
Proof. split; [apply grows_refl|]. split; [apply trees_kept_refl|]. split; [apply grows_refl|apply kept_refl]. Qed.
Lemma ext_trans (s1 s2 s3 : hmap P) : ext s1 s2 -> ext s2 s3 -> ext s1 s3.
Proof.
  intros [A1 [A2 [A3 A4]]] [B1 [B2 [B3 B4]]]. split; [eapply grows_trans; eassumption|]. split.
  - intros k x H. destruct (A2 k x H) as [y [Hy K]]. destruct (B2 k y Hy) as [z [Hz K']]. exists z. split; [exact Hz|].
    eapply kept_trans; eassumption.
  - split; [eapply grows_trans; eassumption|eapply kept_trans; eassumption].
Qed.
Lemma ext_pointer (s s' : hmap P) (bi : idx) (b : nat) :
  ext s s' -> tree_get (bmem s) (btree s) bi = Ok (Some b) -> tree_get (bmem s') (btree s') bi = Ok (Some b).
Proof. intros [_ [_ [G K]]]. apply tree_get_grows; assumption. Qed.
Lemma brel_mono (h h' : memory P) (xs xs' : list tree) (hb : hbundle) (b : bundle) :
  grows h h' -> trees_kept xs xs' -> brel h xs hb b -> brel h' xs' hb b.
Proof.
  intros G K [HE HS]. split; [exact HE|]. intros k. specialize (HS k).
  destruct (nth_error (hslots hb) k) as [[d|]|], (nth_error (slots b) k) as [[j|]|]; cbn [srel slot_rel] in HS |- *;
    try (exact I); try (destruct HS; fail).
  destruct HS as [HL [x [Hx Hg]]]. split; [exact HL|]. destruct (K k x Hx) as [x' [Hx' Kx]]. exists x'. split; [exact Hx'|].
  eapply tree_get_grows; eassumption.
Qed.

(** Elements of the storage of family [k]. *)
Lemma element (m : ndmap) (s : hmap P) (k : nat) (x : tree) (j : idx) (d : nat) :
  rel m s -> nth_error (dtrees s) k = Some x -> length j = dim -> tree_get (dmem s) x j = Ok (Some d) ->
  exists t v i0, nth_error (A:=octree P) (stores m) k = Some t /\ octree_get t j = Ok (Some v) /\ data_of (dmem s) d = Ok (i0, v).
Proof.
  intros [F _] Hx HL Hd. pose proof (family_pick dim _ _ _ k F) as FP. rewrite Hx in FP.
  destruct (nth_error (A:=octree P) (stores m) k) as [t|] eqn:Et; [|contradiction]. cbn [srel] in FP. destruct FP as [fp [H _]].
  pose proof (get_sim dim _ _ _ _ j H HL) as G. rewrite Hd in G. destruct (octree_get t j) as [[v|]| |] eqn:Eg; try contradiction.
  destruct G as [i0 G]. exists t, v, i0. split; [reflexivity|]. split; [exact Eg|exact G].
Qed.

(** The bundle behind a pointer. *)
Lemma bundle_at (m : ndmap) (s : hmap P) (bi : idx) (b : nat) :
  rel m s -> length bi = dim -> tree_get (bmem s) (btree s) bi = Ok (Some b) ->
  exists hb bu i0, data_of (bmem s) b = Ok (i0, hb) /\ octree_get (bundles m) bi = Ok (Some bu) /\ brel (dmem s) (dtrees s) hb bu.
Proof.
  intros [_ [[tb [fp [H T]]] _]] HL Hb. pose proof (get_sim dim _ _ _ _ bi H HL) as G. rewrite Hb in G.
  destruct (octree_get tb bi) as [[hb|]| |] eqn:E; try contradiction. destruct G as [i0 G].
  pose proof (tree_get_rel _ _ _ bi T) as G2. rewrite E in G2. destruct (octree_get (bundles m) bi) as [[bu|]| |]; try contradiction.
  exists hb, bu, i0. split; [exact G|]. split; [reflexivity|exact G2].
Qed.
Lemma bundle_lookup (m : ndmap) (s : hmap P) (bi : idx) :
  rel m s -> length bi = dim ->
  osim (srel (fun _ _ => True)) (octree_get (bundles m) bi) (tree_get (bmem s) (btree s) bi).
Proof.
  intros [_ [[tb [fp [H T]]] _]] HL. pose proof (get_sim dim _ _ _ _ bi H HL) as G.
  pose proof (tree_get_rel _ _ _ bi T) as G2.
  destruct (octree_get tb bi) as [[hb|]| |], (octree_get (bundles m) bi) as [[bu|]| |],
    (tree_get (bmem s) (btree s) bi) as [[b|]| |]; cbn in *; try contradiction; exact I.
Qed.

(** Writing to the bundle behind a pointer. *)
Lemma bundle_write (m : ndmap) (s : hmap P) (bi : idx) (b : nat) (g : hbundle -> hbundle) (f : bundle -> bundle) :
  rel m s -> length bi = dim -> tree_get (bmem s) (btree s) bi = Ok (Some b) ->
  (forall hb bu, brel (dmem s) (dtrees s) hb bu -> brel (dmem s) (dtrees s) (g hb) (f bu)) ->
  exists h' bs', write (bmem s) b g = Ok h' /\ octree_modify (bundles m) bi f = Ok bs' /\
    rel (set_bundles bd bb m bs') (with_bundles s h' (btree s)) /\ ext s (with_bundles s h' (btree s)).
Proof.
  intros [F [[tb [fp [H T]]] [M1 M2]]] HL Hb Hf.
  destruct (modify_sim dim _ _ _ _ bi b g H HL Hb) as [h' [t' [E1 [E2 [H' [EV G]]]]]].
  pose proof (tree_modify_rel _ tb (bundles m) bi g f Hf T) as TM. rewrite E2 in TM.
  destruct (octree_modify (bundles m) bi f) as [bs'| |]; try contradiction.
  exists h', bs'. split; [exact E1|]. split; [reflexivity|]. split.
  - split; [exact F|]. split; [exists t', fp; split; [exact H'|exact TM]|split; [exact M1|exact M2]].
  - split; [apply grows_refl|]. split; [apply trees_kept_refl|]. split; [exact G|apply kept_refl].
Qed.

(** Changing the storage of family [k]. *)
Lemma dists_change (m : ndmap) (s : hmap P) (k : nat) (x x' : tree) (t t' : octree P) (h' : memory P) (xs' : list tree) (ts' : list (octree P)) :
  rel m s -> nth_error (dtrees s) k = Some x -> kept_root x x' -> grows (dmem s) h' ->
  family dim h' xs' ts' -> upd (dtrees s) k x' = Some xs' ->
  rel {| stores := ts' : list (st bd); bundles := bundles m; min_bi := min_bi m; max_bi := max_bi m |} (with_dists s h' xs') /\
  ext s (with_dists s h' xs').
Proof.
  intros [F [[tb [fp [H T]]] [M1 M2]]] Hx K G F' U.
  assert (TK : trees_kept (dtrees s) xs') by (eapply trees_kept_upd; eassumption).
  split.
  - split; [exact F'|]. split; [|split; [exact M1|exact M2]]. exists tb, fp. split; [exact H|].
    eapply trel_mono; [|exact T]. intros hb bu. apply brel_mono; assumption.
  - split; [exact G|]. split; [exact TK|]. split; [apply grows_refl|apply kept_refl].
Qed.

Lemma upd_same {A : Type} (l : list A) (k : nat) (x : A) : nth_error l k = Some x -> upd l k x = Some l.
Proof.
  revert k; induction l as [|y l IH]; intros [|k] H; cbn in *; try discriminate; [congruence|]. rewrite (IH k H). reflexivity.
Qed.

(** getAllocate of one distribution. *)
Lemma alloc_dist_sim (m : ndmap) (s : hmap P) (i : nat) (j : idx) :
  rel m s -> length j = dim ->
  osim (fun m' r => rel m' (fst r) /\ ext s (fst r) /\ bundles m' = bundles m /\
          exists x, nth_error (dtrees (fst r)) i = Some x /\ tree_get (dmem (fst r)) x j = Ok (Some (snd r)))
    (let* st := get_store bd bb m i in let* st' := alloc_dist default bd st j in set_store bd bb m i st')
    (get_or_insert default mergeP dim s i j).
Proof.
  intros HR HL. pose proof HR as [F _]. unfold get_store, get_or_insert, set_store. change (st bd) with (octree P).
  pose proof (family_pick dim _ _ _ i F) as FP.
  destruct (nth_error (dtrees s) i) as [x|] eqn:Ex, (nth_error (A:=octree P) (stores m) i) as [t|] eqn:Et; try contradiction; [|exact I].
  cbn [srel] in FP. destruct FP as [fp [H Hup]]. cbn [obind]. unfold alloc_dist. cbn [bget bins st octree_backend].
  pose proof (get_sim dim _ _ _ _ j H HL) as G.
  destruct (octree_get t j) as [[v|]| |], (tree_get (dmem s) x j) as [[d|]| |] eqn:Ed; try contradiction; cbn [obind]; try exact I.
  - change (st bd) with (octree P). rewrite (upd_same _ _ _ Et). cbn [osim fst snd]. split; [|split; [apply ext_refl|split; [reflexivity|eauto]]].
    destruct m; exact HR.
  - pose proof (insert_sim mergeP dim _ _ _ _ j default H HL) as IS.
    destruct (octree_insert mergeP dim t j default) as [t'| |], (tree_insert mergeP dim (dmem s) x j default) as [[[h' d] x']| |];
      try contradiction; cbn [obind]; try exact I.
    destruct IS as [fp' [H' [EV [GR [Q K]]]]]. cbn [fst snd] in *.
    destruct (upd_some (dtrees s) i x') as [xs' Ux]; [apply nth_error_Some; congruence|].
    destruct (upd_some (A:=octree P) (stores m) i t') as [ts' Ut]; [apply nth_error_Some; congruence|].
    change (st bd) with (octree P) in *. rewrite Ux, Ut. cbn [osim fst snd].
    destruct (dists_change m s i x x' t t' h' xs' ts' HR Ex K GR (Hup _ _ _ _ _ _ H' EV Ux Ut) Ux) as [R' E'].
    split; [exact R'|]. split; [exact E'|]. split; [reflexivity|]. exists x'. cbn [with_dists dtrees dmem].
    rewrite (upd_nth_error _ _ _ _ _ Ux), Nat.eqb_refl. auto.
Qed.

Lemma set_slot_rel (h : memory P) (xs : list tree) (i : nat) (x : tree) (j : idx) (d : nat) (hb : hbundle) (bu : bundle) :
  nth_error xs i = Some x -> length j = dim -> tree_get h x j = Ok (Some d) ->
  brel h xs hb bu -> brel h xs (hset_slot i d hb) (set_slot i j bu).
Proof.
  intros Hx HL Hd [HE HS]. split; [exact HE|]. unfold hset_slot, set_slot. cbn [hslots slots]. intros k.
  assert (LL : length (hslots hb) = length (slots bu)).
  { clear - HS. revert HS. generalize (hslots hb) as l1, (slots bu) as l2. intros l1; generalize 0%nat as o.
    intros _ l2 HS. apply (rel_length (fun _ _ => True)). intros q. specialize (HS q).
    destruct (nth_error l1 q), (nth_error l2 q); cbn in HS; auto. }
  destruct (Nat.lt_ge_cases i (length (hslots hb))) as [L|L].
  - destruct (upd_some (hslots hb) i (Some d) L) as [l1 U1]. destruct (upd_some (slots bu) i (Some j)) as [l2 U2]; [rewrite <- LL; exact L|].
    rewrite U1, U2. rewrite (upd_nth_error _ _ _ _ _ U1), (upd_nth_error _ _ _ _ _ U2).
    destruct (Nat.eqb_spec i k) as [E|E]; [|apply HS]. subst k. cbn. eauto.
  - assert (U1 : upd (hslots hb) i (Some d) = None).
    { destruct (upd (hslots hb) i (Some d)) eqn:E; [|reflexivity]. exfalso.
      pose proof (upd_nth_error _ _ _ i _ E) as X. rewrite Nat.eqb_refl in X.
      assert (nth_error l i <> None) by congruence. apply nth_error_Some in H. rewrite (upd_length _ _ _ _ E) in H. lia. }
    assert (U2 : upd (slots bu) i (Some j) = None).
    { destruct (upd (slots bu) i (Some j)) eqn:E; [|reflexivity]. exfalso.
      pose proof (upd_nth_error _ _ _ i _ E) as X. rewrite Nat.eqb_refl in X.
      assert (nth_error l i <> None) by congruence. apply nth_error_Some in H. rewrite (upd_length _ _ _ _ E) in H. lia. }
    rewrite U1, U2. apply HS.
Qed.

Lemma fill_slot_sim (m : ndmap) (s : hmap P) (bi : idx) (b : nat) (ij : nat * idx) :
  rel m s -> length bi = dim -> tree_get (bmem s) (btree s) bi = Ok (Some b) -> length (snd ij) = dim ->
  osim (fun m' s' => rel m' s' /\ ext s s') (alloc_slot default bd bb bi m ij) (fill_slot default mergeP dim b s ij).
Proof.
  intros HR HL Hb HJ. destruct ij as [i j]. cbn [snd] in HJ. unfold alloc_slot, fill_slot, slot_at. cbn [fst snd].
  destruct (bundle_at m s bi b HR HL Hb) as [hb [bu [i0 [E1 [E2 B]]]]]. cbn [bget octree_backend]. rewrite E1, E2. cbn [obind snd].
  pose proof (proj2 B i) as Bi.
  destruct (nth_error (hslots hb) i) as [[d|]|], (nth_error (slots bu) i) as [[q|]|]; cbn in Bi; try contradiction; cbn [obind osim].
  - split; [exact HR|apply ext_refl].
  - pose proof (alloc_dist_sim m s i j HR HJ) as AS.
    destruct (get_store bd bb m i) as [t| |]; cbn [obind] in AS |- *; try (destruct (get_or_insert default mergeP dim s i j); try contradiction; exact I).
    destruct (alloc_dist default bd t j) as [t'| |]; cbn [obind] in AS |- *; try (destruct (get_or_insert default mergeP dim s i j); try contradiction; exact I).
    destruct (set_store bd bb m i t') as [m'| |], (get_or_insert default mergeP dim s i j) as [[s' d]| |]; try contradiction; cbn [obind]; try exact I.
    cbn [osim fst snd] in AS. destruct AS as [R' [X' [HB [x [Hx Hd]]]]]. cbn [fst snd].
    destruct (bundle_write m' s' bi b (hset_slot i d) (set_slot i j) R' HL (ext_pointer _ _ _ _ X' Hb)) as [h' [bs' [W1 [W2 [R2 X2]]]]].
    { intros hb0 bu0. apply (set_slot_rel _ _ i x); assumption. }
    cbn [bmod octree_backend]. rewrite W1, W2. cbn [obind osim]. split; [exact R2|eapply ext_trans; eassumption].
  - exact I.
Qed.

Lemma apply_indices_lengths (bi : idx) (n : nat) : Forall (fun ij => length (snd ij) = length bi) (apply_indices n bi).
Proof.
  unfold apply_indices. generalize 0%nat as k. induction n as [|n IH]; intros k; cbn [apply_indices_from]; constructor; [|apply IH].
  cbn. apply generate_index_length.
Qed.
Lemma forall2_diag {A : Type} (Q : A -> Prop) (l : list A) : Forall Q l -> Forall2 (fun x y => x = y /\ Q x) l l.
Proof. induction 1; constructor; auto. Qed.

(** getAllocate of a bundle. *)
Lemma get_allocate_sim (m : ndmap) (s : hmap P) (bi : idx) :
  rel m s -> length bi = dim ->
  osim (fun m' r => rel m' (fst r) /\ ext s (fst r) /\ tree_get (bmem (fst r)) (btree (fst r)) bi = Ok (Some (snd r)))
    (getAllocate default bd bb dim Dynamic amin amax m bi) (get_allocate default mergeP dim amin amax s bi).
Proof.
  intros HR HL. unfold getAllocate, get_allocate. cbn [bget bins octree_backend].
  pose proof (bundle_lookup m s bi HR HL) as BL.
  destruct (octree_get (bundles m) bi) as [[bu|]| |], (tree_get (bmem s) (btree s) bi) as [[b|]| |] eqn:Eb; try contradiction; cbn [obind]; try exact I.
  { cbn [osim fst snd]. split; [exact HR|]. split; [apply ext_refl|exact Eb]. }
  destruct HR as [F [[tb [fp [H T]]] [M1 M2]]].
  pose proof (insert_sim hmerge dim _ _ _ _ bi (hnew_bundle dim) H HL) as IS.
  assert (NB : brel (dmem s) (dtrees s) (hnew_bundle dim) (new_bundle dim)).
  { split; [reflexivity|]. intros k. cbn [hnew_bundle new_bundle hslots slots]. rewrite !nth_repeat_none.
    destruct (Nat.ltb k (bin_count dim)); exact I. }
  pose proof (tree_insert_rel (brel (dmem s) (dtrees s)) hmerge merge_bundle (fun a b c d Hab _ => Hab) dim tb (bundles m) bi _ _ T NB) as IR.
  destruct (octree_insert hmerge dim tb bi (hnew_bundle dim)) as [tb'| |], (octree_insert merge_bundle dim (bundles m) bi (new_bundle dim)) as [bs| |],
    (tree_insert hmerge dim (bmem s) (btree s) bi (hnew_bundle dim)) as [[[h' b] x']| |]; try contradiction; cbn [obind]; try exact I.
  cbn [osim] in IS, IR. destruct IS as [fp' [H' [EV [GR [Q K]]]]]. cbn [fst snd] in *.
  set (s1 := with_bundles s h' x'). set (m1 := set_bundles bd bb m bs).
  assert (R1 : rel m1 s1) by (split; [exact F|]; split; [exists tb', fp'; split; [exact H'|exact IR]|split; [exact M1|exact M2]]).
  assert (X1 : ext s s1) by (split; [apply grows_refl|]; split; [apply trees_kept_refl|]; split; [exact GR|exact K]).
  apply (osim_bind (fun m' s' => rel m' s' /\ ext s1 s')).
  - eapply (osim_fold (fun m' s' => rel m' s' /\ ext s1 s') (fun x y => x = y /\ length (snd x) = length bi)).
    + intros m' s' ij ij' [R' X'] [-> HJ]. eapply osim_weaken.
      * apply fill_slot_sim; [exact R'|exact HL|eapply ext_pointer; [exact X'|exact Q]|rewrite <- HL; exact HJ].
      * intros m2 s2 [R2 X2]. split; [exact R2|eapply ext_trans; eassumption].
    + apply forall2_diag. apply apply_indices_lengths.
    + split; [exact R1|apply ext_refl].
  - intros m' s' [R' X']. cbn [osim fst snd]. destruct R' as [F' [B' [N1 N2]]]. split; [|split].
    + split; [exact F'|]. split; [exact B'|]. cbn [update_range updateIndices hmin hmax min_bi max_bi]. rewrite N1, N2. auto.
    + eapply ext_trans; [exact X1|]. exact X'.
    + change (tree_get (bmem s') (btree s') bi = Ok (Some b)). eapply ext_pointer; [exact X'|exact Q].
Qed.

(** Changing the distributions of a bundle. *)
Lemma change_slot_sim (m : ndmap) (s : hmap P) (bi : idx) (b : nat) (f : P -> P) (i : nat) :
  rel m s -> length bi = dim -> tree_get (bmem s) (btree s) bi = Ok (Some b) ->
  osim (fun m' s' => rel m' s' /\ ext s s') (modify_slot bd bb bi f m i) (change_slot b f s i).
Proof.
  intros HR HL Hb. unfold modify_slot, change_slot, slot_at.
  destruct (bundle_at m s bi b HR HL Hb) as [hb [bu [i0 [E1 [E2 B]]]]]. cbn [bget octree_backend]. rewrite E1, E2. cbn [obind snd].
  pose proof (proj2 B i) as Bi.
  destruct (nth_error (hslots hb) i) as [[d|]|], (nth_error (slots bu) i) as [[q|]|]; cbn in Bi; try contradiction; cbn [obind]; try exact I.
  destruct Bi as [HQ [x [Hx Hd]]]. pose proof HR as [F _].
  pose proof (family_pick dim _ _ _ i F) as FP. rewrite Hx in FP. unfold get_store, set_store. change (st bd) with (octree P).
  destruct (nth_error (A:=octree P) (stores m) i) as [t|] eqn:Et; [|contradiction]. cbn [srel obind] in *. destruct FP as [fp [H Hup]].
  destruct (modify_sim dim _ _ _ _ q d f H HQ Hd) as [h' [t' [W1 [W2 [H' [EV G]]]]]]. cbn [bmod octree_backend]. rewrite W1, W2. cbn [obind].
  destruct (upd_some (A:=octree P) (stores m) i t') as [ts' Ut]; [apply nth_error_Some; congruence|].
  change (st bd) with (octree P) in *. rewrite Ut. cbn [osim].
  pose proof (upd_same _ _ _ Hx) as Ux.
  apply (dists_change m s i x x t t' h' (dtrees s) ts' HR Hx (kept_refl x) G (Hup _ _ _ _ _ _ H' EV Ux Ut) Ux).
Qed.
Lemma change_bundle_sim (m : ndmap) (s : hmap P) (bi : idx) (f : P -> P) :
  rel m s -> length bi = dim ->
  osim (fun m' s' => rel m' s' /\ ext s s') (modify_bundle default bd bb dim Dynamic amin amax m bi f)
    (change_bundle default mergeP dim amin amax s bi f).
Proof.
  intros HR HL. unfold modify_bundle, change_bundle.
  eapply osim_bind; [apply (get_allocate_sim m s bi HR HL)|]. intros m1 [s1 b] [R1 [X1 Hb]]. cbn [fst snd] in *.
  apply (osim_weaken (fun m' s' => rel m' s' /\ ext s s' /\ tree_get (bmem s') (btree s') bi = Ok (Some b))).
  - apply (osim_fold (fun m' s' => rel m' s' /\ ext s s' /\ tree_get (bmem s') (btree s') bi = Ok (Some b)) eq).
    + intros m2 s2 i i' [R2 [X2 H2]] <-. eapply osim_weaken; [apply change_slot_sim; eassumption|].
      intros m3 s3 [R3 X3]. split; [exact R3|]. split; [eapply ext_trans; eassumption|eapply ext_pointer; eassumption].
    + clear. induction (seq 0 (bin_count dim)); constructor; auto.
    + split; [exact R1|]. split; [exact X1|exact Hb].
  - intros m2 s2 [A [B _]]. split; [exact A|exact B].
Qed.

(** expandBundle reads the distributions behind the pointers. *)
Lemma any_expands_sim (m : ndmap) (s : hmap P) (k : nat) (ps : list (option nat)) (qs : list (option idx)) :
  rel m s -> (forall q, srel (slot_rel (dmem s) (dtrees s) (k + q)) (nth_error ps q) (nth_error qs q)) ->
  osim eq (expandBundle_from bd bb expandDistribution m k qs) (any_expands expandDistribution s ps).
Proof.
  intros HR. revert k qs; induction ps as [|p ps IH]; intros k qs H.
  - specialize (H O). destruct qs; [reflexivity|contradiction].
  - pose proof (H O) as H0. destruct qs as [|q qs]; [contradiction|]. cbn [nth_error srel] in H0. rewrite Nat.add_0_r in H0.
    assert (H1 : forall q, srel (slot_rel (dmem s) (dtrees s) (S k + q)) (nth_error ps q) (nth_error qs q)).
    { intros r. specialize (H (S r)). cbn [nth_error] in H. replace (S k + r)%nat with (k + S r)%nat by lia. exact H. }
    specialize (IH (S k) qs H1). cbn [expandBundle_from any_expands].
    destruct p as [d|], q as [j|]; cbn [slot_rel] in H0; try contradiction; cbn [slot_value obind]; [|exact IH].
    destruct H0 as [HJ [x [Hx Hd]]]. destruct (element m s k x j d HR Hx HJ Hd) as [t [v [i0 [E1 [E2 E3]]]]].
    unfold get_store. change (st bd) with (octree P). rewrite E1. cbn [obind bget octree_backend]. rewrite E2, E3. cbn [obind snd].
    destruct (expandDistribution v); [reflexivity|exact IH].
Qed.

Lemma idx_add_length (a b : idx) : length a = dim -> length b = dim -> length (idx_add a b) = dim.
Proof.
  generalize dim as n. revert b; induction a as [|x a IH]; intros [|y b] n Ha Hb; cbn in *; subst; try reflexivity; try discriminate.
  injection Hb as Hb. f_equal. apply IH; [reflexivity|exact Hb].
Qed.

Lemma expand_one_sim (m : ndmap) (s : hmap P) (bi : idx) (b : nat) :
  rel m s -> length bi = dim -> tree_get (bmem s) (btree s) bi = Ok (Some b) ->
  osim (fun m' s' => rel m' s' /\ ext s s')
    (allocatePartiallyAllocatedBundle default bd bb dim Dynamic amin amax expandDistribution offsets m bi)
    (expand_one default mergeP dim amin amax expandDistribution offsets s (bi, b)).
Proof.
  intros HR HL Hb. unfold allocatePartiallyAllocatedBundle, expand_one.
  destruct (bundle_at m s bi b HR HL Hb) as [hb [bu [i0 [E1 [E2 B]]]]]. cbn [bget octree_backend]. rewrite E1, E2. cbn [obind snd].
  rewrite (proj1 B). destruct (expand bu); [|split; [exact HR|apply ext_refl]].
  apply (osim_bind eq); [apply any_expands_sim; [exact HR|exact (proj2 B)]|]. intros e e' <-.
  destruct e; [|split; [exact HR|apply ext_refl]].
  apply (osim_bind (fun m' s' => rel m' s' /\ ext s s')).
  - eapply (osim_fold (fun m' s' => rel m' s' /\ ext s s') (fun x y => x = y /\ length x = dim)).
    + intros m' s' o o' [R' X'] [<- HO]. unfold alloc_neighbour. cbn [valid].
      pose proof (get_allocate_sim m' s' (idx_add bi o) R' (idx_add_length bi o HL HO)) as GS.
      destruct (getAllocate default bd bb dim Dynamic amin amax m' (idx_add bi o)) as [m2| |],
        (get_allocate default mergeP dim amin amax s' (idx_add bi o)) as [[s2 b2]| |]; cbn in GS; try contradiction; cbn [obind osim fst]; try exact I.
      destruct GS as [R2 [X2 _]]. split; [exact R2|eapply ext_trans; eassumption].
    + apply forall2_diag. exact Hoff.
    + split; [exact HR|apply ext_refl].
  - intros m' s' [R' X'].
    destruct (bundle_write m' s' bi b hset_expanded set_expanded R' HL (ext_pointer _ _ _ _ X' Hb)) as [h' [bs' [W1 [W2 [R2 X2]]]]].
    { intros hb0 bu0 [_ B0]. split; [reflexivity|exact B0]. }
    cbn [bmod octree_backend]. rewrite W1, W2. cbn [obind osim]. split; [exact R2|eapply ext_trans; eassumption].
Qed.

(** Pointers to all bundles. *)
Lemma bundle_refs (m : ndmap) (s : hmap P) :
  rel m s -> exists es ds, octree_traverse (bundles m) = Ok es /\ tree_refs dim (bmem s) (btree s) = Ok ds /\
    Forall2 (fun e d => fst e = fst d /\ length (fst e) = dim /\ tree_get (bmem s) (btree s) (fst e) = Ok (Some (snd d))) es ds.
Proof.
  intros [F [[tb [fp [H T]]] [M1 M2]]]. destruct (refs_sim dim _ _ _ _ H) as [es [ds [E1 [E2 E3]]]].
  pose proof (tree_traverse_rel _ _ _ T) as TR. rewrite E1 in TR. destruct (octree_traverse (bundles m)) as [es'| |]; try contradiction.
  exists es', ds. split; [reflexivity|]. split; [exact E2|]. cbn [osim] in TR. clear - E3 TR. revert es' TR.
  induction E3 as [|e d es ds [A1 [A2 [A3 A4]]] E3 IH]; intros es' TR; inversion TR; subst; constructor; [|apply IH; assumption].
  destruct H1 as [B1 B2]. split; [exact (eq_trans (eq_sym B1) A1)|].
  split; [exact (eq_trans (f_equal (@length Z) (eq_sym B1)) (proj1 A2))|exact (eq_trans (f_equal (tree_get _ _) (eq_sym B1)) A3)].
Qed.

Lemma hact_sim (m : ndmap) (s : hmap P) (a : map_action (P:=P)) :
  rel m s -> (forall bi, match a with Modify b _ | Touch b => b = bi | ExpandAll => False end -> length bi = dim) ->
  osim (fun m' s' => rel m' s' /\ ext s s')
    (act default bd bb dim Dynamic amin amax expandDistribution offsets m a)
    (hact default mergeP dim amin amax expandDistribution offsets s a).
Proof.
  intros HR HA. destruct a as [bi f|bi|]; cbn [act hact].
  - apply change_bundle_sim; auto.
  - unfold getDistributionBundle. cbn [valid]. pose proof (get_allocate_sim m s bi HR (HA bi eq_refl)) as GS.
    destruct (getAllocate default bd bb dim Dynamic amin amax m bi) as [m2| |],
        (get_allocate default mergeP dim amin amax s bi) as [[s2 b2]| |]; cbn in GS; try contradiction; cbn [obind osim fst]; try exact I.
    destruct GS as [R2 [X2 _]]. auto.
  - unfold allocatePartiallyAllocatedBundles, expand_all. destruct (bundle_refs m s HR) as [es [ds [E1 [E2 E3]]]].
    cbn [btrav octree_backend]. rewrite E1, E2. cbn [obind].
    eapply (osim_fold (fun m' s' => rel m' s' /\ ext s s') (fun x y => x = fst y /\ length x = dim /\ tree_get (bmem s) (btree s) x = Ok (Some (snd y)))).
    + intros m' s' x [y b] [R' X'] [-> [HL Hb]]. cbn [fst snd] in *.
      eapply osim_weaken; [apply expand_one_sim; [exact R'|exact HL|eapply ext_pointer; eassumption]|].
      intros m2 s2 [R2 X2]. split; [exact R2|eapply ext_trans; eassumption].
    + clear - E3. induction E3 as [|e d es ds [A1 A2] E3 IH]; cbn [map]; constructor; [auto|exact IH].
    + split; [exact HR|apply ext_refl].
Qed.

Definition named (bi : idx) (a : map_action (P:=P)) : Prop :=
  match a with Modify b _ | Touch b => b = bi | ExpandAll => False end.
Lemma hact_all_sim (l : list (map_action (P:=P))) (m : ndmap) (s : hmap P) :
  rel m s -> (forall a bi, In a l -> named bi a -> length bi = dim) ->
  osim (fun m' s' => rel m' s' /\ ext s s')
    (act_all default bd bb dim Dynamic amin amax expandDistribution offsets l m)
    (hact_all default mergeP dim amin amax expandDistribution offsets l s).
Proof.
  intros HR HA. unfold act_all, hact_all.
  eapply (osim_fold (fun m' s' => rel m' s' /\ ext s s') (fun x y => x = y /\ forall bi, named bi x -> length bi = dim)).
  - intros m' s' a a' [R' X'] [<- Ha]. eapply osim_weaken; [apply hact_sim; [exact R'|exact Ha]|].
    intros m2 s2 [R2 X2]. split; [exact R2|eapply ext_trans; eassumption].
  - apply forall2_diag. apply Forall_forall. intros a Ha bi. apply HA. exact Ha.
  - split; [exact HR|apply ext_refl].
Qed.

Lemma rel_new (g : nat -> Z) : rel (dynamic_new mergeP dim g) (hnew dim g).
Proof.
  split; [|split; [|split; reflexivity]].
  - exists (map (fun _ => []) (seq 0 (bin_count dim))). split.
    + induction (seq 0 (bin_count dim)); cbn; [constructor|assumption].
    + intros k. cbn [hnew dtrees dynamic_new stores]. rewrite !nth_error_map. destruct (nth_error (seq 0 (bin_count dim)) k); [|exact I].
      split; reflexivity.
  - exists (octree_new (g (bin_count dim))), []. split; [split; reflexivity|]. split; [reflexivity|exact I].
Qed.

(** What the client sees. *)
Lemma in_storage_eq (m : ndmap) (s : hmap P) (i : nat) (j : idx) :
  rel m s -> length j = dim -> in_storage s i j = stored bd bb m i j.
Proof.
  intros HR HL. unfold in_storage, stored, get_store. change (st bd) with (octree P). pose proof HR as [F _]. pose proof (family_pick dim _ _ _ i F) as FP.
  destruct (nth_error (dtrees s) i) as [x|] eqn:Ex, (nth_error (A:=octree P) (stores m) i) as [t|] eqn:Et; try contradiction; [|reflexivity].
  cbn [srel obind] in *. destruct FP as [fp [H _]]. pose proof (get_sim dim _ _ _ _ j H HL) as G. cbn [bget octree_backend].
  destruct (octree_get t j) as [[v|]| |], (tree_get (dmem s) x j) as [[d|]| |]; try contradiction; cbn [obind]; try reflexivity.
  destruct G as [i0 G]. rewrite G. reflexivity.
Qed.
Lemma indices_eq (m : ndmap) (s : hmap P) :
  rel m s -> bundle_indices dim s = let* l := octree_traverse (bundles m) in Ok (map fst l).
Proof.
  intros HR. destruct (bundle_refs m s HR) as [es [ds [E1 [E2 E3]]]]. unfold bundle_indices. rewrite E1, E2. cbn [obind]. f_equal.
  clear - E3. induction E3 as [|e d es ds [A1 A2] E3 IH]; cbn [map]; [reflexivity|]. exact (f_equal2 cons (eq_sym A1) IH).
Qed.
Lemma behind_eq (m : ndmap) (s : hmap P) (bi : idx) (b : nat) :
  rel m s -> length bi = dim -> tree_get (bmem s) (btree s) bi = Ok (Some b) ->
  exists bu, octree_get (bundles m) bi = Ok (Some bu) /\
    forall k, behind s b k = match nth_error (slots bu) k with Some q => slot_value bd bb m k q | None => UB end.
Proof.
  intros HR HL Hb. destruct (bundle_at m s bi b HR HL Hb) as [hb [bu [i0 [E1 [E2 B]]]]]. exists bu. split; [exact E2|]. intros k.
  unfold behind, slot_at. rewrite E1. cbn [obind snd]. pose proof (proj2 B k) as Bk.
  destruct (nth_error (hslots hb) k) as [[d|]|], (nth_error (slots bu) k) as [[q|]|]; cbn in Bk; try contradiction; cbn [obind slot_value]; try reflexivity.
  destruct Bk as [HQ [x [Hx Hd]]]. destruct (element m s k x q d HR Hx HQ Hd) as [t [v [i1 [F1 [F2 F3]]]]].
  unfold get_store. change (st bd) with (octree P). rewrite F1, F3. cbn [obind bget octree_backend snd]. rewrite F2. reflexivity.
Qed.

(** Address [d] is that of the element of storage [k] at cell [j]. *)
Definition at_cell (s : hmap P) (k : nat) (j : idx) (d : nat) : Prop :=
  exists x, nth_error (dtrees s) k = Some x /\ tree_get (dmem s) x j = Ok (Some d).
Lemma at_cell_ext (s s' : hmap P) (k : nat) (j : idx) (d : nat) : ext s s' -> at_cell s k j d -> at_cell s' k j d.
Proof.
  intros [G [K _]] [x [Hx Hd]]. destruct (K k x Hx) as [x' [Hx' Kx]]. exists x'. split; [exact Hx'|]. eapply tree_get_grows; eassumption.
Qed.
Lemma has_address {V : Type} (h : memory V) (x : tree) (t : octree V) (fp : list nat) (j : idx) (d : nat) :
  has dim h x t fp -> in_tree_range dim j -> tree_get h x j = Ok (Some d) -> In d fp.
Proof.
  Local Transparent tree_get.
  intros [_ H] HJ. unfold tree_get. destruct (root_ x) as [n|], (root t) as [nd|]; try contradiction; [|discriminate].
  destruct H as [R [ND W]]. pose proof (get_spec dim _ _ h n nd fp j R ND W (in_range_computable _ _ HJ)) as G. intros E.
  destruct (find tree_depth nd j) as [e|]; [|congruence]. destruct G as [d' [G1 [_ G2]]]. assert (d' = d) by congruence. subst d'. exact G2.
Qed.
Lemma has_injective {V : Type} (h : memory V) (x : tree) (t : octree V) (fp : list nat) (i j : idx) (d : nat) :
  has dim h x t fp -> in_tree_range dim i -> in_tree_range dim j -> tree_get h x i = Ok (Some d) -> tree_get h x j = Ok (Some d) -> i = j.
Proof.
  intros [_ H] HI HJ. unfold tree_get. destruct (root_ x) as [n|], (root t) as [nd|]; try contradiction; [|discriminate].
  destruct H as [R [ND W]]. intros E1 E2.
  pose proof (get_injective dim _ _ h n nd fp i j d R ND W (in_range_computable _ _ HI) (in_range_computable _ _ HJ) E1 E2) as Q.
  rewrite (range_path dim i j HI HJ) in Q. destruct (idx_eqb_spec i j) as [E|E]; [exact E|discriminate].
Qed.
Lemma cells_injective (m : ndmap) (s : hmap P) (k q : nat) (i j : idx) (d : nat) :
  rel m s -> in_tree_range dim i -> in_tree_range dim j -> at_cell s k i d -> at_cell s q j d -> k = q /\ i = j.
Proof.
  intros [[fps [N F]] _] HI HJ [x [Hx Ex]] [y [Hy Ey]].
  pose proof (F k) as Fk. pose proof (F q) as Fq. rewrite Hx in Fk. rewrite Hy in Fq.
  destruct (nth_error (A:=octree P) (stores m) k) as [t|]; [|contradiction]. destruct (nth_error fps k) as [f|] eqn:Ef; [|contradiction].
  destruct (nth_error (A:=octree P) (stores m) q) as [u|]; [|contradiction]. destruct (nth_error fps q) as [g|] eqn:Eg; [|contradiction].
  pose proof (has_address _ _ _ _ _ _ Fk HI Ex) as If. pose proof (has_address _ _ _ _ _ _ Fq HJ Ey) as Ig.
  pose proof (proj1 (nodup_concat _) N) as [_ C2]. assert (k = q) by (eapply C2; eassumption). subst q. split; [reflexivity|].
  assert (y = x) by congruence. subst y. eapply has_injective; eassumption.
Qed.
Lemma bundles_injective (m : ndmap) (s : hmap P) (i j : idx) (b : nat) :
  rel m s -> in_tree_range dim i -> in_tree_range dim j ->
  tree_get (bmem s) (btree s) i = Ok (Some b) -> tree_get (bmem s) (btree s) j = Ok (Some b) -> i = j.
Proof. intros [_ [[tb [fp [H _]]] _]]. apply (has_injective _ _ _ _ _ _ _ H). Qed.
Lemma slot_cell (m : ndmap) (s : hmap P) (bi : idx) (b : nat) (bu : bundle) :
  rel m s -> length bi = dim -> tree_get (bmem s) (btree s) bi = Ok (Some b) -> octree_get (bundles m) bi = Ok (Some bu) ->
  forall k j, nth_error (slots bu) k = Some (Some j) -> exists d, slot_at (bmem s) b k = Ok (Some d) /\ at_cell s k j d.
Proof.
  intros HR HL Hb E k j Hk. destruct (bundle_at m s bi b HR HL Hb) as [hb [bu' [i0 [E1 [E2 B]]]]].
  assert (bu' = bu) by congruence. subst bu'. unfold slot_at. rewrite E1. cbn [obind snd].
  pose proof (proj2 B k) as Bk. rewrite Hk in Bk. destruct (nth_error (hslots hb) k) as [[d|]|]; cbn in Bk; try contradiction.
  exists d. split; [reflexivity|]. exact (proj2 Bk).
Qed.
End Map.

(** ** The map of a configuration *)
Definition idx_of {P : Type} (n : nat) (a : map_action (P:=P)) : Prop :=
  match a with Modify bi _ | Touch bi => length bi = n | ExpandAll => True end.

(** What both maps show. *)
Definition seen {P : Type} (c : config P) (m : cmap c) (s : hmap P) : Prop :=
  hmin s = min_bi m /\ hmax s = max_bi m /\
  bundle_indices (dimc c) s = (let* bs := cbundles c m in Ok (map fst bs)) /\
  (forall i j, length j = dimc c -> in_storage s i j = cstored c m i j) /\
  (forall bi, length bi = dimc c ->
     match cbundle c m bi with
     | Ok (Some bu) => exists b, bundle_pointer s bi = Ok (Some b) /\
         forall k, behind s b k = match nth_error (slots bu) k with Some q => slot_value (bdc c) (bbc c) m k q | None => UB end
     | Ok None => bundle_pointer s bi = Ok None
     | UB => bundle_pointer s bi = UB
     | Throw => bundle_pointer s bi = Throw
     end).
(** What the pointers are. *)
Definition pointing {P : Type} (c : config P) (m : cmap c) (s : hmap P) : Prop :=
  (forall bi b bu k j, length bi = dimc c -> bundle_pointer s bi = Ok (Some b) -> cbundle c m bi = Ok (Some bu) ->
     nth_error (slots bu) k = Some (Some j) -> exists d, slot_at (bmem s) b k = Ok (Some d) /\ at_cell s k j d) /\
  (forall k q i j d, in_tree_range (dimc c) i -> in_tree_range (dimc c) j -> at_cell s k i d -> at_cell s q j d -> k = q /\ i = j) /\
  (forall i j b, in_tree_range (dimc c) i -> in_tree_range (dimc c) j ->
     bundle_pointer s i = Ok (Some b) -> bundle_pointer s j = Ok (Some b) -> i = j).

Lemma run_seen {P : Type} (c : config P) (l : list (map_action (P:=P))) :
  kindc c = Dynamic -> Forall (fun o => length o = dimc c) (offsetsc c) -> Forall (idx_of (dimc c)) l ->
  match cact_all c l (new_map c) with
  | Ok m => exists s, hrun c l = Ok s /\ seen c m s /\ pointing c m s
  | UB => hrun c l = UB
  | Throw => hrun c l = Throw
  end.
Proof.
  destruct c as [dim k sz mn g amn amx offs df mg ex]. cbn [kindc dimc offsetsc]. intros -> Hoff Hl.
  set (c := {| dimc := dim |}) in *.
  assert (Hl' : forall a bi, In a l -> named bi a -> length bi = dim).
  { intros a bi Ha Hn. rewrite Forall_forall in Hl. specialize (Hl a Ha). destruct a; cbn in *; subst; auto; contradiction. }
  pose proof (hact_all_sim df mg dim amn amx ex offs Hoff l (dynamic_new mg dim g) (hnew dim g) (rel_new mg dim g) Hl') as H.
  change (act_all df (octree_backend mg dim) (octree_backend merge_bundle dim) dim Dynamic amn amx ex offs l (dynamic_new mg dim g))
    with (cact_all c l (new_map c)) in H.
  change (hact_all df mg dim amn amx ex offs l (hnew dim g)) with (hrun c l) in H.
  destruct (cact_all c l (new_map c)) as [m| |], (hrun c l) as [s| |]; cbn [osim] in H; try contradiction; try reflexivity.
  destruct H as [HR _]. exists s. split; [reflexivity|]. split.
  - split; [apply HR|]. split; [apply HR|]. split; [exact (indices_eq mg dim m s HR)|]. split.
    + intros i j HJ. exact (in_storage_eq mg dim m s i j HR HJ).
    + intros bi HL. unfold bundle_pointer.
      assert (BL : osim (srel (fun _ _ => True)) (cbundle c m bi) (tree_get (bmem s) (btree s) bi)) by exact (bundle_lookup mg dim m s bi HR HL).
      destruct (cbundle c m bi) as [[bu|]| |] eqn:E1, (tree_get (bmem s) (btree s) bi) as [[b|]| |] eqn:E2; cbn [osim srel] in BL; try contradiction; try reflexivity.
      * exists b. split; [reflexivity|]. destruct (behind_eq mg dim m s bi b HR HL E2) as [bu' [E3 E4]].
        pose proof (eq_trans (eq_sym E1) E3) as X. injection X as <-. exact E4.
  - split; [|split].
    + intros bi b bu k j HL Hb HB. exact (slot_cell mg dim m s bi b bu HR HL Hb HB k j).
    + intros k q i j d. exact (cells_injective mg dim m s k q i j d HR).
    + intros i j b. exact (bundles_injective mg dim m s i j b HR).
Qed.

Lemma run_ext {P : Type} (c : config P) (l1 l2 : list (map_action (P:=P))) (s1 s2 : hmap P) :
  kindc c = Dynamic -> Forall (fun o => length o = dimc c) (offsetsc c) -> Forall (idx_of (dimc c)) (l1 ++ l2) ->
  hrun c l1 = Ok s1 -> hrun c (l1 ++ l2) = Ok s2 -> ext s1 s2.
Proof.
  destruct c as [dim k sz mn g amn amx offs df mg ex]. cbn [kindc dimc offsetsc]. intros -> Hoff Hl.
  assert (Hl' : forall a bi, In a (l1 ++ l2) -> named bi a -> length bi = dim).
  { intros a bi Ha Hn. rewrite Forall_forall in Hl. specialize (Hl a Ha). destruct a; cbn in *; subst; auto; contradiction. }
  unfold hrun. cbn [defaultc mergec dimc aminc amaxc expandc offsetsc garbagec]. intros E1 E2.
  pose proof (hact_all_sim df mg dim amn amx ex offs Hoff l1 (dynamic_new mg dim g) (hnew dim g) (rel_new mg dim g)
    (fun a bi Ha => Hl' a bi (in_or_app _ _ _ (or_introl Ha)))) as H1.
  rewrite E1 in H1. destruct (act_all _ _ _ _ _ _ _ _ _ _ _) as [m1| |]; try contradiction. destruct H1 as [R1 _].
  pose proof (hact_all_sim df mg dim amn amx ex offs Hoff l2 m1 s1 R1 (fun a bi Ha => Hl' a bi (in_or_app _ _ _ (or_intror Ha)))) as H2.
  unfold hact_all in E1, E2, H2. rewrite ofold_app, E1 in E2. cbn [obind] in E2. rewrite E2 in H2.
  destruct (act_all _ _ _ _ _ _ _ _ _ _ _) as [m2| |]; try contradiction. apply H2.
Qed.

(** One map with raw pointers into its storages behaves like the map of MapModel.v, of both kinds; moves. *)
From Verif Require Import Base SeqModel SeqFacts IndexModel IndexFacts OctreeSpec OctreeModel OctreeFacts MapModel BackendModel SysModel SysSpec.
From Verif Require Import MapFacts MapHist BackendFacts SysFacts CopyModel CopySpec CopyFacts PtrMapFacts MoveModel MoveSpec.
Open Scope Z_scope.
Local Opaque tree_depth.

(** ** Bundles with pointers and bundles with indices *)
Definition pair_slots (ids : list nat) (sl : list (option idx)) : list (option (nat * idx)) :=
  map (fun p => option_map (pair (fst p)) (snd p)) (combine ids sl).
Lemma pair_slots_nth (ids : list nat) (sl : list (option idx)) (i : nat) :
  nth_error (pair_slots ids sl) i =
  match nth_error ids i, nth_error sl i with Some a, Some s => Some (option_map (pair a) s) | _, _ => None end.
Proof.
  unfold pair_slots. revert sl i. induction ids as [|a ids IH]; intros [|s sl] [|i]; cbn; try reflexivity.
  - destruct (nth_error ids i); reflexivity.
  - apply IH.
Qed.
Lemma pair_slots_upd (ids : list nat) (sl : list (option idx)) (i a : nat) (j : idx) :
  length sl = length ids -> nth_error ids i = Some a ->
  match upd (pair_slots ids sl) i (Some (a, j)), upd sl i (Some j) with
  | Some l, Some k => l = pair_slots ids k /\ length k = length ids
  | None, None => True
  | _, _ => False
  end.
Proof.
  revert sl i. induction ids as [|b ids IH]; intros [|s sl] [|i] HL Hi; cbn in *; try discriminate.
  - injection Hi as ->. split; [reflexivity|exact HL].
  - specialize (IH sl i ltac:(lia) Hi). fold (pair_slots ids sl).
    destruct (upd (pair_slots ids sl) i (Some (a, j))), (upd sl i (Some j)); cbn; try contradiction; [|exact I].
    destruct IH as [-> HL2]. split; [reflexivity|lia].
Qed.

Section Rel.
Variable ids : list nat.
Definition bund (b : pbundle) (u : bundle) : Prop :=
  length (slots u) = length ids /\ pslots b = pair_slots ids (slots u) /\ pexpand b = expand u.
Lemma bund_merge (a : pbundle) (b : bundle) (c : pbundle) (d : bundle) : bund a b -> bund c d -> bund (pmerge_bundle a c) (merge_bundle b d).
Proof. intros H _. exact H. Qed.
Lemma bund_new (dim : nat) : length ids = bin_count dim -> bund (pnew_bundle dim) (new_bundle dim).
Proof.
  intros HL. split; [cbn; rewrite repeat_length; congruence|]. split; [|reflexivity]. cbn [pslots pnew_bundle slots new_bundle].
  rewrite <- HL. clear. induction ids as [|a l IH]; [reflexivity|]. cbn. f_equal. exact IH.
Qed.
Lemma bund_slot (i a : nat) (j : idx) (b : pbundle) (u : bundle) :
  nth_error ids i = Some a -> bund b u -> bund (pset_slot i (a, j) b) (set_slot i j u).
Proof.
  intros Hi [HL [HS HE]]. pose proof (pair_slots_upd ids (slots u) i a j HL Hi) as U.
  unfold bund. cbn [pset_slot set_slot slots pslots pexpand expand]. rewrite HS.
  destruct (upd (pair_slots ids (slots u)) i (Some (a, j))), (upd (slots u) i (Some j)); try contradiction; [destruct U as [-> U]|]; auto.
Qed.
Lemma bund_expanded (b : pbundle) (u : bundle) : bund b u -> bund (pset_expanded b) (set_expanded u).
Proof. intros [HL [HS HE]]. split; [exact HL|]. split; [exact HS|reflexivity]. Qed.

(** Storages of bundles. *)
Definition arel (s : arr pbundle) (u : arr bundle) : Prop :=
  a_size s = a_size u /\ a_offset s = a_offset u /\ Forall2 (erel bund) (a_cells s) (a_cells u).
Lemma assoc_rel (l : list (idx * pbundle)) (k : list (idx * bundle)) (i : idx) :
  Forall2 (erel bund) l k -> srel bund (assoc l i) (assoc k i).
Proof.
  intros F. induction F as [|[x b] [y u] l k [Hx Hb] F IH]; [exact I|]. cbn in Hx, Hb |- *. subst y.
  destruct (idx_eqb x i); [exact Hb|exact IH].
Qed.
Lemma assoc_set_rel (l : list (idx * pbundle)) (k : list (idx * bundle)) (i : idx) (b : pbundle) (u : bundle) :
  Forall2 (erel bund) l k -> bund b u -> Forall2 (erel bund) (assoc_set l i b) (assoc_set k i u).
Proof.
  intros F Hbu. induction F as [|[x b'] [y u'] l k [Hx Hb] F IH]; cbn.
  - constructor; [split; [reflexivity|exact Hbu]|constructor].
  - cbn in Hx, Hb. subst y. destruct (idx_eqb x i); constructor; try assumption; split; cbn; auto.
Qed.
Variable dim : nat.
Variable kd : kind.
Definition brl : st (pbundle_backend dim kd) -> st (bundle_backend dim kd) -> Prop :=
  match kd as k return st (pbundle_backend dim k) -> st (bundle_backend dim k) -> Prop with
  | Dynamic => trel bund
  | Static => arel
  end.
Lemma brl_get s u (i : idx) : brl s u -> osim (srel bund) (bget (pbundle_backend dim kd) s i) (bget (bundle_backend dim kd) u i).
Proof.
  revert s u. unfold brl. destruct kd; cbn; intros s u H.
  - destruct H as [E1 [E2 F]]. rewrite E1, E2. destruct arr_inside; [|exact I]. apply assoc_rel. exact F.
  - apply tree_get_rel. exact H.
Qed.
Lemma brl_ins s u (i : idx) (b : pbundle) (x : bundle) : brl s u -> bund b x ->
  osim brl (bins (pbundle_backend dim kd) s i b) (bins (bundle_backend dim kd) u i x).
Proof.
  revert s u. unfold brl. destruct kd; cbn; intros s u H Hb.
  - destruct H as [E1 [E2 F]]. rewrite E1, E2. destruct arr_inside; [|exact I].
    split; [exact E1|]. split; [exact E2|]. cbn. apply assoc_set_rel; [exact F|].
    pose proof (assoc_rel _ _ i F) as A. destruct (assoc (a_cells s) i), (assoc (a_cells u) i); cbn in A; try contradiction; assumption.
  - apply (tree_insert_rel bund pmerge_bundle merge_bundle bund_merge dim s u i b x H Hb).
Qed.
Lemma brl_mod s u (i : idx) (f : pbundle -> pbundle) (g : bundle -> bundle) :
  (forall a b, bund a b -> bund (f a) (g b)) -> brl s u ->
  osim brl (bmod (pbundle_backend dim kd) s i f) (bmod (bundle_backend dim kd) u i g).
Proof.
  intros Hf. revert s u. unfold brl. destruct kd; cbn; intros s u H.
  - destruct H as [E1 [E2 F]]. rewrite E1, E2. destruct arr_inside; [|exact I].
    pose proof (assoc_rel _ _ i F) as A. destruct (assoc (a_cells s) i), (assoc (a_cells u) i); cbn in A; try contradiction; [|exact I].
    split; [exact E1|]. split; [exact E2|]. cbn. apply assoc_set_rel; [exact F|apply Hf; exact A].
  - apply (tree_modify_rel bund s u i f g Hf H).
Qed.
Lemma brl_trav s u : brl s u -> osim (Forall2 (erel bund)) (btrav (pbundle_backend dim kd) s) (btrav (bundle_backend dim kd) u).
Proof.
  revert s u. unfold brl. destruct kd; cbn; intros s u H.
  - apply H.
  - apply (tree_traverse_rel bund s u H).
Qed.
End Rel.

(** ** Simulation *)
Section Sim.
Context {P : Type}.
Variable default : P.
Variable bd : backend P.
Variable dim : nat.
Variable kd : kind.
Variable amin amax : idx -> idx -> idx.
Variable expandDistribution : P -> bool.
Variable offsets : list idx.
Notation pb := (pbundle_backend dim kd).
Notation bb := (bundle_backend dim kd).
Notation world := (CopyModel.world bd pb).
Notation nmap := (@ndmap P bd bb).
Variable ids : list nat.
Variable bid : nat.
Hypothesis ids_nodup : NoDup ids.
Hypothesis ids_len : length ids = bin_count dim.

Record holds (w : world) (m : nmap) : Prop := {
  h_d : Forall2 (fun a s => rd_d bd pb w a = Ok s) ids (stores m);
  h_b : exists bs, rd_b bd pb w bid = Ok bs /\ brl ids dim kd bs (bundles m)
}.
Record obj_ok (o : mapobj) (m : nmap) : Prop := {
  o_ids : m_stores o = ids; o_bid : m_bundles o = bid; o_min : m_min o = min_bi m; o_max : m_max o = max_bi m
}.
Definition prel (wo : world * mapobj) (m : nmap) : Prop := holds (fst wo) m /\ obj_ok (snd wo) m.

Lemma wr_b_holds (w : world) (m : nmap) (bs' : st pb) (u' : st bb) :
  holds w m -> brl ids dim kd bs' u' -> exists w', wr_b bd pb w bid bs' = Ok w' /\ holds w' (set_bundles bd bb m u').
Proof.
  intros [HD [bs [HB _]]] HR. unfold rd_b in HB. destruct (nth_error (bstores w) bid) as [[x|]|] eqn:E; try discriminate.
  assert (L : (bid < length (bstores w))%nat) by (apply nth_error_Some; congruence).
  destruct (upd_some (bstores w) bid (Some bs') L) as [l Hl]. unfold wr_b. rewrite Hl. eexists. split; [reflexivity|].
  constructor; cbn [stores bundles set_bundles].
  - exact HD.
  - exists bs'. split; [|exact HR]. unfold rd_b. cbn [bstores]. rewrite (upd_nth_error _ _ _ bid _ Hl), Nat.eqb_refl. reflexivity.
Qed.

Lemma rd_ids (w : world) (m : nmap) (i a : nat) : holds w m -> nth_error ids i = Some a ->
  exists s, nth_error (stores m) i = Some s /\ rd_d bd pb w a = Ok s.
Proof.
  intros [HD _] Hi. pose proof (forall2_nth _ _ _ i HD) as N. rewrite Hi in N.
  destruct (nth_error (stores m) i) as [s|]; cbn in N; [|contradiction]. exists s. auto.
Qed.

Lemma forall2_write (w w' : world) (l : list nat) (ss ss' : list (st bd)) (i a : nat) (s' : st bd) :
  NoDup l -> Forall2 (fun a s => rd_d bd pb w a = Ok s) l ss -> nth_error l i = Some a -> upd ss i s' = Some ss' ->
  rd_d bd pb w' a = Ok s' -> (forall b, b <> a -> rd_d bd pb w' b = rd_d bd pb w b) ->
  Forall2 (fun a s => rd_d bd pb w' a = Ok s) l ss'.
Proof.
  intros HN F Hi Hu Ha Ho. revert i ss' Hi Hu. induction F as [|b s l ss Hb F IH]; intros [|i] ss' Hi Hu; cbn in Hi, Hu; try discriminate.
  - injection Hi as ->. injection Hu as <-. inversion HN as [|? ? Hn HN']; subst. constructor; [exact Ha|].
    clear IH HN HN'. induction F as [|b2 s2 l ss Hb2 F IH]; constructor.
    + rewrite Ho; [exact Hb2|]. intros ->. apply Hn. left; reflexivity.
    + apply IH. intros H. apply Hn. right; exact H.
  - destruct (upd ss i s') as [k|] eqn:E; [|discriminate]. injection Hu as <-. inversion HN as [|? ? Hn HN']; subst. constructor.
    + rewrite Ho; [exact Hb|]. intros ->. apply Hn. eapply nth_error_In. exact Hi.
    + apply (IH HN' i k Hi E).
Qed.
Lemma wr_d_holds (w : world) (m : nmap) (i a : nat) (s' : st bd) :
  holds w m -> nth_error ids i = Some a ->
  exists w' m', wr_d bd pb w a s' = Ok w' /\ set_store bd bb m i s' = Ok m' /\ holds w' m' /\
    bundles m' = bundles m /\ min_bi m' = min_bi m /\ max_bi m' = max_bi m /\ bstores w' = bstores w.
Proof.
  intros H Hi. destruct (rd_ids w m i a H Hi) as [s [Es Er]]. destruct H as [HD [bs [HB HR]]].
  unfold rd_d in Er. destruct (nth_error (dstores w) a) as [[x|]|] eqn:E; try discriminate.
  assert (L : (a < length (dstores w))%nat) by (apply nth_error_Some; congruence).
  assert (L2 : (i < length (stores m))%nat) by (apply nth_error_Some; congruence).
  destruct (upd_some (dstores w) a (Some s') L) as [l Hl]. destruct (upd_some (stores m) i s' L2) as [k Hk].
  unfold wr_d, set_store. rewrite Hl, Hk. eexists. eexists. split; [reflexivity|]. split; [reflexivity|].
  split; [|repeat split]. constructor; cbn [stores bundles].
  - apply (forall2_write w _ ids (stores m) k i a s' ids_nodup HD Hi Hk).
    + unfold rd_d. cbn [dstores]. rewrite (upd_nth_error _ _ _ a _ Hl), Nat.eqb_refl. reflexivity.
    + intros b Hb. unfold rd_d. cbn [dstores]. rewrite (upd_nth_error _ _ _ b _ Hl).
      destruct (Nat.eqb_spec a b) as [->|_]; [contradiction|reflexivity].
  - exists bs. split; [exact HB|exact HR].
Qed.

Lemma alloc_slot_sim (o : mapobj) (bi : idx) (w : world) (m : nmap) (ij : nat * idx) :
  m_stores o = ids -> m_bundles o = bid -> holds w m ->
  osim (fun w' m' => holds w' m' /\ min_bi m' = min_bi m /\ max_bi m' = max_bi m)
    (palloc_slot default bd pb o bi w ij) (alloc_slot default bd bb bi m ij).
Proof.
  intros Hi Hb H. destruct ij as [i j]. unfold palloc_slot, alloc_slot. rewrite Hi, Hb.
  destruct (h_b _ _ H) as [bs [HB HR]]. rewrite HB. cbn [obind].
  eapply osim_bind; [apply (brl_get ids dim kd _ _ bi HR)|]. intros [b|] [u|] Hbu; cbn [srel] in Hbu; try contradiction; [|exact I].
  destruct Hbu as [HL [HS HE]]. rewrite HS, pair_slots_nth.
  destruct (nth_error ids i) as [a|] eqn:Ea.
  2:{ destruct (nth_error (slots u) i) eqn:Eu; [|exact I]. apply nth_error_None in Ea.
      assert (i < length (slots u))%nat by (apply nth_error_Some; congruence). lia. }
  destruct (nth_error (slots u) i) as [[x|]|] eqn:Eu; cbn [option_map]; [cbn; auto| |exact I].
  destruct (rd_ids w m i a H Ea) as [s [Es Er]]. unfold get_store. rewrite Es, Er. cbn [obind].
  fold (alloc_dist default bd s j). destruct (alloc_dist default bd s j) as [s'| |]; cbn [obind]; [|exact I|exact I].
  destruct (wr_d_holds w m i a s' H Ea) as [w' [m' [Ew [Em [H' [Eb [E1 [E2 E3]]]]]]]]. rewrite Ew, Em. cbn [obind]. rewrite Eb.
  eapply osim_bind; [apply (brl_mod ids dim kd _ _ bi _ _ (fun b u => bund_slot ids i a j b u Ea) HR)|].
  intros bs1 u1 HR1. destruct (wr_b_holds w' m' bs1 u1 H' HR1) as [w2 [E4 H2]]. rewrite E4. cbn. auto.
Qed.

Lemma update_sim (k : kind) (w : world) (o : mapobj) (m : nmap) (bi : idx) : holds w m -> obj_ok o m ->
  prel (w, pupdateIndices k amin amax o bi) (updateIndices bd bb k amin amax m bi).
Proof.
  intros [X Y] [A B C D]. unfold pupdateIndices, updateIndices. destruct k.
  - split; [constructor; assumption|constructor; assumption].
  - split; constructor; cbn; try assumption; congruence.
Qed.

Lemma getAllocate_sim (wo : world * mapobj) (m : nmap) (bi : idx) : prel wo m ->
  osim prel (pgetAllocate default bd pb dim kd amin amax wo bi) (getAllocate default bd bb dim kd amin amax m bi).
Proof.
  destruct wo as [w o]. intros [H [Hi Hb H1 H2]]. cbn [fst snd] in *. unfold pgetAllocate, getAllocate. rewrite Hb.
  destruct (h_b _ _ H) as [bs [HB HR]]. rewrite HB. cbn [obind].
  eapply osim_bind; [apply (brl_get ids dim kd _ _ bi HR)|]. intros [b|] [u|] Hbu; cbn [srel] in Hbu; try contradiction.
  - split; [exact H|constructor; assumption].
  - eapply osim_bind; [apply (brl_ins ids dim kd _ _ bi _ _ HR (bund_new ids dim ids_len))|].
    intros bs1 u1 HR1. destruct (wr_b_holds w m bs1 u1 H HR1) as [w2 [E4 H4]]. rewrite E4. cbn [obind].
    eapply (osim_bind (fun w' m' => holds w' m' /\ min_bi m' = min_bi m /\ max_bi m' = max_bi m)).
    + apply (osim_fold _ (fun x y => x = y)).
      * intros w' m' x y [Hh [E1 E2]] <-. eapply osim_weaken; [apply (alloc_slot_sim o bi w' m' x Hi Hb Hh)|].
        intros w'' m'' [Hh' [E1' E2']]. rewrite E1', E2'. auto.
      * induction (apply_indices (bin_count dim) bi); constructor; auto.
      * auto.
    + intros w' m' [Hh [E1 E2]]. cbn [osim]. apply update_sim; [exact Hh|]. constructor; try assumption; congruence.
Qed.

Lemma modify_slot_sim (o : mapobj) (bi : idx) (f : P -> P) (w : world) (m : nmap) (i : nat) :
  m_stores o = ids -> m_bundles o = bid -> holds w m ->
  osim (fun w' m' => holds w' m' /\ min_bi m' = min_bi m /\ max_bi m' = max_bi m)
    (pmodify_slot bd pb o bi f w i) (modify_slot bd bb bi f m i).
Proof.
  intros Hi Hb H. unfold pmodify_slot, modify_slot. rewrite Hb.
  destruct (h_b _ _ H) as [bs [HB HR]]. rewrite HB. cbn [obind].
  eapply osim_bind; [apply (brl_get ids dim kd _ _ bi HR)|]. intros [b|] [u|] Hbu; cbn [srel] in Hbu; try contradiction; [|exact I].
  destruct Hbu as [HL [HS HE]]. rewrite HS, pair_slots_nth.
  destruct (nth_error ids i) as [a|] eqn:Ea.
  2:{ destruct (nth_error (slots u) i) eqn:Eu; [|exact I]. apply nth_error_None in Ea.
      assert (i < length (slots u))%nat by (apply nth_error_Some; congruence). lia. }
  destruct (nth_error (slots u) i) as [[x|]|] eqn:Eu; cbn [option_map]; [|exact I|exact I].
  destruct (rd_ids w m i a H Ea) as [s [Es Er]]. unfold get_store. rewrite Es, Er. cbn [obind].
  destruct (bmod bd s x f) as [s'| |]; cbn [obind]; [|exact I|exact I].
  destruct (wr_d_holds w m i a s' H Ea) as [w' [m' [Ew [Em [H' [Eb [E1 [E2 E3]]]]]]]]. rewrite Ew, Em. cbn. auto.
Qed.
Lemma modify_bundle_sim (wo : world * mapobj) (m : nmap) (bi : idx) (f : P -> P) : prel wo m ->
  osim prel (pmodify_bundle default bd pb dim kd amin amax wo bi f) (modify_bundle default bd bb dim kd amin amax m bi f).
Proof.
  intros H. unfold pmodify_bundle, modify_bundle.
  eapply osim_bind; [apply (getAllocate_sim wo m bi H)|]. intros [w o] m1 [H1 [Hi Hb E1 E2]]. cbn [fst snd] in *.
  assert (S : osim (fun w' m' => holds w' m' /\ min_bi m' = min_bi m1 /\ max_bi m' = max_bi m1)
    (ofold (pmodify_slot bd pb o bi f) (seq 0 (bin_count dim)) w) (ofold (modify_slot bd bb bi f) (seq 0 (bin_count dim)) m1)).
  { apply (osim_fold _ (fun x y => x = y)).
    - intros w' m' x y [Hh [F1 F2]] <-. eapply osim_weaken; [apply (modify_slot_sim o bi f w' m' x Hi Hb Hh)|].
      intros w'' m'' [Hh' [G1 G2]]. rewrite G1, G2. auto.
    - induction (seq 0 (bin_count dim)); constructor; auto.
    - auto. }
  destruct (ofold (pmodify_slot bd pb o bi f) (seq 0 (bin_count dim)) w), (ofold (modify_slot bd bb bi f) (seq 0 (bin_count dim)) m1);
    cbn in S |- *; try contradiction; try exact I.
  destruct S as [S1 [S2 S3]]. split; [exact S1|]. constructor; cbn [snd]; congruence.
Qed.

Lemma expandBundle_sim (w : world) (m : nmap) (k : nat) (l : list nat) (sl : list (option idx)) : holds w m ->
  (forall i, nth_error l i = nth_error ids (k + i)) -> length sl = length l ->
  pexpandBundle bd pb expandDistribution w (pair_slots l sl) = expandBundle_from bd bb expandDistribution m k sl.
Proof.
  intros H. revert k sl. induction l as [|a l IH]; intros k [|s sl] HN HL; cbn in HL; try discriminate; [reflexivity|].
  assert (Ea : nth_error ids k = Some a) by (specialize (HN 0%nat); rewrite Nat.add_0_r in HN; symmetry; exact HN).
  assert (HI : pexpandBundle bd pb expandDistribution w (pair_slots l sl) = expandBundle_from bd bb expandDistribution m (S k) sl).
  { apply IH; [|lia]. intros i. specialize (HN (S i)). cbn in HN. rewrite HN. f_equal. lia. }
  cbn [pair_slots combine map fst snd expandBundle_from]. fold (pair_slots l sl). destruct s as [j|]; cbn [option_map pexpandBundle slot_value obind]; [|exact HI].
  destruct (rd_ids w m k a H Ea) as [s [Es Er]]. unfold pread, get_store. cbn [fst snd]. rewrite Es, Er. cbn [obind].
  destruct (bget bd s j) as [[v|]| |]; cbn [obind]; try reflexivity. destruct (expandDistribution v); [reflexivity|exact HI].
Qed.

Lemma valid_sim (k : kind) (o : mapobj) (m : nmap) (i : idx) : obj_ok o m -> pvalid dim k o i = valid bd bb dim k m i.
Proof. intros [_ _ E1 E2]. unfold pvalid, valid. rewrite E1, E2. reflexivity. Qed.

Lemma expand_one_sim (wo : world * mapobj) (m : nmap) (bi : idx) : prel wo m ->
  osim prel (pexpand_one default bd pb dim kd amin amax expandDistribution offsets wo bi)
    (allocatePartiallyAllocatedBundle default bd bb dim kd amin amax expandDistribution offsets m bi).
Proof.
  destruct wo as [w o]. intros [H HO]. destruct HO as [Hi Hb H1 H2] eqn:EO. clear EO. cbn [fst snd] in *.
  unfold pexpand_one, allocatePartiallyAllocatedBundle. cbn [fst snd]. rewrite Hb.
  destruct (h_b _ _ H) as [bs [HB HR]]. rewrite HB. cbn [obind].
  eapply osim_bind; [apply (brl_get ids dim kd _ _ bi HR)|]. intros [b|] [u|] Hbu; cbn [srel] in Hbu; try contradiction; [|exact I].
  destruct Hbu as [HL [HS HE]]. rewrite HE, HS. destruct (expand u); [|split; assumption].
  unfold expandBundle. rewrite (expandBundle_sim w m 0 ids (slots u) H (fun i => eq_refl) HL).
  destruct (expandBundle_from bd bb expandDistribution m 0 (slots u)) as [[|]| |]; cbn [obind]; [|split; assumption|exact I|exact I].
  eapply (osim_bind prel).
  - apply (osim_fold _ (fun x y => x = y)); [| |split; assumption].
    + intros wo' m' x y H' <-. unfold palloc_neighbour, alloc_neighbour. rewrite (valid_sim kd (snd wo') m' _ (proj2 H')).
      destruct (valid bd bb dim kd m' (idx_add bi x)); [apply getAllocate_sim; exact H'|exact H'].
    + induction offsets; constructor; auto.
  - intros [w1 o1] m1 [H1' [Hi1 Hb1 F1 F2]]. cbn [fst snd] in *. rewrite Hb1. destruct (h_b _ _ H1') as [bs1 [HB1 HR1]]. rewrite HB1. cbn [obind].
    eapply osim_bind; [apply (brl_mod ids dim kd _ _ bi _ _ (bund_expanded ids) HR1)|].
    intros bs2 u2 HR2. destruct (wr_b_holds w1 m1 bs2 u2 H1' HR2) as [w2 [E4 H4]]. rewrite E4. cbn.
    split; [exact H4|]. constructor; cbn; assumption.
Qed.

Lemma expand_all_sim (wo : world * mapobj) (m : nmap) : prel wo m ->
  osim prel (pexpand_all default bd pb dim kd amin amax expandDistribution offsets wo)
    (allocatePartiallyAllocatedBundles default bd bb dim kd amin amax expandDistribution offsets m).
Proof.
  intros H. pose proof H as [H0 HO]. unfold pexpand_all, allocatePartiallyAllocatedBundles. rewrite (o_bid _ _ HO).
  destruct (h_b _ _ H0) as [bs [HB HR]]. rewrite HB. cbn [obind].
  eapply osim_bind; [apply (brl_trav ids dim kd _ _ HR)|]. intros l k F.
  assert (E : map fst l = map fst k) by (induction F as [|x y l k [A _] F IH]; [reflexivity|]; cbn; congruence).
  rewrite E. apply (osim_fold _ (fun x y => x = y)); [| |exact H].
  - intros wo' m' x y H' <-. apply expand_one_sim. exact H'.
  - clear E. induction (map fst k); constructor; auto.
Qed.

Lemma act_sim (wo : world * mapobj) (m : nmap) (a : map_action (P:=P)) : prel wo m ->
  osim prel (pact default bd pb dim kd amin amax expandDistribution offsets wo a)
    (act default bd bb dim kd amin amax expandDistribution offsets m a).
Proof.
  intros H. destruct a as [bi f|bi|]; cbn [pact act].
  - apply modify_bundle_sim. exact H.
  - unfold getDistributionBundle. rewrite (valid_sim kd (snd wo) m bi (proj2 H)). destruct (valid bd bb dim kd m bi); cbn [obind fst].
    + pose proof (getAllocate_sim wo m bi H) as S.
      destruct (pgetAllocate default bd pb dim kd amin amax wo bi), (getAllocate default bd bb dim kd amin amax m bi); cbn in S |- *; auto.
    + exact H.
  - apply expand_all_sim. exact H.
Qed.

(** What the map shows. *)
Lemma stored_sim (wo : world * mapobj) (m : nmap) (i : nat) (j : idx) : prel wo m ->
  pstored bd pb (fst wo) (snd wo) i j = stored bd bb m i j.
Proof.
  intros [H HO]. unfold pstored, stored, get_store. rewrite (o_ids _ _ HO). pose proof (forall2_nth _ _ _ i (h_d _ _ H)) as N.
  destruct (nth_error ids i) as [a|], (nth_error (stores m) i) as [s|]; cbn [srel] in N; try contradiction; [|reflexivity].
  rewrite N. reflexivity.
Qed.
Definition read_slots (m : nmap) : nat -> list (option idx) -> outcome (list P) :=
  fix go (k : nat) (sl : list (option idx)) : outcome (list P) :=
    match sl with
    | [] => Ok []
    | s :: sl' =>
        let* v := slot_value bd bb m k s in
        match v with None => UB | Some d => let* vs := go (S k) sl' in Ok (d :: vs) end
    end.
Lemma read_sim (w : world) (m : nmap) (k : nat) (l : list nat) (sl : list (option idx)) : holds w m ->
  (forall i, nth_error l i = nth_error ids (k + i)) -> length sl = length l ->
  pread_all bd pb w (pair_slots l sl) = read_slots m k sl.
Proof.
  intros H. revert k sl. induction l as [|a l IH]; intros k [|s sl] HN HL; cbn in HL; try discriminate; [reflexivity|].
  assert (Ea : nth_error ids k = Some a) by (specialize (HN 0%nat); rewrite Nat.add_0_r in HN; symmetry; exact HN).
  assert (HI : pread_all bd pb w (pair_slots l sl) = read_slots m (S k) sl).
  { apply IH; [|lia]. intros i. specialize (HN (S i)). cbn in HN. rewrite HN. f_equal. lia. }
  cbn [pair_slots combine map fst snd read_slots]. fold (pair_slots l sl). destruct s as [j|]; cbn [option_map pread_all slot_value obind]; [|reflexivity].
  destruct (rd_ids w m k a H Ea) as [s [Es Er]]. unfold pread, get_store. cbn [fst snd]. rewrite Es, Er. cbn [obind].
  destruct (bget bd s j) as [[v|]| |]; cbn [obind]; try reflexivity. rewrite HI. reflexivity.
Qed.
Definition mshown (m : nmap) (bi : idx) : outcome (option (list P)) :=
  let* ob := bget bb (bundles m) bi in
  match ob with None => Ok None | Some b => let* vs := read_slots m 0 (slots b) in Ok (Some vs) end.
Lemma shown_sim (wo : world * mapobj) (m : nmap) (bi : idx) : prel wo m ->
  pshown bd pb (fst wo) (snd wo) bi = mshown m bi.
Proof.
  intros [H HO]. unfold pshown, mshown. rewrite (o_bid _ _ HO). destruct (h_b _ _ H) as [bs [HB HR]]. rewrite HB. cbn [obind].
  pose proof (brl_get ids dim kd _ _ bi HR) as G.
  destruct (bget pb bs bi) as [[b|]| |], (bget bb (bundles m) bi) as [[u|]| |]; cbn in G |- *; try contradiction; try reflexivity.
  destruct G as [HL [HS _]]. rewrite HS, (read_sim _ m 0 ids (slots u) H (fun i => eq_refl) HL). reflexivity.
Qed.
End Sim.

From Coq Require Import Sorted Permutation.
From Verif Require Import Base IndexModel OctreeSpec OctreeModel OctreeFacts OctreeHist OctreeSize MapModel MapFacts
  MapHist BackendModel BackendFacts SysModel SysSpec SysFacts MapPropFacts MapLifeFacts BytesSpec BytesModel BytesFacts.
Open Scope Z_scope.

(** ** Histories of a single octree *)
Section Hist.
Context {V : Type}.
Variable merge : V -> V -> V.
Variable dims : nat.

Lemma hist_tree (g : Z) (ops : list (map_op V)) (m : abs_map V) :
  Forall (fun o => in_tree_range dims (op_index o)) ops -> abs_run merge ops = Ok m ->
  exists t es, octree_run merge dims ops (octree_new g) = Ok t /\ octree_traverse t = Ok es /\
    otree_wf dims (in_tree_range dims) t /\ NoDup (map fst es) /\
    (forall i v, In (i, v) es <-> in_tree_range dims i /\ m i = Some v).
Proof.
  intros H Hm. destruct (octree_traverse_hist merge dims g ops m H Hm) as [t [es [E [Et [Hin Hs]]]]].
  exists t, es. split; [exact E|]. split; [exact Et|]. split.
  - pose proof (rep_run merge dims (in_tree_range dims) ops (octree_new g) abs_empty (rep_new _ _ g)) as R.
    rewrite (wrap_ops_id dims ops H) in R. unfold abs_run in Hm. rewrite Hm in R.
    destruct R as [t' [E' [W _]]].
    { eapply Forall_impl; [|exact H]. cbn. intros o Ho. split; [apply in_range_computable; exact Ho|exact Ho]. }
    rewrite E in E'. injection E' as <-. exact W.
  - split; [apply sorted_morton_nodup; exact Hs|exact Hin].
Qed.

Lemma blocks_from_set (a : nat) (k1 k2 : list idx) :
  (forall i, In i k1 <-> In i k2) -> blocks_from a k1 = blocks_from a k2.
Proof.
  intros H. apply Z.le_antisymm; apply blocks_from_mono; intros i Hi; apply H; exact Hi.
Qed.

Lemma tree_cost_perm (tree node ptr index : Z) (d : nat) (f : V -> Z) (e1 e2 : list (idx * V)) :
  Permutation e1 e2 -> tree_cost tree node ptr index d f e1 = tree_cost tree node ptr index d f e2.
Proof.
  intros H. unfold tree_cost.
  assert (K : forall i, In i (map fst e1) <-> In i (map fst e2)).
  { intros i. split; apply Permutation_in; [apply Permutation_map; exact H|apply Permutation_map, Permutation_sym; exact H]. }
  rewrite !(blocks_from_set _ _ _ K). f_equal. clear K.
  induction H; cbn [map fold_right]; try lia.
Qed.

Lemma pairs_perm (m : idx -> Prop) (get : idx -> option V) (e1 e2 : list (idx * V)) :
  NoDup (map fst e1) -> NoDup (map fst e2) ->
  (forall i v, In (i, v) e1 <-> m i /\ get i = Some v) -> (forall i v, In (i, v) e2 <-> m i /\ get i = Some v) ->
  Permutation e1 e2.
Proof.
  intros N1 N2 H1 H2. apply NoDup_Permutation.
  - apply NoDup_map_inv in N1. exact N1.
  - apply NoDup_map_inv in N2. exact N2.
  - intros [i v]. rewrite H1, H2. reflexivity.
Qed.
End Hist.

(** ** Maps *)
Section Map.
Context {P : Type}.
Variable c : config P.
Variable sz : sizes.
Variable vbytes : P -> Z.
Variable bbytes : bundle -> Z.
Variable adist : arr P -> Z.
Variable abund : arr bundle -> Z.
Notation cost f es := (tree_cost (sz_tree sz) (sz_node sz) (sz_ptr sz) (sz_index sz) (dimc c) f es).

Lemma storage_cost {V : Type} (merge : V -> V -> V) (f : V -> Z) (a : arr V -> Z) (k : kind)
  (s : st (match k with Dynamic => octree_backend merge (dimc c) | Static => array_backend merge end))
  (es : list (idx * V)) :
  k = Dynamic ->
  match k as k return st (match k with Dynamic => octree_backend merge (dimc c) | Static => array_backend merge end) -> Prop with
  | Dynamic => oct_wf (dimc c)
  | Static => fun _ => True
  end s ->
  btrav (match k with Dynamic => octree_backend merge (dimc c) | Static => array_backend merge end) s = Ok es ->
  storage_bytes merge sz (dimc c) f a k s = Ok (cost f es).
Proof.
  intros ->. cbn [storage_bytes octree_backend btrav]. intros W E. apply octree_bytes_spec; [exact W|exact E].
Qed.

Lemma dist_wf (k : kind) (s : st (dist_backend (mergec c) (dimc c) k)) :
  bwf (dist_laws (mergec c) (dimc c) k) s ->
  match k as k return st (match k with Dynamic => octree_backend (mergec c) (dimc c) | Static => array_backend (mergec c) end) -> Prop with
  | Dynamic => oct_wf (dimc c)
  | Static => fun _ => True
  end s.
Proof. destruct k; intros H; [exact I|exact H]. Qed.

Lemma bundle_wf (k : kind) (s : st (bundle_backend (dimc c) k)) :
  bwf (bundle_laws (dimc c) k) s ->
  match k as k return st (match k with Dynamic => octree_backend merge_bundle (dimc c) | Static => array_backend merge_bundle end) -> Prop with
  | Dynamic => oct_wf (dimc c)
  | Static => fun _ => True
  end s.
Proof. destruct k; intros H; [exact I|exact H]. Qed.

Lemma map_bytes (m : cmap c) : kindc c = Dynamic -> cInv c m ->
  exists bs ds, cbundles c m = Ok bs /\ length ds = bin_count (dimc c) /\
    (forall i, (i < bin_count (dimc c))%nat -> cdists c m i = Ok (nth i ds [])) /\
    getByteSize c sz vbytes bbytes adist abund m =
      Ok (sz_map sz + (cost bbytes bs + fold_right Z.add 0 (map (fun es => cost vbytes es) ds))).
Proof.
  intros HD HI. destruct (cbundles_spec c m HI) as [bs [Eb _]]. exists bs.
  destruct HI as [[[[HL [HF HB]] _] _] _].
  assert (G : forall l a0, Forall (bwf (dist_laws (mergec c) (dimc c) (kindc c))) l ->
    exists ds, length ds = length l /\
      (forall i s, nth_error l i = Some s -> btrav (bdc c) s = Ok (nth i ds [])) /\
      ofold (fun size s => let* b := storage_bytes (mergec c) sz (dimc c) vbytes adist (kindc c) s in Ok (size + b)) l a0
        = Ok (a0 + fold_right Z.add 0 (map (fun es => cost vbytes es) ds))).
  { induction l as [|s l IH]; intros a0 H.
    - exists []. split; [reflexivity|]. split; [intros [|i] s E; discriminate E|]. cbn. f_equal. lia.
    - inversion H as [|? ? Hs Hl]; subst.
      destruct (l_trav (dist_laws (mergec c) (dimc c) (kindc c)) s Hs) as [es [Et _]].
      pose proof (storage_cost (mergec c) vbytes adist (kindc c) s es HD (dist_wf _ _ Hs) Et) as Ec.
      destruct (IH (a0 + cost vbytes es) Hl) as [ds [Ld [Dd Ed]]].
      exists (es :: ds). split; [cbn; lia|]. split.
      + intros [|i] s' E; cbn [nth_error nth] in *; [injection E as <-; exact Et|apply Dd; exact E].
      + cbn [ofold]. rewrite Ec. cbn [obind]. rewrite Ed. cbn [map fold_right]. f_equal. lia. }
  destruct (G (stores m) (cost bbytes bs) HF) as [ds [Ld [Dd Ed]]].
  exists ds. split; [exact Eb|]. split; [rewrite Ld; exact HL|]. split.
  - intros i Hi. unfold cdists, get_store. destruct (nth_error (stores m) i) as [s|] eqn:Es.
    + cbn [obind]. apply Dd. exact Es.
    + apply nth_error_None in Es. lia.
  - unfold getByteSize.
    rewrite (storage_cost merge_bundle bbytes abund (kindc c) (bundles m) bs HD (bundle_wf _ _ HB) Eb).
    cbn [obind]. rewrite Ed. reflexivity.
Qed.
End Map.

Lemma perm_keys_length (k1 k2 : list idx) : NoDup k1 -> NoDup k2 -> (forall i, In i k1 <-> In i k2) -> length k1 = length k2.
Proof. intros N1 N2 H. apply Permutation_length, NoDup_Permutation; assumption. Qed.

Lemma fixed_sum {V : Type} (index s : Z) (es : list (idx * V)) :
  fold_right Z.add 0 (map (fun e => index + fixed_bytes s (snd e)) es) = (index + s) * Z.of_nat (length es).
Proof. induction es as [|e es IH]; cbn [map fold_right length]; [lia|]. rewrite IH. unfold fixed_bytes. lia. Qed.

Lemma fixed_cost {V : Type} (tree node ptr index s : Z) (d : nat) (e1 e2 : list (idx * V)) :
  NoDup (map fst e1) -> NoDup (map fst e2) -> (forall i, In i (map fst e1) <-> In i (map fst e2)) ->
  tree_cost tree node ptr index d (fixed_bytes s) e1 = tree_cost tree node ptr index d (fixed_bytes s) e2.
Proof.
  intros N1 N2 H. unfold tree_cost. rewrite !fixed_sum, !(blocks_from_set _ _ _ H).
  pose proof (perm_keys_length _ _ N1 N2 H) as L. rewrite !map_length in L. rewrite L. reflexivity.
Qed.

(** The cells of a storage are those of the bundles. *)
Lemma storage_keys {P : Type} (c : config P) (m : cmap c) (bs : list (idx * bundle)) (i : nat) (es : list (idx * P)) :
  cInv c m -> cbundles c m = Ok bs -> (i < bin_count (dimc c))%nat -> cdists c m i = Ok es ->
  NoDup (map fst es) /\
  forall j, In j (map fst es) <-> exists bi, In bi (map fst bs) /\ generate_index bi i = j.
Proof.
  intros HI Eb Hi Ed. destruct (store_list c m i HI Hi) as [es' [E' [Hn Hin]]].
  unfold cdists in Ed. rewrite E' in Ed. injection Ed as ->. split; [exact Hn|].
  destruct (cbundles_spec c m HI) as [bs' [Eb' [Hnb Hb]]]. rewrite Eb in Eb'. injection Eb' as <-.
  pose proof HI as [[[Hwf HB] [HD _]] [Hsh _]]. intros j. rewrite in_map_iff. split.
  - intros [[j' d] [Ej Hd]]. cbn [fst] in Ej; subst j'. apply Hin in Hd. destruct Hd as [A B].
    rewrite <- Hsh in A. destruct (HD i j d A B) as [bi [b [Hdom [Hg Hgen]]]].
    exists bi. split; [|exact Hgen]. apply in_map_iff. exists (bi, b). split; [reflexivity|].
    apply Hb. rewrite <- Hsh. split; [exact Hdom|exact Hg].
  - intros [bi [Hbi Hgen]]. apply in_map_iff in Hbi. destruct Hbi as [[bi' b] [Ebi Hbi]]. cbn [fst] in Ebi; subst bi'.
    apply Hb in Hbi. rewrite <- Hsh in Hbi. destruct Hbi as [Hdom Hg].
    destruct (HB bi b Hdom Hg) as [[_ [_ Hok]] [_ Hd]]. destruct (Hd i Hi) as [d Ed].
    exists (j, d). split; [reflexivity|]. apply Hin. rewrite <- Hsh, <- Hgen. split; [apply Hok; exact Hi|exact Ed].
Qed.

Lemma same_bundles_bytes {P : Type} (c : config P) (sz : sizes) (s_dist s_bundle : Z)
  (adist : arr P -> Z) (abund : arr bundle -> Z) (m1 m2 : cmap c) (bs1 bs2 : list (idx * bundle)) :
  kindc c = Dynamic -> cInv c m1 -> cInv c m2 -> cbundles c m1 = Ok bs1 -> cbundles c m2 = Ok bs2 ->
  (forall bi, In bi (map fst bs1) <-> In bi (map fst bs2)) ->
  getByteSize c sz (fixed_bytes s_dist) (fixed_bytes s_bundle) adist abund m1 =
  getByteSize c sz (fixed_bytes s_dist) (fixed_bytes s_bundle) adist abund m2.
Proof.
  intros HD I1 I2 E1 E2 H.
  destruct (map_bytes c sz (fixed_bytes s_dist) (fixed_bytes s_bundle) adist abund m1 HD I1) as [b1 [d1 [F1 [L1 [D1 ->]]]]].
  destruct (map_bytes c sz (fixed_bytes s_dist) (fixed_bytes s_bundle) adist abund m2 HD I2) as [b2 [d2 [F2 [L2 [D2 ->]]]]].
  rewrite E1 in F1. injection F1 as <-. rewrite E2 in F2. injection F2 as <-.
  destruct (cbundles_spec c m1 I1) as [b1 [F1 [N1 _]]]. rewrite E1 in F1. injection F1 as <-.
  destruct (cbundles_spec c m2 I2) as [b2 [F2 [N2 _]]]. rewrite E2 in F2. injection F2 as <-.
  rewrite (fixed_cost _ _ _ _ _ _ bs1 bs2 N1 N2 H). do 3 f_equal. f_equal.
  apply (nth_ext _ _ 0 0); [rewrite !map_length; congruence|].
  intros i Hi. rewrite map_length, L1 in Hi.
  rewrite (nth_indep _ 0 (tree_cost (sz_tree sz) (sz_node sz) (sz_ptr sz) (sz_index sz) (dimc c) (fixed_bytes s_dist) (@nil (idx * P))))
    by (rewrite map_length; lia).
  rewrite (nth_indep (map _ d2) 0 (tree_cost (sz_tree sz) (sz_node sz) (sz_ptr sz) (sz_index sz) (dimc c) (fixed_bytes s_dist) (@nil (idx * P))))
    by (rewrite map_length; lia).
  rewrite (map_nth (fun es => tree_cost (sz_tree sz) (sz_node sz) (sz_ptr sz) (sz_index sz) (dimc c) (fixed_bytes s_dist) es)).
  rewrite (map_nth (fun es => tree_cost (sz_tree sz) (sz_node sz) (sz_ptr sz) (sz_index sz) (dimc c) (fixed_bytes s_dist) es) d2).
  destruct (storage_keys c m1 bs1 i _ I1 E1 Hi (D1 i Hi)) as [K1 J1].
  destruct (storage_keys c m2 bs2 i _ I2 E2 Hi (D2 i Hi)) as [K2 J2].
  apply fixed_cost; [exact K1|exact K2|]. intros j. rewrite J1, J2.
  split; intros [bi [A B]]; exists bi; (split; [apply H; exact A|exact B]).
Qed.

(** ** More bundles need more *)
Lemma fixed_cost_le {V : Type} (tree node ptr index s : Z) (d : nat) (e1 e2 : list (idx * V)) :
  0 <= node -> 0 <= ptr -> 0 <= index + s ->
  NoDup (map fst e1) -> (forall i, In i (map fst e1) -> In i (map fst e2)) ->
  tree_cost tree node ptr index d (fixed_bytes s) e1 <= tree_cost tree node ptr index d (fixed_bytes s) e2.
Proof.
  intros Hn Hp Hs N1 H. unfold tree_cost. rewrite !fixed_sum.
  pose proof (blocks_from_mono 0 _ _ H) as B0. pose proof (blocks_from_mono 1 _ _ H) as B1.
  pose proof (NoDup_incl_length N1 H) as L. rewrite !map_length in L.
  assert (0 <= 2 ^ Z.of_nat d * ptr) by (apply Z.mul_nonneg_nonneg; [apply Z.pow_nonneg; lia|exact Hp]).
  nia.
Qed.

Lemma more_bundles_bytes {P : Type} (c : config P) (sz : sizes) (s_dist s_bundle : Z)
  (adist : arr P -> Z) (abund : arr bundle -> Z) (m1 m2 : cmap c) (bs1 bs2 : list (idx * bundle)) (n1 n2 : Z) :
  kindc c = Dynamic -> cInv c m1 -> cInv c m2 -> cbundles c m1 = Ok bs1 -> cbundles c m2 = Ok bs2 ->
  0 <= sz_node sz -> 0 <= sz_ptr sz -> 0 <= sz_index sz -> 0 <= s_dist -> 0 <= s_bundle ->
  (forall bi, In bi (map fst bs1) -> In bi (map fst bs2)) ->
  getByteSize c sz (fixed_bytes s_dist) (fixed_bytes s_bundle) adist abund m1 = Ok n1 ->
  getByteSize c sz (fixed_bytes s_dist) (fixed_bytes s_bundle) adist abund m2 = Ok n2 -> n1 <= n2.
Proof.
  intros HD I1 I2 E1 E2 Zn Zp Zi Zd Zb H.
  destruct (map_bytes c sz (fixed_bytes s_dist) (fixed_bytes s_bundle) adist abund m1 HD I1) as [b1 [d1 [F1 [L1 [D1 ->]]]]].
  destruct (map_bytes c sz (fixed_bytes s_dist) (fixed_bytes s_bundle) adist abund m2 HD I2) as [b2 [d2 [F2 [L2 [D2 ->]]]]].
  rewrite E1 in F1. injection F1 as <-. rewrite E2 in F2. injection F2 as <-.
  destruct (cbundles_spec c m1 I1) as [b1 [F1 [N1 _]]]. rewrite E1 in F1. injection F1 as <-.
  intros G1 G2. injection G1 as <-. injection G2 as <-.
  pose proof (fixed_cost_le (sz_tree sz) (sz_node sz) (sz_ptr sz) (sz_index sz) s_bundle (dimc c) bs1 bs2 Zn Zp ltac:(lia) N1 H) as B.
  set (f := fun es : list (idx * P) => tree_cost (sz_tree sz) (sz_node sz) (sz_ptr sz) (sz_index sz) (dimc c) (fixed_bytes s_dist) es).
  assert (S : fold_right Z.add 0 (map f d1) <= fold_right Z.add 0 (map f d2)); [|apply Zplus_le_compat_l, Z.add_le_mono; [exact B|exact S]].
  assert (K : forall i, (i < length d1)%nat -> f (nth i d1 []) <= f (nth i d2 [])).
  { intros i Hi. rewrite L1 in Hi.
    destruct (storage_keys c m1 bs1 i _ I1 E1 Hi (D1 i Hi)) as [K1 J1].
    destruct (storage_keys c m2 bs2 i _ I2 E2 Hi (D2 i Hi)) as [K2 J2].
    apply fixed_cost_le; [exact Zn|exact Zp|lia|exact K1|].
    intros j. rewrite J1, J2. intros [bi [A A']]. exists bi. split; [apply H; exact A|exact A']. }
  assert (L : length d1 = length d2) by congruence. clearbody f.
  clear - K L. revert d2 K L. induction d1 as [|x d1 IH]; intros [|y d2] K L; cbn in L; try discriminate L; cbn [map fold_right]; [lia|].
  pose proof (K O ltac:(cbn; lia)) as K0. cbn [nth] in K0.
  assert (fold_right Z.add 0 (map f d1) <= fold_right Z.add 0 (map f d2)); [|lia].
  apply IH; [|lia]. intros i Hi. apply (K (S i)). cbn. lia.
Qed.

(** ** Occupancy cells *)
Lemma occupancy_sum {P : Type} (sz : sizes) (d : nat) (s_self s_distribution : Z) (owns : P -> bool)
  (ds : list (list (idx * P))) :
  fold_right Z.add 0 (map (fun es => tree_cost (sz_tree sz) (sz_node sz) (sz_ptr sz) (sz_index sz) d
    (occupancy_bytes s_self s_distribution owns) es) ds) =
  fold_right Z.add 0 (map (fun es => tree_cost (sz_tree sz) (sz_node sz) (sz_ptr sz) (sz_index sz) d
    (fixed_bytes s_self) es) ds) +
  Z.of_nat (length (filter (fun e => owns (snd e)) (concat ds))) * s_distribution.
Proof.
  induction ds as [|es ds IH]; [reflexivity|]. cbn [map fold_right concat]. rewrite IH, filter_app, app_length.
  clear IH.
  assert (G : fold_right Z.add 0 (map (fun e => sz_index sz + occupancy_bytes s_self s_distribution owns (snd e)) es) =
    fold_right Z.add 0 (map (fun e => sz_index sz + fixed_bytes s_self (snd e)) es) +
    Z.of_nat (length (filter (fun e => owns (snd e)) es)) * s_distribution).
  { induction es as [|[i a] es IH]; [reflexivity|]. cbn [map fold_right filter snd].
    rewrite IH. unfold occupancy_bytes at 1, fixed_bytes at 2. destruct (owns a); cbn [length]; lia. }
  unfold tree_cost. rewrite G. lia.
Qed.

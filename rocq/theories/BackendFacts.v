From Coq Require Import Sorted.
From Verif Require Import Base SeqModel SeqFacts IndexModel IndexFacts OctreeSpec OctreeModel OctreeFacts
  OctreeHist MapModel MapFacts BackendModel.
Open Scope Z_scope.

(** ** The octree is a lawful storage *)
Section OctreeLaws.
Context {V : Type}.
Variable merge : V -> V -> V.
Variable dims : nat.

Definition oct_wf (t : octree V) : Prop := otree_wf dims (in_tree_range dims) t.

Lemma path_eq_range (i j : idx) :
  in_tree_range dims i -> in_tree_range dims j -> path_eqb tree_depth i j = idx_eqb i j.
Proof.
  intros Hi Hj. rewrite (path_wrap dims i j (proj1 Hi) (proj1 Hj)).
  rewrite (wrap16_id dims i Hi), (wrap16_id dims j Hj). reflexivity.
Qed.

Lemma oct_get (t : octree V) (i : idx) :
  oct_wf t -> in_tree_range dims i -> octree_get t i = Ok (option_map snd (otree_find t i)).
Proof. intros Hw Hi. eapply octree_get_spec; [exact Hw|apply in_range_computable; exact Hi]. Qed.

Definition octree_laws : blaws merge (octree_backend merge dims).
Proof.
  refine {| shape_t := unit; shape := fun (_ : st (octree_backend merge dims)) => tt;
            dom := fun _ i => in_tree_range dims i;
            bwf := fun (s : st (octree_backend merge dims)) => oct_wf s |}.
  - intros s i Hw Hi. eexists. apply oct_get; assumption.
  - intros s i v o Hw Hi Ho. cbn [octree_backend bget bins] in *.
    destruct (octree_insert_spec merge dims _ s i v Hw (in_range_computable _ _ Hi) Hi) as [t' [E [W F]]].
    exists t'. split; [exact E|]. split; [exact W|]. split; [reflexivity|].
    intros j Hj. rewrite (oct_get t' j W Hj), (F j (in_range_computable _ _ Hj)).
    rewrite (path_eq_range i j Hi Hj). rewrite (oct_get s i Hw Hi) in Ho. injection Ho as <-.
    destruct (idx_eqb i j); [|symmetry; apply oct_get; assumption].
    destruct (otree_find s i) as [[k w]|]; reflexivity.
  - intros s i f v Hw Hi Ho. cbn [octree_backend bget bmod] in *.
    rewrite (oct_get s i Hw Hi) in Ho. destruct (otree_find s i) as [e|] eqn:Ef; [|discriminate].
    injection Ho as <-.
    destruct (octree_modify_spec dims _ s i f e Hw (in_range_computable _ _ Hi) Ef) as [t' [E [W F]]].
    exists t'. split; [exact E|]. split; [exact W|]. split; [reflexivity|].
    intros j Hj. rewrite (oct_get t' j W Hj), (F j), (path_eq_range i j Hi Hj).
    destruct (idx_eqb i j); [reflexivity|symmetry; apply oct_get; assumption].
  - intros s Hw. destruct (octree_traverse_spec dims _ s Hw) as [es [E [Hin [Hall Hs]]]].
    exists es. split; [exact E|]. split.
    + apply sorted_morton_nodup. exact Hs.
    + intros i v. cbn [octree_backend bget]. split.
      * intros Hi. rewrite Forall_forall in Hall. destruct (Hall _ Hi) as [_ Hr]. cbn [fst] in Hr.
        split; [exact Hr|]. rewrite (oct_get s i Hw Hr). apply Hin in Hi. rewrite Hi. reflexivity.
      * intros [Hr Hg]. rewrite (oct_get s i Hw Hr) in Hg.
        destruct (otree_find s i) as [[k w]|] eqn:Ef; [|discriminate]. cbn in Hg. injection Hg as ->.
        destruct (otree_find_wf dims _ s i k v Hw Ef) as [_ [Hk Hp]].
        rewrite (path_eq_range i k Hr Hk) in Hp. destruct (idx_eqb_spec i k) as [<-|]; [|discriminate].
        apply Hin. exact Ef.
Defined.
End OctreeLaws.

(** ** The array is a lawful storage *)
Lemma assoc_set_same {V : Type} (l : list (idx * V)) (i : idx) (v : V) : assoc (assoc_set l i v) i = Some v.
Proof.
  induction l as [|[j w] l IH]; cbn [assoc_set assoc]; [rewrite idx_eqb_refl; reflexivity|].
  destruct (idx_eqb j i) eqn:E; cbn [assoc]; rewrite E; [reflexivity|exact IH].
Qed.

Lemma assoc_set_other {V : Type} (l : list (idx * V)) (i k : idx) (v : V) :
  i <> k -> assoc (assoc_set l i v) k = assoc l k.
Proof.
  intros Hne. induction l as [|[j w] l IH]; cbn [assoc_set assoc].
  - destruct (idx_eqb_spec i k); [contradiction|reflexivity].
  - destruct (idx_eqb_spec j i) as [->|Hj]; cbn [assoc].
    + destruct (idx_eqb_spec i k); [contradiction|reflexivity].
    + rewrite IH. reflexivity.
Qed.

Lemma assoc_set_keys {V : Type} (l : list (idx * V)) (i k : idx) (v : V) :
  In k (map fst (assoc_set l i v)) <-> k = i \/ In k (map fst l).
Proof.
  induction l as [|[j w] l IH]; cbn [assoc_set map In fst]; [split; intuition congruence|].
  destruct (idx_eqb_spec j i) as [->|Hj]; cbn [map In fst]; [intuition congruence|].
  rewrite IH. intuition congruence.
Qed.

Lemma assoc_set_nodup {V : Type} (l : list (idx * V)) (i : idx) (v : V) :
  NoDup (map fst l) -> NoDup (map fst (assoc_set l i v)).
Proof.
  induction l as [|[j w] l IH]; cbn [assoc_set map fst]; intros H.
  - constructor; [intros []|constructor].
  - inversion H as [|? ? Hn Hl]; subst. destruct (idx_eqb_spec j i) as [->|Hj]; cbn [map fst].
    + constructor; assumption.
    + constructor; [|apply IH; exact Hl]. rewrite assoc_set_keys. intuition congruence.
Qed.

Lemma assoc_in {V : Type} (l : list (idx * V)) (i : idx) (v : V) :
  NoDup (map fst l) -> (In (i, v) l <-> assoc l i = Some v).
Proof.
  induction l as [|[j w] l IH]; cbn [assoc In map fst]; intros H; [split; [intros []|discriminate]|].
  inversion H as [|? ? Hn Hl]; subst. destruct (idx_eqb_spec j i) as [->|Hj].
  - split.
    + intros [He|Hin]; [congruence|]. exfalso; apply Hn. apply in_map_iff. exists (i, v); auto.
    + intros He; left; congruence.
  - rewrite <- (IH Hl). split; [intros [He|Hin]; [congruence|exact Hin]|intros Hin; right; exact Hin].
Qed.

Section ArrayLaws.
Context {V : Type}.
Variable merge : V -> V -> V.

Definition arr_wf (s : arr V) : Prop :=
  NoDup (map fst (a_cells s)) /\
  Forall (fun e => arr_inside (a_size s) (a_offset s) (fst e) = true) (a_cells s).

Lemma arr_set_wf (s : arr V) (i : idx) (v : V) :
  arr_wf s -> arr_inside (a_size s) (a_offset s) i = true -> arr_wf (arr_set s i v).
Proof.
  intros [Hn HF] Hi. split; cbn [arr_set a_cells a_size a_offset]; [apply assoc_set_nodup; exact Hn|].
  rewrite Forall_forall in *. intros [k w] Hin. cbn [fst].
  assert (Hk : In k (map fst (assoc_set (a_cells s) i v))) by (apply in_map_iff; exists (k, w); auto).
  apply assoc_set_keys in Hk. destruct Hk as [->|Hk]; [exact Hi|].
  apply in_map_iff in Hk. destruct Hk as [[k' w'] [He Hk]]. cbn in He; subst k'. apply (HF _ Hk).
Qed.

Definition array_laws : blaws merge (array_backend merge).
Proof.
  refine {| shape_t := (list Z * idx)%type;
            shape := fun (s : st (array_backend merge)) => (a_size s, a_offset s);
            dom := fun sh i => arr_inside (fst sh) (snd sh) i = true;
            bwf := fun (s : st (array_backend merge)) => arr_wf s |}.
  - intros s i Hw Hi. cbn [fst snd] in Hi. cbn [array_backend bget]. rewrite Hi. eauto.
  - intros s i v o Hw Hi Ho. cbn [fst snd] in Hi. cbn [array_backend bget bins] in *. rewrite Hi in *.
    injection Ho as <-. eexists; split; [reflexivity|]. split; [apply arr_set_wf; assumption|].
    split; [reflexivity|]. intros j Hj. cbn [fst snd] in Hj. cbn [arr_set a_size a_offset a_cells]. rewrite Hj.
    destruct (idx_eqb_spec i j) as [<-|Hne]; [rewrite assoc_set_same; reflexivity|].
    rewrite assoc_set_other by exact Hne. reflexivity.
  - intros s i f v Hw Hi Ho. cbn [fst snd] in Hi. cbn [array_backend bget bmod] in *. rewrite Hi in *.
    injection Ho as Ho. rewrite Ho. eexists; split; [reflexivity|]. split; [apply arr_set_wf; assumption|].
    split; [reflexivity|]. intros j Hj. cbn [fst snd] in Hj. cbn [arr_set a_size a_offset a_cells]. rewrite Hj.
    destruct (idx_eqb_spec i j) as [<-|Hne]; [rewrite assoc_set_same; reflexivity|].
    rewrite assoc_set_other by exact Hne. reflexivity.
  - intros s [Hn HF]. cbn [array_backend btrav bget]. eexists; split; [reflexivity|]. split; [exact Hn|].
    intros i v. cbn [fst snd]. rewrite Forall_forall in HF. split.
    + intros Hin. pose proof (HF _ Hin) as Hi. cbn [fst] in Hi. split; [exact Hi|]. rewrite Hi.
      f_equal. apply assoc_in; assumption.
    + intros [Hi Hg]. rewrite Hi in Hg. injection Hg as Hg. apply assoc_in; assumption.
Defined.
End ArrayLaws.

Definition dist_laws {P : Type} (mergeP : P -> P -> P) (dim : nat) (kd : kind) :
  blaws mergeP (dist_backend mergeP dim kd) :=
  match kd with Dynamic => octree_laws mergeP dim | Static => array_laws mergeP end.
Definition bundle_laws (dim : nat) (kd : kind) : blaws merge_bundle (bundle_backend dim kd) :=
  match kd with Dynamic => octree_laws merge_bundle dim | Static => array_laws merge_bundle end.

(** ** Valid locations of the two kinds of map *)
Lemma half_in_range (z : Z) : -32768 <= z <= 32767 -> -32768 <= z / 2 <= 32767 /\ -32768 <= (z + 1) / 2 <= 32767.
Proof. intros H. Z.div_mod_to_equations; lia. Qed.

Lemma generate_index_in_range (dim : nat) (bi : idx) (k : nat) :
  in_tree_range dim bi -> in_tree_range dim (generate_index bi k).
Proof.
  intros [HL H]. split; [rewrite generate_index_length; exact HL|].
  apply Forall_forall. intros z Hz. apply (In_nth _ _ 0) in Hz. destruct Hz as [d [Hd <-]].
  rewrite generate_index_length in Hd. rewrite generate_index_nth by exact Hd.
  rewrite Forall_forall in H. pose proof (H _ (nth_In bi 0 Hd)) as Hb. cbn beta in Hb.
  destruct (half_in_range _ Hb). destruct (Nat.testbit k d); assumption.
Qed.

Lemma map_shape_const {A B : Type} (f : nat -> A) (g : A -> B) (b : B) (n : nat) :
  (forall i, g (f i) = b) -> map g (map f (seq 0 n)) = repeat b n.
Proof.
  intros H. generalize 0%nat. induction n as [|n IH]; intros k; cbn [seq map repeat]; [reflexivity|].
  rewrite H, IH. reflexivity.
Qed.

Section Kinds.
Context {P : Type}.
Variable mergeP : P -> P -> P.
Variable dim : nat.

Notation dshape kd := (mshape mergeP merge_bundle (dist_backend mergeP dim kd) (bundle_backend dim kd)
                         (dist_laws mergeP dim kd) (bundle_laws dim kd)).
Notation dokidx kd := (okidx mergeP merge_bundle (dist_backend mergeP dim kd) (bundle_backend dim kd)
                         (dist_laws mergeP dim kd) (bundle_laws dim kd) dim).

Lemma nth_error_repeat {A : Type} (x : A) (n i : nat) : (i < n)%nat -> nth_error (repeat x n) i = Some x.
Proof. revert i; induction n as [|n IH]; intros [|i] H; cbn; [lia|lia|reflexivity|apply IH; lia]. Qed.

Lemma dynamic_okidx (g : nat -> Z) (bi : idx) :
  dokidx Dynamic (dshape Dynamic (dynamic_new mergeP dim g)) bi <-> in_tree_range dim bi.
Proof.
  unfold okidx, mshape, ddom, bdom. cbn [fst snd dynamic_new stores bundles dist_laws bundle_laws octree_laws shape dom].
  split; [intros [_ [H _]]; exact H|]. intros H. split; [apply H|]. split; [exact H|].
  intros i Hi. rewrite map_map. rewrite nth_error_map.
  rewrite (nth_error_nth' (seq 0 (bin_count dim)) 0%nat) by (rewrite seq_length; exact Hi).
  cbn [option_map]. apply generate_index_in_range; exact H.
Qed.

(** C07 core: every valid index of a static map has all its locations. *)
Lemma arr_inside_iff (size : list Z) (off i : idx) :
  arr_inside size off i = true <->
  length i = length size /\ length i = length off /\
  forall d, (d < length i)%nat -> nth d off 0 <= nth d i 0 < nth d off 0 + nth d size 0.
Proof.
  unfold arr_inside. rewrite !andb_true_iff, !Nat.eqb_eq, forallb_forall. split.
  - intros [[H1 H2] H3]. split; [exact H1|]. split; [exact H2|]. intros d Hd.
    specialize (H3 d ltac:(apply in_seq; lia)). lia.
  - intros [H1 [H2 H3]]. split; [auto|]. intros d Hd. apply in_seq in Hd. specialize (H3 d ltac:(lia)). lia.
Qed.

Lemma zip_with_nth (f : Z -> Z -> Z) (a b : list Z) (d : nat) :
  length a = length b -> (d < length a)%nat -> nth d (zip_with f a b) 0 = f (nth d a 0) (nth d b 0).
Proof.
  revert b d; induction a as [|x a IH]; intros [|y b] d HL Hd; cbn [length] in *; try lia.
  destruct d as [|d]; cbn [zip_with nth]; [reflexivity|]. apply IH; lia.
Qed.

Lemma zip_with_length (f : Z -> Z -> Z) (a b : list Z) :
  length a = length b -> length (zip_with f a b) = length a.
Proof. revert b; induction a as [|x a IH]; intros [|y b] HL; cbn in *; try lia. f_equal; apply IH; lia. Qed.

Lemma nth_map_lt {A : Type} (f : A -> Z) (l : list A) (d : nat) (x : A) :
  (d < length l)%nat -> nth d (map f l) 0 = f (nth d l x).
Proof.
  intros Hd. rewrite (nth_indep _ 0 (f x)) by (rewrite map_length; exact Hd). apply map_nth.
Qed.

Lemma static_inside (size : list Z) (min bi : idx) (i : nat) :
  length size = dim -> length min = dim -> length bi = dim ->
  (forall d, (d < dim)%nat -> nth d min 0 <= nth d bi 0 < nth d min 0 + 2 * nth d size 0 - 1) ->
  arr_inside (if (i =? 0)%nat then size else map (fun n => n + 1) size) (static_offset min)
             (generate_index bi i) = true.
Proof.
  intros Hs Hm Hb H. apply arr_inside_iff. unfold static_offset.
  rewrite generate_index_length, map_length.
  split; [destruct (i =? 0)%nat; rewrite ?map_length; congruence|]. split; [congruence|].
  intros d Hd. specialize (H d ltac:(lia)).
  rewrite (nth_map_lt _ min d 0) by lia. rewrite shiftr1_div.
  rewrite generate_index_nth by exact Hd.
  destruct (Nat.eqb_spec i 0) as [->|Hi].
  - rewrite Nat.bits_0. Z.div_mod_to_equations; lia.
  - rewrite (nth_map_lt _ size d 0) by lia.
    destruct (Nat.testbit i d); Z.div_mod_to_equations; lia.
Qed.

Lemma static_okidx (size : list Z) (min bi : idx) :
  length size = dim -> length min = dim -> length bi = dim ->
  (forall d, (d < dim)%nat -> nth d min 0 <= nth d bi 0 < nth d min 0 + 2 * nth d size 0 - 1) ->
  dokidx Static (dshape Static (static_new mergeP dim size min)) bi.
Proof.
  intros Hs Hm Hb H. unfold okidx, mshape, ddom, bdom.
  cbn [fst snd static_new stores bundles dist_laws bundle_laws array_laws shape dom a_size a_offset].
  split; [exact Hb|]. split.
  - apply arr_inside_iff. rewrite map_length. split; [congruence|]. split; [congruence|].
    intros d Hd. specialize (H d ltac:(lia)). rewrite (nth_map_lt _ size d 0) by lia. lia.
  - intros i Hi. rewrite map_map, nth_error_map.
    rewrite (nth_error_nth' (seq 0 (bin_count dim)) 0%nat) by (rewrite seq_length; exact Hi).
    rewrite seq_nth by exact Hi. cbn [option_map Nat.add static_store a_size a_offset fst snd].
    apply static_inside; assumption.
Qed.

End Kinds.

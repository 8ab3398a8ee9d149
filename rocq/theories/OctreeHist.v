(** Histories of operations on the octree against the abstract map. *)
From Coq Require Import Sorted.
From Verif Require Import Base OctreeModel OctreeSpec OctreeFacts.
Open Scope Z_scope.

Lemma wrap16_length (i : idx) : length (wrap16 i) = length i.
Proof. apply map_length. Qed.

Lemma wrap16_nth (i : idx) (d : nat) :
  (d < length i)%nat -> nth d (wrap16 i) 0 = (nth d i 0 + 32768) mod 65536 - 32768.
Proof.
  intros Hd. unfold wrap16.
  rewrite (nth_indep _ 0 ((fun z => (z + 32768) mod 65536 - 32768) 0)) by (rewrite map_length; exact Hd).
  rewrite (map_nth (fun z => (z + 32768) mod 65536 - 32768)). reflexivity.
Qed.

Lemma wrap16_range (dims : nat) (i : idx) : length i = dims -> in_tree_range dims (wrap16 i).
Proof.
  intros HL. split; [rewrite wrap16_length; exact HL|]. unfold wrap16. apply Forall_map.
  apply Forall_forall. intros z _. Z.div_mod_to_equations; lia.
Qed.

Lemma wrap16_id (dims : nat) (i : idx) : in_tree_range dims i -> wrap16 i = i.
Proof.
  intros [_ H]. unfold wrap16. induction H as [|z i Hz Hi IH]; cbn [map]; [reflexivity|].
  f_equal; [|exact IH]. cbn beta in Hz. rewrite Z.mod_small by lia. lia.
Qed.

Lemma wrap16_same_place (i j : idx) :
  length i = length j -> (wrap16 i = wrap16 j <-> same_place i j).
Proof.
  intros HL. split.
  - intros H. split; [exact HL|]. intros d Hd. apply mod_add_iff.
    assert (E : nth d (wrap16 i) 0 = nth d (wrap16 j) 0) by (rewrite H; reflexivity).
    rewrite !wrap16_nth in E by lia. lia.
  - intros [_ H]. apply (nth_ext _ _ 0 0); [rewrite !wrap16_length; exact HL|].
    rewrite wrap16_length. intros d Hd. rewrite !wrap16_nth by lia.
    f_equal. apply mod_add_iff. apply H; exact Hd.
Qed.

Lemma path_wrap (dims : nat) (i j : idx) :
  length i = dims -> length j = dims ->
  path_eqb tree_depth i j = idx_eqb (wrap16 i) (wrap16 j).
Proof.
  intros Hi Hj. assert (HL : length i = length j) by congruence.
  pose proof (path_same_place i j HL) as A. pose proof (wrap16_same_place i j HL) as B.
  destruct (idx_eqb_spec (wrap16 i) (wrap16 j)) as [E|E], (path_eqb tree_depth i j); intuition congruence.
Qed.

Section Hist.
Context {V : Type}.
Variable merge : V -> V -> V.
Variable dims : nat.

(** Octree [t] represents the abstract map [m] on wrapped indices. *)
Definition rep (P : idx -> Prop) (t : octree V) (m : abs_map V) : Prop :=
  otree_wf dims P t /\
  forall i, key_computable dims i -> option_map snd (otree_find t i) = m (wrap16 i).

Lemma rep_new (P : idx -> Prop) (g : Z) : rep P (octree_new g) abs_empty.
Proof. split; [apply octree_new_wf|reflexivity]. Qed.

Lemma rep_step (P : idx -> Prop) (t : octree V) (m : abs_map V) (o : map_op V) :
  rep P t m -> key_computable dims (op_index o) -> P (op_index o) ->
  match abs_step merge m (wrap_op o) with
  | Ok m' => exists t', octree_step merge dims t o = Ok t' /\ rep P t' m'
  | UB => octree_step merge dims t o = UB
  | Throw => False
  end.
Proof.
  intros [Hwf Hm] Hk HP. destruct o as [i v|i f]; cbn [op_index wrap_op abs_step octree_step] in *.
  - destruct (octree_insert_spec merge dims P t i v Hwf Hk HP) as [t' [E [W F]]].
    exists t'. split; [exact E|]. split; [exact W|]. intros j Hj. rewrite (F j Hj).
    unfold abs_set. rewrite (path_wrap dims i j (proj1 Hk) (proj1 Hj)).
    destruct (idx_eqb (wrap16 i) (wrap16 j)); [|apply Hm; exact Hj].
    rewrite <- (Hm i Hk). destruct (otree_find t i) as [[j0 w]|]; reflexivity.
  - rewrite <- (Hm i Hk). destruct (otree_find t i) as [e|] eqn:Ef; cbn [option_map].
    + destruct (octree_modify_spec dims P t i f e Hwf Hk Ef) as [t' [E [W F]]].
      exists t'. split; [exact E|]. split; [exact W|]. intros j Hj. rewrite (F j).
      unfold abs_set. rewrite (path_wrap dims i j (proj1 Hk) (proj1 Hj)).
      destruct (idx_eqb (wrap16 i) (wrap16 j)); [reflexivity|apply Hm; exact Hj].
    + eapply octree_modify_none; eassumption.
Qed.

Lemma rep_run (P : idx -> Prop) (ops : list (map_op V)) (t : octree V) (m : abs_map V) :
  rep P t m -> Forall (fun o => key_computable dims (op_index o) /\ P (op_index o)) ops ->
  match ofold (abs_step merge) (map wrap_op ops) m with
  | Ok m' => exists t', octree_run merge dims ops t = Ok t' /\ rep P t' m'
  | UB => octree_run merge dims ops t = UB
  | Throw => False
  end.
Proof.
  unfold octree_run. revert t m; induction ops as [|o ops IH]; intros t m HR Hops; cbn [map ofold].
  - exists t. auto.
  - inversion Hops as [|o' ops' [Hk HP] Hops']; subst.
    pose proof (rep_step P t m o HR Hk HP) as Hs.
    destruct (abs_step merge m (wrap_op o)) as [m'| |]; cbn [obind]; [|rewrite Hs; reflexivity|contradiction].
    destruct Hs as [t' [E HR']]. rewrite E. cbn [obind]. apply IH; assumption.
Qed.

Lemma wrap_ops_id (ops : list (map_op V)) :
  Forall (fun o => in_tree_range dims (op_index o)) ops -> map wrap_op ops = ops.
Proof.
  intros H. induction H as [|o ops Ho Hops IH]; cbn [map]; [reflexivity|].
  rewrite IH. f_equal. destruct o; cbn [wrap_op op_index] in *; rewrite (wrap16_id dims) by exact Ho; reflexivity.
Qed.

(** C06 general law: the octree is a map on wrapped indices. *)
Lemma octree_refines_wrapped (g : Z) (ops : list (map_op V)) :
  Forall (fun o => key_computable dims (op_index o)) ops ->
  match abs_run merge (map wrap_op ops) with
  | Ok m => exists t, octree_run merge dims ops (octree_new g) = Ok t /\
              forall i, key_computable dims i -> octree_get t i = Ok (m (wrap16 i))
  | UB => octree_run merge dims ops (octree_new g) = UB
  | Throw => False
  end.
Proof.
  intros H. unfold abs_run.
  pose proof (rep_run (fun _ => True) ops (octree_new g) abs_empty (rep_new _ g)) as R.
  destruct (ofold _ _ _) as [m| |].
  - destruct R as [t [E [W F]]]; [eapply Forall_impl; [|exact H]; cbn; auto|].
    exists t. split; [exact E|]. intros i Hi.
    rewrite (octree_get_spec dims _ t i W Hi), (F i Hi). reflexivity.
  - apply R. eapply Forall_impl; [|exact H]; cbn; auto.
  - apply R. eapply Forall_impl; [|exact H]; cbn; auto.
Qed.

Lemma octree_refines_map (g : Z) (ops : list (map_op V)) :
  Forall (fun o => in_tree_range dims (op_index o)) ops ->
  match abs_run merge ops with
  | Ok m => exists t, octree_run merge dims ops (octree_new g) = Ok t /\
              forall i, in_tree_range dims i -> octree_get t i = Ok (m i)
  | UB => octree_run merge dims ops (octree_new g) = UB
  | Throw => False
  end.
Proof.
  intros H. pose proof (octree_refines_wrapped g ops) as R. rewrite (wrap_ops_id ops H) in R.
  assert (H' : Forall (fun o => key_computable dims (op_index o)) ops).
  { eapply Forall_impl; [|exact H]. cbn. intros o. apply in_range_computable. }
  specialize (R H'). destruct (abs_run merge ops) as [m| |]; [|exact R|exact R].
  destruct R as [t [E F]]. exists t. split; [exact E|]. intros i Hi.
  rewrite (F i (in_range_computable dims i Hi)), (wrap16_id dims i Hi). reflexivity.
Qed.

(** Traversal after an in-range history. *)
Lemma octree_traverse_hist (g : Z) (ops : list (map_op V)) (m : abs_map V) :
  Forall (fun o => in_tree_range dims (op_index o)) ops ->
  abs_run merge ops = Ok m ->
  exists t es, octree_run merge dims ops (octree_new g) = Ok t /\ octree_traverse t = Ok es /\
    (forall i v, In (i, v) es <-> in_tree_range dims i /\ m i = Some v) /\
    StronglySorted (fun a b => morton 16 (fst a) < morton 16 (fst b)) es.
Proof.
  intros H Hm. pose proof (rep_run (in_tree_range dims) ops (octree_new g) abs_empty (rep_new _ g)) as R.
  rewrite (wrap_ops_id ops H) in R. unfold abs_run in Hm. rewrite Hm in R.
  destruct R as [t [E [W F]]].
  { eapply Forall_impl; [|exact H]. cbn. intros o Ho. split; [apply in_range_computable; exact Ho|exact Ho]. }
  destruct (octree_traverse_spec dims _ t W) as [es [Et [Hin [Hall Hs]]]].
  exists t, es. split; [exact E|]. split; [exact Et|]. split; [|exact Hs].
  intros i v. split.
  - intros Hi. rewrite Forall_forall in Hall. destruct (Hall _ Hi) as [Hg Hr]. cbn [fst] in Hg, Hr.
    split; [exact Hr|]. apply Hin in Hi. rewrite <- (wrap16_id dims i Hr), <- (F i Hg), Hi. reflexivity.
  - intros [Hr Hv]. pose proof (in_range_computable dims i Hr) as Hg.
    rewrite <- (wrap16_id dims i Hr), <- (F i Hg) in Hv.
    destruct (otree_find t i) as [[j w]|] eqn:Ef; [|discriminate]. cbn in Hv. injection Hv as ->.
    destruct (otree_find_wf dims _ t i j v W Ef) as [_ [Hj Hp]].
    apply Hin. rewrite Ef. f_equal. f_equal.
    apply (path_same_place i j) in Hp; [|destruct Hr, Hj; congruence].
    apply (same_place_range dims i j Hr Hj) in Hp. congruence.
Qed.

End Hist.

Lemma sorted_lt_unique {A : Type} (f : A -> Z) (l1 l2 : list A) :
  StronglySorted (fun a b => f a < f b) l1 -> StronglySorted (fun a b => f a < f b) l2 ->
  (forall x, In x l1 <-> In x l2) -> l1 = l2.
Proof.
  intros H1; revert l2; induction H1 as [|a l1 H1 IH Ha]; intros l2 H2 Heq.
  - destruct l2 as [|b l2]; [reflexivity|]. exfalso. apply (proj2 (Heq b)). left; reflexivity.
  - inversion H2 as [|b l2' H2' Hb]; subst.
    + exfalso. apply (proj1 (Heq a)). left; reflexivity.
    + rewrite Forall_forall in Ha, Hb.
      assert (a = b) as ->.
      { destruct (proj1 (Heq a) (or_introl eq_refl)) as [->|Hin]; [reflexivity|].
        destruct (proj2 (Heq b) (or_introl eq_refl)) as [->|Hin2]; [reflexivity|].
        specialize (Ha _ Hin2). specialize (Hb _ Hin). lia. }
      f_equal. apply IH; [exact H2'|]. intros x. split; intros Hx.
      * destruct (proj1 (Heq x) (or_intror Hx)) as [<-|Hin]; [|exact Hin].
        specialize (Ha _ Hx). lia.
      * destruct (proj2 (Heq x) (or_intror Hx)) as [<-|Hin]; [|exact Hin].
        specialize (Hb _ Hx). lia.
Qed.

Lemma sorted_lt_nodup {A : Type} (f : A -> Z) (l : list A) :
  StronglySorted (fun a b => f a < f b) l -> NoDup (map f l).
Proof.
  intros H; induction H as [|a l H IH Ha]; cbn [map]; constructor; [|exact IH].
  intros Hin. apply in_map_iff in Hin. destruct Hin as [x [He Hx]].
  rewrite Forall_forall in Ha. specialize (Ha x Hx). lia.
Qed.

Lemma sorted_morton_nodup {V : Type} (es : list (idx * V)) :
  StronglySorted (fun a b => morton 16 (fst a) < morton 16 (fst b)) es -> NoDup (map fst es).
Proof.
  intros H. apply (sorted_lt_nodup (fun e => morton 16 (fst e))) in H.
  rewrite <- map_map with (f := fst) (g := morton 16) in H. apply NoDup_map_inv in H. exact H.
Qed.

Lemma octree_traverse_canonical {V : Type} (merge : V -> V -> V) (dims : nat) (g1 g2 : Z)
  (ops1 ops2 : list (map_op V)) (m1 m2 : abs_map V) :
  Forall (fun o => in_tree_range dims (op_index o)) ops1 ->
  Forall (fun o => in_tree_range dims (op_index o)) ops2 ->
  abs_run merge ops1 = Ok m1 -> abs_run merge ops2 = Ok m2 ->
  (forall i, in_tree_range dims i -> m1 i = m2 i) ->
  exists t1 t2 es, octree_run merge dims ops1 (octree_new g1) = Ok t1 /\
    octree_run merge dims ops2 (octree_new g2) = Ok t2 /\
    octree_traverse t1 = Ok es /\ octree_traverse t2 = Ok es.
Proof.
  intros H1 H2 E1 E2 Hm.
  destruct (octree_traverse_hist merge dims g1 ops1 m1 H1 E1) as [t1 [es1 [R1 [T1 [I1 S1]]]]].
  destruct (octree_traverse_hist merge dims g2 ops2 m2 H2 E2) as [t2 [es2 [R2 [T2 [I2 S2]]]]].
  assert (es1 = es2) as ->.
  { apply (sorted_lt_unique (fun e => morton 16 (fst e))); [exact S1|exact S2|].
    intros [i v]. rewrite I1, I2. split; intros [Hr Hv]; (split; [exact Hr|]).
    - rewrite <- Hm by exact Hr; exact Hv.
    - rewrite Hm by exact Hr; exact Hv. }
  exists t1, t2, es2. auto.
Qed.

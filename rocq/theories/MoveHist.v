(** Moves keep dynamic maps: either nothing is stored in any octree, or every octree has a root and is shared. *)
From Verif Require Import Base SeqModel SeqFacts IndexModel IndexFacts OctreeSpec OctreeModel OctreeFacts MapModel BackendModel SysModel SysSpec.
From Verif Require Import MapFacts MapHist BackendFacts SysFacts CopyModel CopySpec CopyFacts PtrMapFacts MoveModel MoveSpec MoveFacts.
Open Scope Z_scope.
Local Opaque tree_depth.

Lemma nall_mono {V : Type} (Q R : V -> Prop) (n : nat) (nd : node V) : (forall v, Q v -> R v) -> nall Q n nd -> nall R n nd.
Proof.
  intros H. revert nd. induction n as [|n IH]; intros nd; destruct nd; cbn [nall]; auto. intros Hn k x Hk. apply IH, (Hn k x Hk).
Qed.
Lemma tall_mono {V : Type} (Q R : V -> Prop) (t : octree V) : (forall v, Q v -> R v) -> tall Q t -> tall R t.
Proof. intros H. unfold tall. destruct (root t); [apply nall_mono; exact H|auto]. Qed.

Section Trees.
Context {V : Type}.
Variable mergeV : V -> V -> V.
Variable dims : nat.
Definition rooted (t : octree V) : Prop := root t <> None.
Lemma insert_rooted (t t' : octree V) (i : idx) (v : V) : octree_insert mergeV dims t i v = Ok t' -> rooted t'.
Proof. unfold octree_insert, rooted. intros H. destruct (root t); obreak H; injection H as <-; discriminate. Qed.
Lemma modify_rooted (t t' : octree V) (i : idx) (f : V -> V) : octree_modify t i f = Ok t' -> rooted t'.
Proof. unfold octree_modify, rooted. intros H. destruct (root t); [|discriminate]. obreak H; injection H as <-; discriminate. Qed.
Lemma get_rooted (t : octree V) (i : idx) (v : V) : octree_get t i = Ok (Some v) -> rooted t.
Proof. unfold octree_get, rooted. destruct (root t); discriminate. Qed.
End Trees.

Section Roots.
Context {P : Type}.
Variable default : P.
Variable mergeP : P -> P -> P.
Variable dim : nat.
Variable amin amax : idx -> idx -> idx.
Variable expandDistribution : P -> bool.
Variable offsets : list idx.
Notation bd := (octree_backend mergeP dim).
Notation bb := (octree_backend merge_bundle dim).
Notation nmap := (@ndmap P bd bb).

(** Storage [i] exists and has a root. *)
Definition grown (m : nmap) (i : nat) : Prop := exists s, nth_error (stores m) i = Some s /\ rooted s.
Definition into (m : nmap) (b : bundle) : Prop := forall i j, nth_error (slots b) i = Some (Some j) -> grown m i.
Definition filled (m : nmap) : Prop := rooted (bundles m) /\ forall i, (i < bin_count dim)%nat -> grown m i.
Definition void (m : nmap) : Prop := root (bundles m) = None /\ Forall (fun s => root s = None) (stores m).
(** From [m] to [m']: roots stay. *)
Definition grows (m m' : nmap) : Prop :=
  (rooted (bundles m) -> rooted (bundles m')) /\ (forall i, grown m i -> grown m' i) /\ length (stores m') = length (stores m).
Definition sound (m : nmap) : Prop := tall (into m) (bundles m).

Lemma grows_refl (m : nmap) : grows m m. Proof. split; auto. Qed.
Lemma grows_trans (a b c : nmap) : grows a b -> grows b c -> grows a c.
Proof. intros [A [B C]] [A' [B' C']]. split; [auto|]. split; [auto|congruence]. Qed.
Lemma into_mono (m m' : nmap) (b : bundle) : grows m m' -> into m b -> into m' b.
Proof. intros [_ [G _]] H i j Hi. apply G, (H i j Hi). Qed.
Lemma filled_mono (m m' : nmap) : grows m m' -> filled m -> filled m'.
Proof. intros [A [B _]] [X Y]. split; auto. Qed.

Lemma set_store_grows (m m' : nmap) (i : nat) (s : octree P) :
  rooted s -> set_store bd bb m i s = Ok m' -> grows m m' /\ grown m' i /\ bundles m' = bundles m.
Proof.
  unfold set_store. intros Hs H. destruct (upd (stores m) i s) as [l|] eqn:E; [|discriminate]. injection H as <-.
  assert (G : grown {| stores := l; bundles := bundles m; min_bi := min_bi m; max_bi := max_bi m |} i).
  { exists s. cbn [stores]. rewrite (upd_nth_error _ _ _ i _ E), Nat.eqb_refl. auto. }
  split; [|auto]. split; [auto|]. split; [|cbn; exact (upd_length _ _ _ _ E)].
  intros k [t [Ht Hr]]. destruct (Nat.eq_dec k i) as [->|Hk]; [exact G|]. exists t. cbn [stores].
  rewrite (upd_nth_error _ _ _ k _ E). apply Nat.neq_sym, Nat.eqb_neq in Hk. rewrite Hk. auto.
Qed.

Lemma alloc_slot_grows (bi : idx) (m m' : nmap) (ij : nat * idx) : sound m ->
  alloc_slot default bd bb bi m ij = Ok m' -> sound m' /\ grows m m' /\ grown m' (fst ij).
Proof.
  intros HS H. destruct ij as [i j]. unfold alloc_slot in H. obreak H. destruct a as [b|]; [|discriminate].
  destruct (nth_error (slots b) i) as [[x|]|] eqn:Es; [| |discriminate].
  - injection H as <-. split; [exact HS|]. split; [apply grows_refl|]. cbn [fst]. exact (tall_get (into m) (bundles m) bi b HS E i x Es).
  - obreak H. obreak H. obreak H. obreak H. injection H as <-.
    assert (Hr : rooted a0).
    { unfold alloc_dist in E1. obreak E1. destruct a3; [injection E1 as <-; eapply get_rooted; exact E4|eapply insert_rooted; exact E1]. }
    destruct (set_store_grows _ _ _ _ Hr E2) as [G1 [G2 EB]].
    assert (G3 : grows m (set_bundles bd bb a1 a2)).
    { destruct G1 as [_ [G G']]. split; [intros _; cbn; eapply modify_rooted; exact E3|]. split; [exact G|exact G']. }
    split; [|split; [exact G3|exact G2]].
    unfold sound. cbn [bundles set_bundles]. apply (tall_modify (into (set_bundles bd bb a1 a2)) (bundles a1) a2 bi (set_slot i j)).
    + intros u Hu k y Hk. unfold set_slot in Hk. destruct (upd (slots u) i (Some j)) as [l|] eqn:Eu; [|exact (Hu k y Hk)].
      cbn [slots] in Hk. rewrite (upd_nth_error _ _ _ k _ Eu) in Hk. destruct (Nat.eqb_spec i k) as [<-|Hn]; [exact G2|exact (Hu k y Hk)].
    + rewrite EB. eapply tall_mono; [|exact HS]. intros u. apply into_mono. exact G3.
    + exact E3.
Qed.

Lemma alloc_slots_grow (bi : idx) (n from : nat) (m m' : nmap) : sound m ->
  ofold (alloc_slot default bd bb bi) (apply_indices_from bi from n) m = Ok m' ->
  sound m' /\ grows m m' /\ forall i, (from <= i < from + n)%nat -> grown m' i.
Proof.
  revert from m. induction n as [|n IH]; intros from m HS H; cbn [apply_indices_from ofold] in H.
  - injection H as <-. split; [exact HS|]. split; [apply grows_refl|]. intros i Hi. lia.
  - obreak H. destruct (alloc_slot_grows bi m a _ HS E) as [S1 [G1 N1]]. destruct (IH (S from) a S1 H) as [S2 [G2 N2]].
    split; [exact S2|]. split; [eapply grows_trans; eassumption|]. intros i Hi.
    destruct (Nat.eq_dec i from) as [->|]; [apply G2; exact N1|apply N2; lia].
Qed.

Lemma new_into (m : nmap) : into m (new_bundle dim).
Proof. intros i j H. cbn [slots new_bundle] in H. apply nth_error_In, repeat_spec in H. discriminate. Qed.

Lemma getAllocate_grows (bi : idx) (m m' : nmap) : sound m -> void m \/ filled m ->
  getAllocate default bd bb dim Dynamic amin amax m bi = Ok m' -> sound m' /\ filled m' /\ grows m m'.
Proof.
  intros HS HV H. unfold getAllocate in H. obreak H. destruct a as [b|].
  - injection H as <-. split; [exact HS|]. split; [|apply grows_refl]. destruct HV as [[V _]|F]; [|exact F]. exfalso. exact (get_rooted _ _ _ E V).
  - obreak H. obreak H. injection H as <-. pose proof (insert_rooted _ _ _ _ _ _ E0) as Ra.
    assert (G0 : grows m (set_bundles bd bb m a)) by (split; [intros _; exact Ra|split; [intros i Hi; exact Hi|reflexivity]]).
    assert (S0 : sound (set_bundles bd bb m a)).
    { unfold sound. cbn [bundles set_bundles]. eapply (tall_insert merge_bundle dim); [|apply (tall_mono _ _ _ (fun v => into_mono _ _ v G0) HS)|apply new_into|exact E0].
      intros u v Hu. exact Hu. }
    destruct (alloc_slots_grow bi _ 0 _ _ S0 E1) as [S1 [G1 N1]].
    assert (G2 : grows m a0) by (eapply grows_trans; eassumption).
    split; [exact S1|]. split; [|exact G2]. split; [apply G1; exact Ra|]. intros i Hi. apply N1. lia.
Qed.

Lemma modify_slot_grows (bi : idx) (f : P -> P) (m m' : nmap) (i : nat) : sound m ->
  modify_slot bd bb bi f m i = Ok m' -> sound m' /\ grows m m'.
Proof.
  intros HS H. unfold modify_slot in H. obreak H. destruct a as [b|]; [|discriminate].
  destruct (nth_error (slots b) i) as [[j|]|]; try discriminate. obreak H. obreak H.
  destruct (set_store_grows _ _ _ _ (modify_rooted _ _ _ _ E1) H) as [G [_ EB]]. split; [|exact G].
  unfold sound. rewrite EB. eapply tall_mono; [|exact HS]. intros u. apply into_mono. exact G.
Qed.
Lemma modify_slots_grow (bi : idx) (f : P -> P) (l : list nat) (m m' : nmap) : sound m ->
  ofold (modify_slot bd bb bi f) l m = Ok m' -> sound m' /\ grows m m'.
Proof.
  revert m. induction l as [|i l IH]; intros m HS H; cbn [ofold] in H.
  - injection H as <-. split; [exact HS|apply grows_refl].
  - obreak H. destruct (modify_slot_grows bi f m a i HS E) as [S1 G1]. destruct (IH a S1 H) as [S2 G2]. split; [exact S2|]. eapply grows_trans; eassumption.
Qed.

(** Nothing stored, or everything has a root. *)
Definition settled (m : nmap) : Prop := sound m /\ length (stores m) = bin_count dim /\ (void m \/ filled m).
Lemma neighbours_settled (bi : idx) (l : list idx) (m m' : nmap) : settled m -> filled m ->
  ofold (alloc_neighbour default bd bb dim Dynamic amin amax bi) l m = Ok m' -> settled m' /\ filled m'.
Proof.
  revert m. induction l as [|o l IH]; intros m HS HF H; cbn [ofold] in H.
  - injection H as <-. auto.
  - obreak H. unfold alloc_neighbour in E. cbn [valid] in E. destruct HS as [S0 [L0 V0]].
    destruct (getAllocate_grows _ _ _ S0 V0 E) as [S1 [F1 G1]].
    refine (IH a _ F1 H). split; [exact S1|]. split; [rewrite (proj2 (proj2 G1)); exact L0|right; exact F1].
Qed.
Lemma expand_one_settled (bi : idx) (m m' : nmap) : settled m ->
  allocatePartiallyAllocatedBundle default bd bb dim Dynamic amin amax expandDistribution offsets m bi = Ok m' -> settled m'.
Proof.
  intros HS H. unfold allocatePartiallyAllocatedBundle in H. obreak H. destruct a as [b|]; [|discriminate].
  destruct (expand b); [|injection H as <-; exact HS]. obreak H. destruct a; [|injection H as <-; exact HS].
  obreak H. obreak H. injection H as <-.
  assert (HF : filled m) by (destruct HS as [_ [_ [[V _]|F]]]; [exfalso; exact (get_rooted _ _ _ E V)|exact F]).
  destruct (neighbours_settled bi offsets m a HS HF E1) as [[S1 [L1 _]] [F1 F2]].
  pose proof (modify_rooted _ _ _ _ E2) as R.
  assert (G : grows a (set_bundles bd bb a a0)) by (split; [intros _; exact R|split; [intros i Hi; exact Hi|reflexivity]]).
  split; [|split; [exact L1|right; split; [exact R|exact F2]]].
  unfold sound. cbn [bundles set_bundles]. eapply (tall_modify (into (set_bundles bd bb a a0))); [|eapply tall_mono; [|exact S1]|exact E2].
  - intros u Hu. exact Hu.
  - intros u. apply into_mono. exact G.
Qed.

Lemma act_settled (m m' : nmap) (a : map_action (P:=P)) : settled m ->
  act default bd bb dim Dynamic amin amax expandDistribution offsets m a = Ok m' -> settled m'.
Proof.
  intros HS H. destruct a as [bi f|bi|]; cbn [act] in H.
  - unfold modify_bundle in H. obreak H. destruct HS as [S0 [L0 V0]].
    destruct (getAllocate_grows _ _ _ S0 V0 E) as [S1 [F1 G1]]. destruct (modify_slots_grow bi f _ _ _ S1 H) as [S2 G2].
    split; [exact S2|]. split; [rewrite (proj2 (proj2 G2)), (proj2 (proj2 G1)); exact L0|right; exact (filled_mono _ _ G2 F1)].
  - unfold getDistributionBundle in H. cbn [valid] in H. obreak H. injection H as <-. obreak E. injection E as <-. cbn [fst].
    destruct HS as [S0 [L0 V0]]. destruct (getAllocate_grows _ _ _ S0 V0 E0) as [S1 [F1 G1]].
    split; [exact S1|]. split; [rewrite (proj2 (proj2 G1)); exact L0|right; exact F1].
  - unfold allocatePartiallyAllocatedBundles in H. obreak H. clear E. revert m HS H. induction (map fst a) as [|i l IH]; intros m HS H; cbn [ofold] in H.
    + injection H as <-. exact HS.
    + obreak H. apply (IH a0); [exact (expand_one_settled i m a0 HS E)|exact H].
Qed.
End Roots.

(** A map whose arrays of distributions are smaller behaves like the original as long as all cells in use are
    inside of both. *)
From Verif Require Import Base SeqModel SeqFacts IndexModel IndexFacts OctreeSpec MapModel BackendModel.
Open Scope Z_scope.

Lemma assoc_set_in {V : Type} (l : list (idx * V)) (i : idx) (v : V) (e : idx * V) :
  In e (assoc_set l i v) -> e = (i, v) \/ In e l.
Proof.
  induction l as [|[j w] l IH]; cbn [assoc_set]; [intros [<-|[]]; left; reflexivity|].
  destruct (idx_eqb_spec j i) as [->|Hj]; cbn [In]; [intuition congruence|].
  intros [<-|H]; [right; left; reflexivity|]. destruct (IH H); auto.
Qed.
Lemma assoc_some_in {V : Type} (l : list (idx * V)) (i : idx) (v : V) : assoc l i = Some v -> In (i, v) l.
Proof.
  induction l as [|[j w] l IH]; cbn [assoc]; [discriminate|].
  destruct (idx_eqb_spec j i) as [->|Hj]; [intros E; left; congruence|right; auto].
Qed.

Section Narrow.
Context {P : Type}.
Variable default : P.
Variable mergeP : P -> P -> P.
Variable dim : nat.
Variable amin amax : idx -> idx -> idx.
Variable expandD : P -> bool.
Variable offsets : list idx.
Notation bd := (array_backend mergeP).
Notation bb := (array_backend merge_bundle).
Notation map_t := (@ndmap P bd bb).
Notation n := (bin_count dim).
(** Cells that both maps can store. *)
Variable G : nat -> idx -> Prop.
(** Bundles that may be allocated, and their cells. *)
Variable ok : idx -> Prop.
Hypothesis ok_good : forall bi, ok bi -> forall i, (i < n)%nat -> G i (generate_index bi i).

Definition rel (i : nat) (s s' : arr P) : Prop :=
  a_cells s' = a_cells s /\ a_offset s' = a_offset s /\
  (forall j, G i j -> arr_inside (a_size s') (a_offset s') j = true).
Definition goodb (b : bundle) : Prop := forall i j, nth_error (slots b) i = Some (Some j) -> G i j.
Definition sim (m m' : map_t) : Prop :=
  bundles m' = bundles m /\ min_bi m' = min_bi m /\ max_bi m' = max_bi m /\
  (forall i s, nth_error (stores m) i = Some s -> exists s', nth_error (stores m') i = Some s' /\ rel i s s') /\
  (forall bi b, In (bi, b) (a_cells (bundles m)) -> goodb b).

Lemma sim_get (i : nat) (s s' : arr P) (j : idx) (o : option P) :
  rel i s s' -> G i j -> bget bd s j = Ok o -> bget bd s' j = Ok o.
Proof.
  intros [A [_ C]] Hj. cbn [array_backend bget]. rewrite (C j Hj), A.
  destruct (arr_inside (a_size s) (a_offset s) j); [auto|discriminate].
Qed.

Lemma rel_set (i : nat) (s s' : arr P) (j : idx) (v : P) : rel i s s' -> rel i (arr_set s j v) (arr_set s' j v).
Proof. intros [A [B C]]. split; [|split]; cbn [arr_set a_cells a_offset a_size]; [rewrite A; reflexivity|exact B|exact C]. Qed.

Lemma sim_ins (i : nat) (s s' s1 : arr P) (j : idx) (v : P) :
  rel i s s' -> G i j -> bins bd s j v = Ok s1 -> exists s1', bins bd s' j v = Ok s1' /\ rel i s1 s1'.
Proof.
  intros R Hj. pose proof R as [A [_ C]]. cbn [array_backend bins]. rewrite (C j Hj), A.
  destruct (arr_inside (a_size s) (a_offset s) j); [|discriminate].
  intros E. injection E as <-. eexists. split; [reflexivity|]. apply rel_set, R.
Qed.
Lemma sim_mod (i : nat) (s s' s1 : arr P) (j : idx) (f : P -> P) :
  rel i s s' -> G i j -> bmod bd s j f = Ok s1 -> exists s1', bmod bd s' j f = Ok s1' /\ rel i s1 s1'.
Proof.
  intros R Hj. pose proof R as [A [_ C]]. cbn [array_backend bmod]. rewrite (C j Hj), A.
  destruct (arr_inside (a_size s) (a_offset s) j); [|discriminate].
  destruct (assoc (a_cells s) j) as [v|]; [|discriminate].
  intros E. injection E as <-. eexists. split; [reflexivity|]. apply rel_set, R.
Qed.

Lemma sim_store (m m' : map_t) (i : nat) (s : arr P) :
  sim m m' -> get_store bd bb m i = Ok s -> exists s', get_store bd bb m' i = Ok s' /\ rel i s s'.
Proof.
  intros [_ [_ [_ [H _]]]] E. unfold get_store in *. destruct (nth_error (stores m) i) as [x|] eqn:Ex; [|discriminate].
  injection E as <-. destruct (H i x Ex) as [s' [-> R]]. eauto.
Qed.
Lemma sim_set (m m' m1 : map_t) (i : nat) (s s' : arr P) :
  sim m m' -> rel i s s' -> set_store bd bb m i s = Ok m1 -> exists m1', set_store bd bb m' i s' = Ok m1' /\ sim m1 m1'.
Proof.
  intros [A [B [C [D F]]]] R E. unfold set_store in *. destruct (upd (stores m) i s) as [l|] eqn:El; [|discriminate].
  injection E as <-.
  assert (Hi : (i < length (stores m'))%nat).
  { assert (Hi : nth_error (stores m) i <> None).
    { apply nth_error_Some. apply Nat.nle_gt. intros Hge. revert i El Hge R. clear.
      induction (stores m) as [|x q IH]; intros i El Hge R; [discriminate|]. destruct i as [|i]; cbn [length] in Hge; [lia|].
      cbn [upd] in El. destruct (upd q i s) as [q'|] eqn:Eq; [|discriminate].
      assert (Hlt : (i < length q)%nat).
      { clear - Eq. revert i q' Eq. induction q as [|y q IH]; intros i q' E; [discriminate|]. destruct i; cbn [length]; [lia|].
        cbn [upd] in E. destruct (upd q i s) eqn:E1; [|discriminate]. specialize (IH i l E1). lia. }
      lia. }
    destruct (nth_error (stores m) i) as [x|] eqn:Ex; [|contradiction]. destruct (D i x Ex) as [y [Ey _]].
    apply nth_error_Some. congruence. }
  destruct (upd_some (stores m') i s' Hi) as [l' El']. rewrite El'. eexists. split; [reflexivity|].
  split; [exact A|]. split; [exact B|]. split; [exact C|]. split; [|exact F]. cbn [stores].
  intros k x Ex. rewrite (upd_nth_error _ _ _ k _ El) in Ex. rewrite (upd_nth_error _ _ _ k _ El').
  destruct (Nat.eqb_spec i k) as [<-|Hne]; [injection Ex as <-; eauto|apply D; exact Ex].
Qed.

Lemma sim_bundle_good (m m' : map_t) (bi : idx) (b : bundle) : sim m m' -> bget bb (bundles m) bi = Ok (Some b) -> goodb b.
Proof.
  intros [_ [_ [_ [_ H]]]] E. cbn [array_backend bget] in E.
  destruct (arr_inside _ _ bi); [|discriminate]. injection E as E. apply assoc_some_in in E. apply (H bi b E).
Qed.
Lemma sim_bundles (m m' : map_t) (bs : arr bundle) : sim m m' ->
  (forall bi b, In (bi, b) (a_cells bs) -> goodb b) -> sim (set_bundles bd bb m bs) (set_bundles bd bb m' bs).
Proof. intros [A [B [C [D F]]]] H. split; [reflexivity|]. split; [exact B|]. split; [exact C|]. split; [exact D|exact H]. Qed.

Lemma bins_good (bs bs' : arr bundle) (bi : idx) (b : bundle) :
  (forall bi b, In (bi, b) (a_cells bs) -> goodb b) -> assoc (a_cells bs) bi = None -> goodb b ->
  bins bb bs bi b = Ok bs' -> forall bi b, In (bi, b) (a_cells bs') -> goodb b.
Proof.
  intros H Hn Hb E. cbn [array_backend bins] in E. destruct (arr_inside _ _ bi); [|discriminate]. injection E as <-.
  rewrite Hn. intros k b' Hin. cbn [arr_set a_cells] in Hin. apply assoc_set_in in Hin. destruct Hin as [E|Hin].
  - injection E as -> ->. exact Hb.
  - apply (H k b' Hin).
Qed.
Lemma bmod_good (bs bs' : arr bundle) (bi : idx) (f : bundle -> bundle) :
  (forall bi b, In (bi, b) (a_cells bs) -> goodb b) -> (forall b, goodb b -> goodb (f b)) ->
  bmod bb bs bi f = Ok bs' -> forall bi b, In (bi, b) (a_cells bs') -> goodb b.
Proof.
  intros H Hf E. cbn [array_backend bmod] in E. destruct (arr_inside _ _ bi); [|discriminate].
  destruct (assoc (a_cells bs) bi) as [b0|] eqn:E0; [|discriminate]. injection E as <-.
  intros k b' Hin. cbn [arr_set a_cells] in Hin. apply assoc_set_in in Hin. destruct Hin as [E|Hin].
  - injection E as -> ->. apply Hf. apply assoc_some_in in E0. apply (H bi b0 E0).
  - apply (H k b' Hin).
Qed.

Lemma sim_fold {A : Type} (f : map_t -> A -> outcome map_t) (Q : A -> Prop) :
  (forall x m m' m1, Q x -> sim m m' -> f m x = Ok m1 -> exists m1', f m' x = Ok m1' /\ sim m1 m1') ->
  forall l m m' m1, Forall Q l -> sim m m' -> ofold f l m = Ok m1 -> exists m1', ofold f l m' = Ok m1' /\ sim m1 m1'.
Proof.
  intros Hf l. induction l as [|x l IH]; intros m m' m1 HQ S E; cbn [ofold] in *.
  - injection E as <-. eauto.
  - inversion HQ as [|? ? Hx Hl]; subst. destruct (f m x) as [m2| |] eqn:E2; try discriminate. cbn [obind] in E.
    destruct (Hf x m m' m2 Hx S E2) as [m2' [-> S2]]. cbn [obind]. apply (IH m2 m2' m1 Hl S2 E).
Qed.

Lemma sim_alloc_slot (bi : idx) (ij : nat * idx) (m m' m1 : map_t) :
  G (fst ij) (snd ij) -> sim m m' -> alloc_slot default bd bb bi m ij = Ok m1 ->
  exists m1', alloc_slot default bd bb bi m' ij = Ok m1' /\ sim m1 m1'.
Proof.
  destruct ij as [i j]. cbn [fst snd]. intros Hg S. unfold alloc_slot. rewrite (proj1 S).
  destruct (bget bb (bundles m) bi) as [[b|]| |] eqn:Eb; cbn [obind]; try discriminate.
  destruct (nth_error (slots b) i) as [[k|]|]; try discriminate; [intros E; injection E as <-; eauto|].
  intros E. destruct (get_store bd bb m i) as [s| |] eqn:Es; try discriminate. cbn [obind] in E.
  destruct (sim_store m m' i s S Es) as [s' [-> R]]. cbn [obind].
  destruct (alloc_dist default bd s j) as [s1| |] eqn:E1; try discriminate. cbn [obind] in E.
  assert (H1 : exists s1', alloc_dist default bd s' j = Ok s1' /\ rel i s1 s1').
  { unfold alloc_dist in *. destruct (bget bd s j) as [o| |] eqn:Eo; try discriminate.
    rewrite (sim_get i s s' j o R Hg Eo). cbn [obind] in *. destruct o as [v|]; [injection E1 as <-; eauto|].
    apply (sim_ins i s s' s1 j default R Hg E1). }
  destruct H1 as [s1' [-> R1]]. cbn [obind].
  destruct (set_store bd bb m i s1) as [m2| |] eqn:E2; try discriminate. cbn [obind] in E.
  destruct (sim_set m m' m2 i s1 s1' S R1 E2) as [m2' [-> S2]]. cbn [obind].
  rewrite (proj1 S2). destruct (bmod bb (bundles m2) bi (set_slot i j)) as [bs| |] eqn:E3; try discriminate.
  cbn [obind] in *. injection E as <-. eexists. split; [reflexivity|]. apply sim_bundles; [exact S2|].
  destruct S2 as [_ [_ [_ [_ F2]]]]. apply (bmod_good (bundles m2) bs bi (set_slot i j)); [exact F2| |exact E3].
  intros b0 Hb0 k x Hk. unfold set_slot in Hk. cbn [slots] in Hk.
  destruct (upd (slots b0) i (Some j)) as [l|] eqn:El; [|apply Hb0; exact Hk].
  rewrite (upd_nth_error _ _ _ k _ El) in Hk. destruct (Nat.eqb_spec i k) as [<-|]; [|apply Hb0; exact Hk].
  injection Hk as <-. exact Hg.
Qed.

Lemma sim_update (m m' : map_t) (bi : idx) : sim m m' ->
  sim (updateIndices bd bb Static amin amax m bi) (updateIndices bd bb Static amin amax m' bi).
Proof. exact (fun S => S). Qed.

Lemma sim_alloc (bi : idx) (m m' m1 : map_t) :
  ok bi -> sim m m' -> getAllocate default bd bb dim Static amin amax m bi = Ok m1 ->
  exists m1', getAllocate default bd bb dim Static amin amax m' bi = Ok m1' /\ sim m1 m1'.
Proof.
  intros Hok S. unfold getAllocate. rewrite (proj1 S).
  destruct (bget bb (bundles m) bi) as [[b|]| |] eqn:Eb; cbn [obind]; try discriminate; [intros E; injection E as <-; eauto|].
  destruct (bins bb (bundles m) bi (new_bundle dim)) as [bs| |] eqn:E1; cbn [obind]; try discriminate.
  intros E. destruct (ofold _ _ (set_bundles bd bb m bs)) as [m2| |] eqn:E2; try discriminate. cbn [obind] in E. injection E as <-.
  destruct (sim_fold (alloc_slot default bd bb bi) (fun ij => G (fst ij) (snd ij)) ltac:(intros; eapply sim_alloc_slot; eassumption)
              (apply_indices n bi) (set_bundles bd bb m bs) (set_bundles bd bb m' bs) m2) as [m2' [E2' S2]].
  - rewrite apply_indices_spec. apply Forall_forall. intros [i j] Hin. apply in_map_iff in Hin. destruct Hin as [k [E Hk]].
    apply in_seq in Hk. injection E as <- <-. cbn [fst snd]. apply ok_good; [exact Hok|lia].
  - apply sim_bundles; [exact S|]. apply (bins_good (bundles m) bs bi (new_bundle dim)); [apply S| | |exact E1].
    + cbn [array_backend bget] in Eb. destruct (arr_inside _ _ bi); [congruence|discriminate].
    + intros i j Hij. cbn [new_bundle slots] in Hij. apply nth_error_In in Hij. apply repeat_spec in Hij. discriminate.
  - exact E2.
  - rewrite E2'. cbn [obind]. eexists. split; [reflexivity|]. apply sim_update, S2.
Qed.

Lemma sim_valid (m m' : map_t) (bi : idx) : sim m m' -> valid bd bb dim Static m' bi = valid bd bb dim Static m bi.
Proof. intros [_ [A [B _]]]. unfold valid. rewrite A, B. reflexivity. Qed.

Lemma sim_modify_slot (bi : idx) (f : P -> P) (i : nat) (m m' m1 : map_t) :
  sim m m' -> modify_slot bd bb bi f m i = Ok m1 -> exists m1', modify_slot bd bb bi f m' i = Ok m1' /\ sim m1 m1'.
Proof.
  intros S. unfold modify_slot. rewrite (proj1 S).
  destruct (bget bb (bundles m) bi) as [[b|]| |] eqn:Eb; cbn [obind]; try discriminate.
  destruct (nth_error (slots b) i) as [[j|]|] eqn:Ej; try discriminate.
  pose proof (sim_bundle_good m m' bi b S Eb i j Ej) as Hg.
  intros E. destruct (get_store bd bb m i) as [s| |] eqn:Es; try discriminate. cbn [obind] in E.
  destruct (sim_store m m' i s S Es) as [s' [-> R]]. cbn [obind].
  destruct (bmod bd s j f) as [s1| |] eqn:E1; try discriminate. cbn [obind] in E.
  destruct (sim_mod i s s' s1 j f R Hg E1) as [s1' [-> R1]]. cbn [obind].
  apply (sim_set m m' m1 i s1 s1' S R1 E).
Qed.

Lemma sim_modify_bundle (bi : idx) (f : P -> P) (m m' m1 : map_t) :
  ok bi -> sim m m' -> modify_bundle default bd bb dim Static amin amax m bi f = Ok m1 ->
  exists m1', modify_bundle default bd bb dim Static amin amax m' bi f = Ok m1' /\ sim m1 m1'.
Proof.
  intros Hok S. unfold modify_bundle. intros E.
  destruct (getAllocate _ _ _ _ _ _ _ m bi) as [m2| |] eqn:E2; try discriminate. cbn [obind] in E.
  destruct (sim_alloc bi m m' m2 Hok S E2) as [m2' [-> S2]]. cbn [obind].
  apply (sim_fold (modify_slot bd bb bi f) (fun _ => True)) with (m := m2); [|apply Forall_forall; auto|exact S2|exact E].
  intros; eapply sim_modify_slot; eassumption.
Qed.

Lemma sim_expand_from (m m' : map_t) (sl : list (option idx)) : sim m m' -> forall i e,
  (forall k j, nth_error sl k = Some (Some j) -> G (i + k)%nat j) ->
  expandBundle_from bd bb expandD m i sl = Ok e -> expandBundle_from bd bb expandD m' i sl = Ok e.
Proof.
  intros S. induction sl as [|s sl IH]; intros i e Hg E; cbn [expandBundle_from] in *; [exact E|].
  destruct (slot_value bd bb m i s) as [d| |] eqn:Ed; try discriminate.
  assert (Hd : slot_value bd bb m' i s = Ok d).
  { unfold slot_value in *. destruct s as [j|]; [|exact Ed].
    destruct (get_store bd bb m i) as [x| |] eqn:Ex; try discriminate.
    destruct (sim_store m m' i x S Ex) as [x' [-> R]]. cbn [obind] in *.
    destruct (bget bd x j) as [o| |] eqn:Eo; try discriminate.
    rewrite (sim_get i x x' j o R); [exact Ed| |exact Eo]. specialize (Hg 0%nat j eq_refl). rewrite Nat.add_0_r in Hg. exact Hg. }
  rewrite Hd. cbn [obind] in *.
  assert (Hrec : forall e, expandBundle_from bd bb expandD m (Datatypes.S i) sl = Ok e ->
                           expandBundle_from bd bb expandD m' (Datatypes.S i) sl = Ok e).
  { intros e'. apply IH. intros k j Hk. replace (Datatypes.S i + k)%nat with (i + Datatypes.S k)%nat by lia. apply Hg. exact Hk. }
  destruct d as [v|]; [destruct (expandD v); [exact E|]|]; apply Hrec; exact E.
Qed.

(** The neighbours that [valid] accepts may be allocated. *)
Variable mn mx : idx.
Hypothesis valid_ok : forall m bi o, min_bi m = mn -> max_bi m = mx -> length bi = dim -> In o offsets ->
  valid bd bb dim Static m (idx_add bi o) = true -> ok (idx_add bi o).
Hypothesis valid_touch : forall m bi, min_bi m = mn -> max_bi m = mx -> length bi = dim ->
  valid bd bb dim Static m bi = true -> ok bi.

Definition keeps (m : map_t) : Prop := min_bi m = mn /\ max_bi m = mx /\
  (forall bi b, In (bi, b) (a_cells (bundles m)) -> length bi = dim).

(** The same with the range and the lengths of the keys. *)
Hypothesis ok_len : forall bi, ok bi -> length bi = dim.

Lemma set_store_keeps (m m1 : map_t) (i : nat) (s : arr P) : keeps m -> set_store bd bb m i s = Ok m1 -> keeps m1.
Proof. intros K E. unfold set_store in E. destruct (upd _ _ _); [|discriminate]. injection E as <-. exact K. Qed.
Lemma bmod_keys (bs bs' : arr bundle) (bi : idx) (f : bundle -> bundle) :
  (forall bi b, In (bi, b) (a_cells bs) -> length bi = dim) -> bmod bb bs bi f = Ok bs' ->
  forall bi b, In (bi, b) (a_cells bs') -> length bi = dim.
Proof.
  intros H E. cbn [array_backend bmod] in E. destruct (arr_inside _ _ bi); [|discriminate].
  destruct (assoc (a_cells bs) bi) as [b0|] eqn:E0; [|discriminate]. injection E as <-.
  intros k b' Hin. cbn [arr_set a_cells] in Hin. apply assoc_set_in in Hin. destruct Hin as [E|Hin].
  - injection E as -> ->. apply assoc_some_in in E0. apply (H bi b0 E0).
  - apply (H k b' Hin).
Qed.
Lemma fold_keeps {A : Type} (f : map_t -> A -> outcome map_t) (l : list A) :
  (forall x m m1, In x l -> keeps m -> f m x = Ok m1 -> keeps m1) ->
  forall m m1, keeps m -> ofold f l m = Ok m1 -> keeps m1.
Proof.
  induction l as [|x l IH]; intros Hf m m1 K E; cbn [ofold] in E; [injection E as <-; exact K|].
  destruct (f m x) as [m2| |] eqn:E2; try discriminate. cbn [obind] in E.
  apply (IH (fun y a b Hy => Hf y a b (or_intror Hy)) m2 m1); [|exact E]. apply (Hf x m m2 (or_introl eq_refl) K E2).
Qed.
Lemma alloc_slot_keeps (bi : idx) (ij : nat * idx) (m m1 : map_t) :
  keeps m -> alloc_slot default bd bb bi m ij = Ok m1 -> keeps m1.
Proof.
  destruct ij as [i j]. intros K. unfold alloc_slot.
  destruct (bget bb (bundles m) bi) as [[b|]| |]; cbn [obind]; try discriminate.
  destruct (nth_error (slots b) i) as [[k|]|]; try discriminate; [intros E; injection E as <-; exact K|].
  destruct (get_store bd bb m i) as [s| |]; cbn [obind]; try discriminate.
  destruct (alloc_dist default bd s j) as [s1| |]; cbn [obind]; try discriminate.
  destruct (set_store bd bb m i s1) as [m2| |] eqn:E2; cbn [obind]; try discriminate.
  pose proof (set_store_keeps m m2 i s1 K E2) as [A [B C]].
  destruct (bmod bb (bundles m2) bi (set_slot i j)) as [bs| |] eqn:E3; cbn [obind]; try discriminate.
  intros E. injection E as <-. split; [exact A|]. split; [exact B|]. apply (bmod_keys (bundles m2) bs bi _ C E3).
Qed.
Lemma alloc_keeps (bi : idx) (m m1 : map_t) :
  length bi = dim -> keeps m -> getAllocate default bd bb dim Static amin amax m bi = Ok m1 -> keeps m1.
Proof.
  intros Hok K. unfold getAllocate. destruct (bget bb (bundles m) bi) as [[b|]| |]; cbn [obind]; try discriminate;
    [intros E; injection E as <-; exact K|].
  destruct (bins bb (bundles m) bi (new_bundle dim)) as [bs| |] eqn:E1; cbn [obind]; try discriminate.
  destruct (ofold _ _ (set_bundles bd bb m bs)) as [m2| |] eqn:E2; cbn [obind]; try discriminate.
  intros E. injection E as <-. cbn [updateIndices].
  revert E2. apply fold_keeps; [intros x a b _; apply alloc_slot_keeps|].
  destruct K as [A [B C]]. split; [exact A|]. split; [exact B|]. cbn [set_bundles bundles].
  cbn [array_backend bins] in E1. destruct (arr_inside _ _ bi); [|discriminate]. injection E1 as <-.
  intros k b Hin. cbn [arr_set a_cells] in Hin. apply assoc_set_in in Hin. destruct Hin as [E|Hin]; [congruence|apply (C k b Hin)].
Qed.
Lemma modify_slot_keeps (bi : idx) (f : P -> P) (i : nat) (m m1 : map_t) :
  keeps m -> modify_slot bd bb bi f m i = Ok m1 -> keeps m1.
Proof.
  intros K. unfold modify_slot. destruct (bget bb (bundles m) bi) as [[b|]| |]; cbn [obind]; try discriminate.
  destruct (nth_error (slots b) i) as [[j|]|]; try discriminate.
  destruct (get_store bd bb m i) as [s| |]; cbn [obind]; try discriminate.
  destruct (bmod bd s j f) as [s1| |]; cbn [obind]; try discriminate. apply set_store_keeps, K.
Qed.

Lemma sim_neighbour (bi o : idx) (m m' m1 : map_t) :
  length bi = dim -> In o offsets -> keeps m -> sim m m' ->
  alloc_neighbour default bd bb dim Static amin amax bi m o = Ok m1 ->
  keeps m1 /\ exists m1', alloc_neighbour default bd bb dim Static amin amax bi m' o = Ok m1' /\ sim m1 m1'.
Proof.
  intros HL Ho K S. unfold alloc_neighbour. rewrite (sim_valid m m' _ S).
  destruct (valid bd bb dim Static m (idx_add bi o)) eqn:V; [|intros E; injection E as <-; eauto].
  destruct K as [A [B C]]. pose proof (valid_ok m bi o A B HL Ho V) as Hok. intros E. split.
  - apply (alloc_keeps _ m m1 (ok_len _ Hok) (conj A (conj B C)) E).
  - apply (sim_alloc _ m m' m1 Hok S E).
Qed.

Lemma sim_fold_keeps {A : Type} (f : map_t -> A -> outcome map_t) (Q : A -> Prop) :
  (forall x m m' m1, Q x -> keeps m -> sim m m' -> f m x = Ok m1 -> keeps m1 /\ exists m1', f m' x = Ok m1' /\ sim m1 m1') ->
  forall l m m' m1, Forall Q l -> keeps m -> sim m m' -> ofold f l m = Ok m1 ->
    keeps m1 /\ exists m1', ofold f l m' = Ok m1' /\ sim m1 m1'.
Proof.
  intros Hf l. induction l as [|x l IH]; intros m m' m1 HQ K S E; cbn [ofold] in *.
  - injection E as <-. eauto.
  - inversion HQ as [|? ? Hx Hl]; subst. destruct (f m x) as [m2| |] eqn:E2; try discriminate. cbn [obind] in E.
    destruct (Hf x m m' m2 Hx K S E2) as [K2 [m2' [-> S2]]]. cbn [obind]. apply (IH m2 m2' m1 Hl K2 S2 E).
Qed.

Lemma sim_complete (bi : idx) (m m' m1 : map_t) : length bi = dim -> keeps m -> sim m m' ->
  allocatePartiallyAllocatedBundle default bd bb dim Static amin amax expandD offsets m bi = Ok m1 ->
  keeps m1 /\ exists m1', allocatePartiallyAllocatedBundle default bd bb dim Static amin amax expandD offsets m' bi = Ok m1' /\ sim m1 m1'.
Proof.
  intros HL K S. unfold allocatePartiallyAllocatedBundle. rewrite (proj1 S).
  destruct (bget bb (bundles m) bi) as [[b|]| |] eqn:Eb; cbn [obind]; try discriminate.
  destruct (expand b); [|intros E; injection E as <-; eauto].
  destruct (expandBundle bd bb expandD m b) as [e| |] eqn:Ee; cbn [obind]; try discriminate.
  unfold expandBundle in *. rewrite (sim_expand_from m m' (slots b) S 0 e); [|intros k j; apply (sim_bundle_good m m' bi b S Eb)|exact Ee].
  cbn [obind]. destruct e; [|intros E; injection E as <-; eauto].
  destruct (ofold _ offsets m) as [m2| |] eqn:E2; cbn [obind]; try discriminate.
  destruct (sim_fold_keeps (alloc_neighbour default bd bb dim Static amin amax bi) (fun o => In o offsets)
              ltac:(intros; eapply sim_neighbour; eassumption) offsets m m' m2) as [K2 [m2' [E2' S2]]];
    [apply Forall_forall; auto|exact K|exact S|exact E2|].
  rewrite E2'. cbn [obind]. rewrite (proj1 S2).
  destruct (bmod bb (bundles m2) bi set_expanded) as [bs| |] eqn:E3; cbn [obind]; try discriminate.
  intros E. injection E as <-. split.
  - destruct K2 as [A [B C]]. split; [exact A|]. split; [exact B|]. apply (bmod_keys (bundles m2) bs bi _ C E3).
  - eexists. split; [reflexivity|]. apply sim_bundles; [exact S2|].
    destruct S2 as [_ [_ [_ [_ F2]]]]. apply (bmod_good (bundles m2) bs bi set_expanded); [exact F2| |exact E3]. intros b0 H0. exact H0.
Qed.

Definition act_ok (a : map_action (P:=P)) : Prop :=
  match a with Modify bi _ => ok bi | Touch bi => length bi = dim | ExpandAll => True end.

Lemma sim_act (a : map_action (P:=P)) (m m' m1 : map_t) : act_ok a -> keeps m -> sim m m' ->
  act default bd bb dim Static amin amax expandD offsets m a = Ok m1 ->
  keeps m1 /\ exists m1', act default bd bb dim Static amin amax expandD offsets m' a = Ok m1' /\ sim m1 m1'.
Proof.
  destruct a as [bi f|bi|]; cbn [act act_ok]; intros Hok K S E.
  - split; [|apply (sim_modify_bundle bi f m m' m1 Hok S E)]. unfold modify_bundle in E.
    destruct (getAllocate _ _ _ _ _ _ _ m bi) as [m2| |] eqn:E2; try discriminate. cbn [obind] in E.
    revert E. apply fold_keeps; [intros x a b _; apply modify_slot_keeps|]. apply (alloc_keeps bi m m2 (ok_len _ Hok) K E2).
  - unfold getDistributionBundle in *. rewrite (sim_valid m m' bi S).
    destruct (valid bd bb dim Static m bi) eqn:V.
    + destruct (getAllocate _ _ _ _ _ _ _ m bi) as [m2| |] eqn:E2; try discriminate. cbn [obind fst] in E. injection E as <-.
      destruct K as [A [B C]]. pose proof (valid_touch m bi A B Hok V) as Hv.
      split; [apply (alloc_keeps bi m m2 Hok (conj A (conj B C)) E2)|].
      destruct (sim_alloc bi m m' m2 Hv S E2) as [m2' [-> S2]]. cbn [obind fst]. eauto.
    + cbn [obind fst] in *. injection E as <-. eauto.
  - unfold allocatePartiallyAllocatedBundles in *. rewrite (proj1 S). cbn [array_backend btrav] in *. cbn [obind] in *.
    apply (sim_fold_keeps _ (fun bi => length bi = dim)) with (m := m); [intros; eapply sim_complete; eassumption| |exact K|exact S|exact E].
    apply Forall_forall. intros bi Hbi. apply in_map_iff in Hbi. destruct Hbi as [[k b] [<- Hin]]. cbn [fst].
    destruct K as [_ [_ C]]. apply (C k b Hin).
Qed.

Lemma sim_run (l : list (map_action (P:=P))) (m m' m1 : map_t) : Forall act_ok l -> keeps m -> sim m m' ->
  act_all default bd bb dim Static amin amax expandD offsets l m = Ok m1 ->
  keeps m1 /\ exists m1', act_all default bd bb dim Static amin amax expandD offsets l m' = Ok m1' /\ sim m1 m1'.
Proof.
  intros H K S E. unfold act_all in *. apply (sim_fold_keeps _ act_ok) with (m := m); [intros; eapply sim_act; eassumption|exact H|exact K|exact S|exact E].
Qed.
End Narrow.

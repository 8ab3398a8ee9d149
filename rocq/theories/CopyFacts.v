From Verif Require Import Base SeqModel IndexModel OctreeModel MapModel BackendModel SysModel CopyModel CopySpec HeapFacts.
Open Scope Z_scope.

Section Frame.
Context {P : Type}.
Variable default : P.
Variable bd : backend P.
Variable bb : backend pbundle.
Variable dim : nat.
Variable kd : kind.
Variable amin amax : idx -> idx -> idx.
Variable expandDistribution : P -> bool.
Variable offsets : list idx.
Notation world := (world bd bb).

(** [S]: the storages a map may write; [T]: the bundles it may write through. *)
Variable S : nat -> Prop.
Variable T : idx -> Prop.
Definition points_into (b : pbundle) : Prop := forall p, In (Some p) (pslots b) -> S (fst p).
Definition okb (i : idx) (b : pbundle) : Prop := T i -> points_into b.
Variable ball : st bb -> Prop.
Hypothesis ball_get : forall s i b, ball s -> bget bb s i = Ok (Some b) -> okb i b.
Hypothesis ball_ins : forall s i s' b, ball s -> points_into b -> bins bb s i b = Ok s' -> ball s'.
Hypothesis ball_mod : forall s i s' f, ball s -> (forall b, points_into b -> points_into (f b)) ->
  bmod bb s i f = Ok s' -> ball s'.

Definition frame (bid : nat) (w w' : world) : Prop :=
  (forall a, ~ S a -> nth_error (dstores w') a = nth_error (dstores w) a) /\
  (forall a, a <> bid -> nth_error (bstores w') a = nth_error (bstores w) a) /\
  length (dstores w') = length (dstores w) /\ length (bstores w') = length (bstores w).
Definition inv (w : world) (o : mapobj) : Prop :=
  Forall S (m_stores o) /\ forall bs, rd_b bd bb w (m_bundles o) = Ok bs -> ball bs.
Definition same_ids (o o' : mapobj) : Prop := m_stores o' = m_stores o /\ m_bundles o' = m_bundles o.

Lemma frame_refl (b : nat) (w : world) : frame b w w.
Proof. repeat split. Qed.
Lemma frame_trans (b : nat) (w1 w2 w3 : world) : frame b w1 w2 -> frame b w2 w3 -> frame b w1 w3.
Proof.
  intros [A [B [L M]]] [A' [B' [L' M']]]. split; [|split; [|split; congruence]]; intros a Ha;
    [rewrite A', A by exact Ha|rewrite B', B by exact Ha]; reflexivity.
Qed.

Lemma wr_d_frame (w w' : world) (b a : nat) (s : st bd) :
  S a -> wr_d bd bb w a s = Ok w' -> frame b w w' /\ bstores w' = bstores w.
Proof.
  unfold wr_d. intros Ha. destruct (upd (dstores w) a (Some s)) as [l|] eqn:E; [|discriminate].
  intros H; injection H as <-. split; [|reflexivity]. split; [|split; [reflexivity|split; [exact (upd_length _ _ _ _ E)|reflexivity]]].
  intros a' Ha'. cbn [dstores]. apply (nth_error_upd_other _ _ _ _ _ E). intros ->. contradiction.
Qed.
Lemma wr_b_frame (w w' : world) (b : nat) (s : st bb) :
  wr_b bd bb w b s = Ok w' -> frame b w w' /\ rd_b bd bb w' b = Ok s.
Proof.
  unfold wr_b. destruct (upd (bstores w) b (Some s)) as [l|] eqn:E; [|discriminate].
  intros H; injection H as <-. split; [split; [reflexivity|split; [|split; [reflexivity|exact (upd_length _ _ _ _ E)]]]|].
  - intros a' Ha'. cbn [bstores]. apply (nth_error_upd_other _ _ _ _ _ E). congruence.
  - unfold rd_b. cbn [bstores]. rewrite (nth_error_upd_same _ _ _ _ E). reflexivity.
Qed.
Lemma rd_b_same (w w' : world) (b : nat) : bstores w' = bstores w -> rd_b bd bb w' b = rd_b bd bb w b.
Proof. unfold rd_b. intros ->. reflexivity. Qed.

Lemma set_slot_into (i : nat) (p : nat * idx) (b : pbundle) : S (fst p) -> points_into b -> points_into (pset_slot i p b).
Proof.
  intros Hp Hb q. unfold pset_slot. cbn [pslots]. destruct (upd (pslots b) i (Some p)) as [l|] eqn:E; [|apply Hb].
  intros Hq. apply In_nth_error in Hq. destruct Hq as [n Hn]. rewrite (upd_nth_error _ _ _ n _ E) in Hn.
  destruct (Nat.eqb i n); [injection Hn as <-; exact Hp|]. apply Hb. apply nth_error_In in Hn. exact Hn.
Qed.

Lemma alloc_slot_frame (o : mapobj) (bi : idx) (w w' : world) (ij : nat * idx) :
  inv w o -> palloc_slot default bd bb o bi w ij = Ok w' -> frame (m_bundles o) w w' /\ inv w' o.
Proof.
  intros [Hs Hb] H. unfold palloc_slot in H. destruct ij as [i j]. obreak H. obreak H.
  destruct a0 as [b|]; [|discriminate]. destruct (nth_error (pslots b) i) as [[p|]|] eqn:Es; [|idtac|discriminate].
  { injection H as <-. split; [apply frame_refl|split; assumption]. }
  destruct (nth_error (m_stores o) i) as [a'|] eqn:Ea; [|discriminate].
  assert (Sa : S a'). { rewrite Forall_forall in Hs. apply Hs. apply nth_error_In in Ea. exact Ea. }
  obreak H. obreak H. obreak H. obreak H.
  destruct (wr_d_frame _ _ (m_bundles o) _ _ Sa E3) as [F1 B1].
  destruct (wr_b_frame _ _ _ _ H) as [F2 R2]. split; [eapply frame_trans; eassumption|].
  split; [exact Hs|]. intros bs Hbs. rewrite R2 in Hbs. injection Hbs as <-.
  eapply ball_mod; [apply Hb; exact E| |exact E4]. intros b0 H0. apply set_slot_into; [exact Sa|exact H0].
Qed.

Lemma ofold_frame {B : Type} (f : world -> B -> outcome world) (o : mapobj) (l : list B) :
  (forall w w' x, inv w o -> f w x = Ok w' -> frame (m_bundles o) w w' /\ inv w' o) ->
  forall w w', inv w o -> ofold f l w = Ok w' -> frame (m_bundles o) w w' /\ inv w' o.
Proof.
  intros Hf. induction l as [|x l IH]; intros w w' Hi H; cbn [ofold] in H.
  - injection H as <-. split; [apply frame_refl|exact Hi].
  - obreak H. destruct (Hf _ _ _ Hi E) as [F1 I1]. destruct (IH _ _ I1 H) as [F2 I2].
    split; [eapply frame_trans; eassumption|exact I2].
Qed.

Lemma new_points : points_into (pnew_bundle dim).
Proof. intros p H. cbn in H. apply repeat_spec in H. discriminate. Qed.

Lemma getAllocate_frame (w w' : world) (o o' : mapobj) (bi : idx) :
  inv w o -> pgetAllocate default bd bb dim kd amin amax (w, o) bi = Ok (w', o') ->
  frame (m_bundles o) w w' /\ inv w' o' /\ same_ids o o'.
Proof.
  intros Hi H. unfold pgetAllocate in H. obreak H. obreak H. destruct a0 as [b|].
  { injection H as <- <-. split; [apply frame_refl|]. split; [exact Hi|split; reflexivity]. }
  obreak H. obreak H. obreak H. injection H as <- <-.
  destruct (wr_b_frame _ _ _ _ E2) as [F1 R1].
  assert (I1 : inv a1 o).
  { split; [apply Hi|]. intros bs Hbs. rewrite R1 in Hbs. injection Hbs as <-.
    eapply ball_ins; [apply Hi; exact E|exact new_points|exact E1]. }
  destruct (ofold_frame _ o _ (fun w w' x => alloc_slot_frame o bi w w' x) _ _ I1 E3) as [F2 I2].
  assert (Hid : same_ids o (pupdateIndices kd amin amax o bi)) by (unfold pupdateIndices; destruct kd; split; reflexivity).
  split; [eapply frame_trans; eassumption|]. split; [|exact Hid].
  destruct Hid as [Ha Hb]. unfold inv. rewrite Ha, Hb. exact I2.
Qed.

Lemma modify_slot_frame (o : mapobj) (bi : idx) (f : P -> P) (w w' : world) (i : nat) :
  T bi -> inv w o -> pmodify_slot bd bb o bi f w i = Ok w' -> frame (m_bundles o) w w' /\ inv w' o.
Proof.
  intros Ht [Hs Hb] H. unfold pmodify_slot in H. obreak H. obreak H. destruct a0 as [b|]; [|discriminate].
  destruct (nth_error (pslots b) i) as [[[a' j]|]|] eqn:Es; [|discriminate|discriminate].
  assert (Sa : S a').
  { apply (ball_get _ _ _ (Hb _ E) E0 Ht (a', j)). apply nth_error_In in Es. exact Es. }
  obreak H. obreak H. destruct (wr_d_frame _ _ (m_bundles o) _ _ Sa H) as [F1 B1]. split; [exact F1|].
  split; [exact Hs|]. intros bs Hbs. rewrite (rd_b_same _ _ _ B1) in Hbs. apply Hb. exact Hbs.
Qed.

Definition allowed (a : map_action (P:=P)) : Prop := match a with Modify bi _ => T bi | _ => True end.

Definition step_ok (w w' : world) (o o' : mapobj) : Prop :=
  frame (m_bundles o) w w' /\ inv w' o' /\ same_ids o o'.

Lemma step_ok_trans (w1 w2 w3 : world) (o1 o2 o3 : mapobj) : step_ok w1 w2 o1 o2 -> step_ok w2 w3 o2 o3 -> step_ok w1 w3 o1 o3.
Proof.
  intros [F1 [I1 [A1 B1]]] [F2 [I2 [A2 B2]]]. rewrite B1 in F2. split; [eapply frame_trans; eassumption|].
  split; [exact I2|]. split; congruence.
Qed.

Lemma ofold_step {B : Type} (f : world * mapobj -> B -> outcome (world * mapobj)) (l : list B) :
  (forall w w' o o' x, In x l -> inv w o -> f (w, o) x = Ok (w', o') -> step_ok w w' o o') ->
  forall w w' o o', inv w o -> ofold f l (w, o) = Ok (w', o') -> step_ok w w' o o'.
Proof.
  intros Hf. induction l as [|x l IH]; intros w w' o o' Hi H; cbn [ofold] in H.
  - injection H as <- <-. split; [apply frame_refl|]. split; [exact Hi|split; reflexivity].
  - obreak H. destruct a as [w1 o1].
    pose proof (Hf _ _ _ _ _ (or_introl eq_refl) Hi E) as S1.
    assert (S2 : step_ok w1 w' o1 o').
    { apply IH; [intros; eapply Hf; [right; eassumption|eassumption|eassumption]|apply S1|exact H]. }
    eapply step_ok_trans; eassumption.
Qed.

Lemma neighbour_frame (bi off : idx) (w w' : world) (o o' : mapobj) :
  inv w o -> palloc_neighbour default bd bb dim kd amin amax bi (w, o) off = Ok (w', o') -> step_ok w w' o o'.
Proof.
  intros Hi H. unfold palloc_neighbour in H. cbn [snd] in H.
  destruct (pvalid dim kd o (idx_add bi off)); [eapply getAllocate_frame; eassumption|].
  injection H as <- <-. split; [apply frame_refl|]. split; [exact Hi|split; reflexivity].
Qed.

Lemma expand_one_frame (bi : idx) (w w' : world) (o o' : mapobj) :
  inv w o -> pexpand_one default bd bb dim kd amin amax expandDistribution offsets (w, o) bi = Ok (w', o') -> step_ok w w' o o'.
Proof.
  intros Hi H. unfold pexpand_one in H. cbn [fst snd] in H. obreak H. obreak H.
  destruct a0 as [b|]; [|discriminate]. destruct (pexpand b).
  2:{ injection H as <- <-. split; [apply frame_refl|]. split; [exact Hi|split; reflexivity]. }
  obreak H. destruct a0.
  2:{ injection H as <- <-. split; [apply frame_refl|]. split; [exact Hi|split; reflexivity]. }
  obreak H. destruct a0 as [w1 o1].
  assert (S1 : step_ok w w1 o o1).
  { refine (ofold_step _ _ _ _ _ _ _ Hi E2). intros w2 w3 o2 o3 off _. apply neighbour_frame. }
  eapply step_ok_trans; [exact S1|]. obreak H. obreak H. obreak H. injection H as <- <-.
  destruct (wr_b_frame _ _ _ _ E5) as [F2 R2]. split; [exact F2|]. split; [|split; reflexivity].
  split; [apply S1|]. intros bs Hbs. rewrite R2 in Hbs. injection Hbs as <-.
  eapply ball_mod; [apply S1; exact E3| |exact E4]. intros b0 H0. exact H0.
Qed.

Lemma act_frame (w w' : world) (o o' : mapobj) (a : map_action (P:=P)) :
  allowed a -> inv w o ->
  pact default bd bb dim kd amin amax expandDistribution offsets (w, o) a = Ok (w', o') -> step_ok w w' o o'.
Proof.
  intros Ha Hi H. destruct a as [bi f|bi|]; cbn [pact] in H.
  - unfold pmodify_bundle in H. obreak H. destruct a as [w1 o1]. obreak H. injection H as <- <-.
    pose proof (getAllocate_frame _ _ _ _ _ Hi E) as S1.
    destruct (ofold_frame _ o1 _ (fun w w' x => modify_slot_frame o1 bi f w w' x Ha) _ _ (proj1 (proj2 S1)) E0) as [F2 I2].
    eapply step_ok_trans; [exact S1|]. split; [exact F2|]. split; [exact I2|split; reflexivity].
  - cbn [snd] in H. destruct (pvalid dim kd o bi); [eapply getAllocate_frame; eassumption|].
    injection H as <- <-. split; [apply frame_refl|]. split; [exact Hi|split; reflexivity].
  - unfold pexpand_all in H. cbn [fst snd] in H. obreak H. obreak H.
    refine (ofold_step _ _ _ _ _ _ _ Hi H). intros w1 w2 o1 o2 bi _. apply expand_one_frame.
Qed.

Lemma run_frame (l : list (map_action (P:=P))) (w w' : world) (o o' : mapobj) :
  Forall allowed l -> inv w o ->
  ofold (pact default bd bb dim kd amin amax expandDistribution offsets) l (w, o) = Ok (w', o') -> step_ok w w' o o'.
Proof.
  intros Hl. refine (ofold_step _ _ _ w w' o o'). intros w1 w2 o1 o2 a Ha Hi H. rewrite Forall_forall in Hl.
  eapply act_frame; [apply Hl; exact Ha|exact Hi|exact H].
Qed.

(** Another map that uses none of the written storages shows the same. *)
Lemma frame_view (w w' : world) (bid : nat) (o2 : mapobj) :
  frame bid w w' -> Forall (fun a => ~ S a) (m_stores o2) -> 
  forall i j, pstored bd bb w' o2 i j = pstored bd bb w o2 i j.
Proof.
  intros [F1 _] H1 i j. unfold pstored. destruct (nth_error (m_stores o2) i) as [a|] eqn:Ea; [|reflexivity].
  unfold rd_d. rewrite F1; [reflexivity|]. rewrite Forall_forall in H1. apply H1. apply nth_error_In in Ea. exact Ea.
Qed.
Lemma frame_shown (w w' : world) (bid : nat) (o2 : mapobj) :
  frame bid w w' -> m_bundles o2 <> bid ->
  (forall bs bi b p, rd_b bd bb w (m_bundles o2) = Ok bs -> bget bb bs bi = Ok (Some b) -> In (Some p) (pslots b) -> ~ S (fst p)) ->
  forall bi, pshown bd bb w' o2 bi = pshown bd bb w o2 bi.
Proof.
  intros [F1 [F2 _]] Hne Hp bi. unfold pshown.
  assert (R : rd_b bd bb w' (m_bundles o2) = rd_b bd bb w (m_bundles o2)) by (unfold rd_b; rewrite F2 by exact Hne; reflexivity).
  rewrite R. destruct (rd_b bd bb w (m_bundles o2)) as [bs| |] eqn:Eb; [|reflexivity|reflexivity]. cbn [obind].
  destruct (bget bb bs bi) as [[b|]| |] eqn:Eg; try reflexivity. cbn [obind]. f_equal.
  assert (Hq : forall p, In (Some p) (pslots b) -> ~ S (fst p)) by (intros p; apply (Hp bs bi b p eq_refl Eg)).
  clear - Hq F1. induction (pslots b) as [|[p|] sl IH]; [reflexivity| |reflexivity]. cbn [pread_all].
  assert (E : pread bd bb w' p = pread bd bb w p). { unfold pread, rd_d. rewrite F1; [reflexivity|]. apply Hq. left; reflexivity. }
  rewrite E, IH; [reflexivity|]. intros q H. apply Hq. right; exact H.
Qed.
End Frame.

(** ** All bundles in a storage *)
Section NodeAll.
Context {V : Type}.
Variable mergeV : V -> V -> V.
Variable dims : nat.
Variable Q : V -> Prop.
Hypothesis Hmerge : forall a b, Q a -> Q (mergeV a b).

Fixpoint nall (rem : nat) (nd : node V) : Prop :=
  match rem, nd with
  | Datatypes.S r, NChildren cs => forall k x, nth_error cs k = Some (Some x) -> nall r x
  | O, NData _ v => Q v
  | _, _ => True
  end.

Lemma nall_null (rem : nat) : nall rem NNull.
Proof. destruct rem; exact I. Qed.

Lemma nall_get (rem : nat) (nd : node V) (i : idx) (v : V) :
  nall rem nd -> node_get rem nd i = Ok (Some v) -> Q v.
Proof.
  revert nd; induction rem as [|r IH]; intros nd Ha H; cbn [node_get nall] in *.
  - destruct nd; try discriminate. injection H as <-. exact Ha.
  - obreak H. destruct nd as [|cs|]; try discriminate. destruct (nth_error cs a) as [[x|]|] eqn:Ex; try discriminate.
    apply (IH x); [apply (Ha a); exact Ex|exact H].
Qed.

Lemma nall_insert (rem : nat) (nd : node V) (jc : bool) (i : idx) (v : V) (res : node V * Z) :
  nall rem nd -> Q v -> node_insert mergeV dims rem nd jc i v = Ok res -> nall rem (fst res).
Proof.
  revert nd jc res; induction rem as [|r IH]; intros nd jc res Ha Hv H; cbn [node_insert] in H.
  - destruct jc; [injection H as <-; exact Hv|]. destruct nd as [| |i0 v0]; try discriminate. injection H as <-. cbn in *. apply Hmerge. exact Ha.
  - obreak H. obreak H.
    assert (Hcs : forall k x, nth_error a0 k = Some (Some x) -> nall r x).
    { destruct nd as [|cs|]; cbn [children_or_alloc] in E0; try discriminate; injection E0 as <-.
      - intros k x Hk. apply nth_error_In, repeat_spec in Hk. discriminate.
      - exact Ha. }
    destruct (nth_error a0 a) as [[x|]|] eqn:Ex; try discriminate.
    + obreak H. destruct (upd a0 a (Some (fst a1))) as [cs'|] eqn:Eu; [|discriminate]. injection H as <-. cbn [fst nall].
      intros k y Hk. rewrite (upd_nth_error _ _ _ k _ Eu) in Hk. destruct (Nat.eqb a k); [|apply (Hcs k); exact Hk].
      injection Hk as <-. eapply IH; [apply (Hcs a); exact Ex|exact Hv|exact E1].
    + obreak H. destruct (upd a0 a (Some (fst a1))) as [cs'|] eqn:Eu; [|discriminate]. injection H as <-. cbn [fst nall].
      intros k y Hk. rewrite (upd_nth_error _ _ _ k _ Eu) in Hk. destruct (Nat.eqb a k); [|apply (Hcs k); exact Hk].
      injection Hk as <-. eapply IH; [apply nall_null|exact Hv|exact E1].
Qed.

Lemma nall_modify (rem : nat) (nd nd' : node V) (i : idx) (f : V -> V) :
  (forall v, Q v -> Q (f v)) -> nall rem nd -> node_modify rem nd i f = Ok nd' -> nall rem nd'.
Proof.
  intros Hf. revert nd nd'; induction rem as [|r IH]; intros nd nd' Ha H; cbn [node_modify] in H.
  - destruct nd as [| |i0 v0]; try discriminate. injection H as <-. cbn in *. apply Hf. exact Ha.
  - obreak H. destruct nd as [|cs|]; try discriminate. destruct (nth_error cs a) as [[x|]|] eqn:Ex; try discriminate.
    obreak H. destruct (upd cs a (Some a0)) as [cs'|] eqn:Eu; [|discriminate]. injection H as <-. cbn [nall] in *.
    intros k y Hk. rewrite (upd_nth_error _ _ _ k _ Eu) in Hk. destruct (Nat.eqb a k); [|apply (Ha k); exact Hk].
    injection Hk as <-. eapply IH; [apply (Ha a); exact Ex|exact E0].
Qed.

Definition tall (t : octree V) : Prop := match root t with None => True | Some r => nall tree_depth r end.
Lemma tall_get (t : octree V) (i : idx) (v : V) : tall t -> octree_get t i = Ok (Some v) -> Q v.
Proof. unfold tall, octree_get. destruct (root t); [apply nall_get|discriminate]. Qed.
Lemma tall_insert (t t' : octree V) (i : idx) (v : V) : tall t -> Q v -> octree_insert mergeV dims t i v = Ok t' -> tall t'.
Proof.
  unfold tall, octree_insert. intros Ht Hv H. destruct (root t).
  - obreak H. injection H as <-. cbn [root]. eapply nall_insert; [exact Ht|exact Hv|exact E].
  - obreak H. injection H as <-. cbn [root]. eapply nall_insert; [apply nall_null|exact Hv|exact E].
Qed.
Lemma tall_modify (t t' : octree V) (i : idx) (f : V -> V) :
  (forall v, Q v -> Q (f v)) -> tall t -> octree_modify t i f = Ok t' -> tall t'.
Proof.
  unfold tall, octree_modify. intros Hf Ht H. destruct (root t); [|discriminate].
  obreak H. injection H as <-. cbn [root]. eapply nall_modify; eassumption.
Qed.
End NodeAll.

Lemma assoc_in {V : Type} (l : list (idx * V)) (i : idx) (v : V) : assoc l i = Some v -> In (i, v) l.
Proof.
  induction l as [|[j w] l IH]; cbn [assoc]; [discriminate|]. destruct (idx_eqb_spec j i) as [<-|].
  - intros H; injection H as <-. left; reflexivity.
  - intros H. right. apply IH. exact H.
Qed.
Lemma assoc_set_in {V : Type} (l : list (idx * V)) (i : idx) (v : V) (e : idx * V) :
  In e (assoc_set l i v) -> e = (i, v) \/ In e l.
Proof.
  induction l as [|[j w] l IH]; cbn [assoc_set].
  - intros [<-|[]]; left; reflexivity.
  - destruct (idx_eqb_spec j i) as [<-|]; intros [<-|H]; auto; [right; right; exact H|right; left; reflexivity|].
    destruct (IH H); [left; assumption|right; right; assumption].
Qed.

(** ** The two storages of bundles *)
Definition bundles_ok (S : nat -> Prop) (T : idx -> Prop) (dim : nat) (kd : kind) : st (pbundle_backend dim kd) -> Prop :=
  match kd with
  | Dynamic => fun t => tall (points_into S) t
  | Static => fun s => Forall (fun e => okb S T (fst e) (snd e)) (a_cells s)
  end.

Section BundleStores.
Variable S : nat -> Prop.
Variable T : idx -> Prop.
Variable dim : nat.
Variable kd : kind.
Notation bb := (pbundle_backend dim kd).
Notation ball := (bundles_ok S T dim kd).

Lemma bundles_ok_get (s : st bb) (i : idx) (b : pbundle) : ball s -> bget bb s i = Ok (Some b) -> okb S T i b.
Proof.
  destruct kd; cbn [bundles_ok pbundle_backend array_backend octree_backend bget].
  - intros Hs H. destruct (arr_inside _ _ i); [|discriminate]. injection H as H. apply assoc_in in H.
    rewrite Forall_forall in Hs. apply (Hs _ H).
  - intros Hs H _. eapply tall_get; eassumption.
Qed.
Lemma bundles_ok_ins (s : st bb) (i : idx) (s' : st bb) (b : pbundle) :
  ball s -> points_into S b -> bins bb s i b = Ok s' -> ball s'.
Proof.
  destruct kd; cbn [bundles_ok pbundle_backend array_backend octree_backend bins].
  - intros Hs Hb H. destruct (arr_inside _ _ i); [|discriminate]. injection H as <-. cbn [arr_set a_cells].
    rewrite Forall_forall in *. intros e He. apply assoc_set_in in He. destruct He as [->|He]; [|apply Hs; exact He].
    cbn [fst snd]. destruct (assoc (a_cells s) i) as [w|] eqn:E; [|intros _; exact Hb].
    apply assoc_in in E. apply (Hs _ E).
  - intros Hs Hb H. refine (tall_insert pmerge_bundle dim (points_into S) _ s s' i b Hs Hb H). auto.
Qed.
Lemma bundles_ok_mod (s : st bb) (i : idx) (s' : st bb) (f : pbundle -> pbundle) :
  ball s -> (forall b, points_into S b -> points_into S (f b)) -> bmod bb s i f = Ok s' -> ball s'.
Proof.
  destruct kd; cbn [bundles_ok pbundle_backend array_backend octree_backend bmod].
  - intros Hs Hf H. destruct (arr_inside _ _ i); [|discriminate].
    destruct (assoc (a_cells s) i) as [w|] eqn:E; [|discriminate]. injection H as <-. cbn [arr_set a_cells].
    rewrite Forall_forall in *. intros e He. apply assoc_set_in in He. destruct He as [->|He]; [|apply Hs; exact He].
    cbn [fst snd]. apply assoc_in in E. specialize (Hs _ E). cbn [fst snd] in Hs. intros Ht. apply Hf, Hs, Ht.
  - intros Hs Hf H. eapply tall_modify; eassumption.
Qed.
End BundleStores.

Section Sys.
Context {P : Type}.
Variable c : config P.
Notation dinv S T := (inv (bdc c) (pbbc c) S (bundles_ok S T (dimc c) (kindc c))).
Notation nb := (bin_count (dimc c)).
Definition own0 (a : nat) : Prop := (a < nb)%nat.
Definition anyT (_ : idx) : Prop := True.

Lemma c_run_frame (S : nat -> Prop) (T : idx -> Prop) (l : list (map_action (P:=P))) (w w' : cworld c) (o o' : mapobj) :
  Forall (allowed T) l -> dinv S T w o -> cw_act_all c l (w, o) = Ok (w', o') ->
  frame (bdc c) (pbbc c) S (m_bundles o) w w' /\ dinv S T w' o' /\ same_ids o o'.
Proof.
  intros Hl Hi H.
  exact (run_frame (defaultc c) (bdc c) (pbbc c) (dimc c) (kindc c) (aminc c) (amaxc c) (expandc c) (offsetsc c) S T
           (bundles_ok S T (dimc c) (kindc c)) (bundles_ok_get S T (dimc c) (kindc c)) (bundles_ok_ins S T (dimc c) (kindc c))
           (bundles_ok_mod S T (dimc c) (kindc c)) l w w' o o' Hl Hi H).
Qed.

Lemma empty_bundles_ok (S : nat -> Prop) (T : idx -> Prop) : bundles_ok S T (dimc c) (kindc c) (empty_bstore c).
Proof. unfold empty_bstore, pbbc. destruct (kindc c); cbn; [constructor|exact I]. Qed.

Lemma new_inv (T : idx -> Prop) : dinv own0 T (fst (cw_new c)) (snd (cw_new c)).
Proof.
  split; cbn [cw_new fst snd m_stores m_bundles].
  - apply Forall_forall. intros a Ha. apply in_seq in Ha. unfold own0. lia.
  - intros bs H. cbn in H. injection H as <-. apply empty_bundles_ok.
Qed.

Lemma any_allowed (l : list (map_action (P:=P))) : Forall (allowed anyT) l.
Proof. apply Forall_forall. intros [] _; exact I. Qed.

(** State after construction and any history. *)
Record reached (w : cworld c) (o : mapobj) : Prop := {
  r_ids : m_stores o = seq 0 nb /\ m_bundles o = 0%nat;
  r_len : length (dstores w) = nb /\ length (bstores w) = 1%nat;
  r_inv : dinv own0 anyT w o
}.
Lemma run_reached (l : list (map_action (P:=P))) (w : cworld c) (o : mapobj) :
  cw_act_all c l (cw_new c) = Ok (w, o) -> reached w o.
Proof.
  intros H. rewrite (surjective_pairing (cw_new c)) in H.
  destruct (c_run_frame own0 anyT l _ _ _ _ (any_allowed l) (new_inv anyT) H) as [[_ [_ [L1 L2]]] [I1 [A B]]].
  constructor.
  - rewrite A, B. split; reflexivity.
  - rewrite L1, L2. cbn [cw_new fst dstores bstores length]. rewrite map_length, seq_length. split; reflexivity.
  - exact I1.
Qed.

Lemma copy_same_d (s s' : st (bdc c)) : backend_copy (mergec c) (dimc c) (kindc c) s = Some s' -> s' = s.
Proof.
  revert s s'. unfold bdc, dist_backend, backend_copy. destruct (kindc c); cbn; intros s s'.
  - unfold array_copy. congruence.
  - unfold octree_copy. destruct (root s); congruence.
Qed.
Lemma copy_same_b (s s' : st (pbbc c)) : backend_copy pmerge_bundle (dimc c) (kindc c) s = Some s' -> s' = s.
Proof.
  revert s s'. unfold pbbc, pbundle_backend, backend_copy. destruct (kindc c); cbn; intros s s'.
  - unfold array_copy. congruence.
  - unfold octree_copy. destruct (root s); congruence.
Qed.

Notation rdd := (rd_d (bdc c) (pbbc c)).
Notation rdb := (rd_b (bdc c) (pbbc c)).
Notation copyd := (backend_copy (mergec c) (dimc c) (kindc c)).

Lemma rdd_app (w w' : cworld c) (ext : list (option (st (bdc c)))) (a : nat) (s : st (bdc c)) :
  dstores w' = dstores w ++ ext -> rdd w a = Ok s -> rdd w' a = Ok s.
Proof.
  unfold rd_d. intros -> H. destruct (nth_error (dstores w) a) as [x|] eqn:E; [|discriminate].
  rewrite nth_error_app1, E; [exact H|]. apply nth_error_Some. rewrite E; discriminate.
Qed.
Lemma rdd_app_inv (w w' : cworld c) (ext : list (option (st (bdc c)))) (a : nat) :
  dstores w' = dstores w ++ ext -> (a < length (dstores w))%nat -> rdd w' a = rdd w a.
Proof. unfold rd_d. intros -> H. rewrite nth_error_app1 by exact H. reflexivity. Qed.

Lemma copy_dstores (l : list nat) (w0 w w1 : cworld c) (ext0 : list (option (st (bdc c)))) (ids0 ids : list nat) :
  dstores w = dstores w0 ++ ext0 -> bstores w = bstores w0 -> Forall (fun a => (a < length (dstores w0))%nat) l ->
  ofold (copy_dstore (bdc c) (pbbc c) copyd) l (w, ids0) = Ok (w1, ids) ->
  exists ext new, dstores w1 = dstores w0 ++ ext0 ++ ext /\ bstores w1 = bstores w0 /\ ids = ids0 ++ new /\
    Forall2 (fun a a' => exists s, rdd w0 a = Ok s /\ rdd w1 a' = Ok s /\
               ((length (dstores w0) <= a')%nat \/ (a' = a /\ copyd s = None))) l new.
Proof.
  revert w ext0 ids0. induction l as [|a l IH]; intros w ext0 ids0 Hw Hb Hl H; cbn [ofold] in H.
  - injection H as <- <-. exists [], []. rewrite !app_nil_r. auto.
  - inversion Hl as [|? ? Ha Hl']; subst. obreak H. destruct a0 as [w2 ids2]. cbn [copy_dstore] in E. obreak E.
    assert (R0 : rdd w0 a = Ok a0) by (rewrite <- (rdd_app_inv w0 w ext0 a Hw Ha); exact E0).
    destruct (copyd a0) as [s'|] eqn:Ec.
    + injection E as <- <-. pose proof (copy_same_d _ _ Ec) as ->.
      destruct (IH {| dstores := dstores w ++ [Some a0]; bstores := bstores w |} (ext0 ++ [Some a0]) (ids0 ++ [length (dstores w)]))
        as [ext [new [D [B [I F]]]]].
      { cbn [dstores]. rewrite Hw, app_assoc. reflexivity. }
      { exact Hb. } { exact Hl'. } { exact H. }
      exists (Some a0 :: ext), (length (dstores w) :: new). split; [rewrite D, <- app_assoc; reflexivity|]. split; [exact B|].
      split; [rewrite I, <- app_assoc; reflexivity|]. constructor; [|exact F].
      exists a0. split; [exact R0|]. split.
      * unfold rd_d. rewrite D, app_assoc, app_assoc, <- Hw. rewrite nth_error_app1 by (rewrite app_length; cbn; lia).
        rewrite app_last. reflexivity.
      * left. rewrite Hw, app_length. lia.
    + injection E as <- <-. destruct (IH w ext0 (ids0 ++ [a]) Hw Hb Hl' H) as [ext [new [D [B [I F]]]]].
      exists ext, (a :: new). split; [exact D|]. split; [exact B|]. split; [rewrite I, <- app_assoc; reflexivity|].
      constructor; [|exact F]. exists a0. split; [exact R0|]. split; [eapply rdd_app; [exact D|exact R0]|]. right. auto.
Qed.

(** A copy: its storages hold what the source's hold; each is new unless copying shares. *)
Record copied (w w1 : cworld c) (o o1 : mapobj) : Prop := {
  c_ext : exists ext, dstores w1 = dstores w ++ ext;
  c_bext : exists ext, bstores w1 = bstores w ++ ext;
  c_stores : Forall2 (fun a a' => exists s, rdd w a = Ok s /\ rdd w1 a' = Ok s /\
               ((length (dstores w) <= a')%nat \/ (a' = a /\ copyd s = None))) (m_stores o) (m_stores o1);
  c_bundles : exists s, rdb w (m_bundles o) = Ok s /\ rdb w1 (m_bundles o1) = Ok s /\
                (m_bundles o1 = length (bstores w) \/
                 (m_bundles o1 = m_bundles o /\ backend_copy pmerge_bundle (dimc c) (kindc c) s = None))
}.

Lemma copy_spec (w w1 : cworld c) (o o1 : mapobj) :
  Forall (fun a => (a < length (dstores w))%nat) (m_stores o) -> cw_copy c w o = Ok (w1, o1) -> copied w w1 o o1.
Proof.
  intros Hl H. unfold cw_copy, copy_map in H. obreak H. destruct a as [w2 ids].
  destruct (copy_dstores (m_stores o) w w w2 [] [] ids) as [ext [new [D [B [I F]]]]];
    [rewrite app_nil_r; reflexivity|reflexivity|exact Hl|exact E|]. cbn [app] in D, I. subst new.
  obreak H. assert (Rb : rdb w (m_bundles o) = Ok a) by (unfold rd_b in *; rewrite <- B; exact E0).
  destruct (backend_copy pmerge_bundle (dimc c) (kindc c) a) as [s'|] eqn:Ec; injection H as <- <-.
  - pose proof (copy_same_b _ _ Ec) as ->. constructor; cbn [m_stores m_bundles].
    + exists ext. exact D.
    + exists [Some a]. cbn [bstores]. rewrite B. reflexivity.
    + exact F.
    + exists a. split; [exact Rb|]. split; [unfold rd_b; cbn [bstores]; rewrite app_last; reflexivity|]. left. rewrite B. reflexivity.
  - constructor; cbn [m_stores m_bundles].
    + exists ext. exact D.
    + exists []. rewrite app_nil_r. exact B.
    + exact F.
    + exists a. split; [exact Rb|]. split; [exact E0|]. right. auto.
Qed.

Lemma reached_ids (w : cworld c) (o : mapobj) : reached w o -> Forall (fun a => (a < length (dstores w))%nat) (m_stores o).
Proof. intros [[A _] [L _] _]. rewrite A, L. apply Forall_forall. intros a Ha. apply in_seq in Ha. lia. Qed.

Lemma pread_all_eq (w w' : cworld c) (sl : list (option (nat * idx))) :
  (forall p, In (Some p) sl -> rdd w' (fst p) = rdd w (fst p)) ->
  pread_all (bdc c) (pbbc c) w' sl = pread_all (bdc c) (pbbc c) w sl.
Proof.
  induction sl as [|[p|] sl IH]; intros H; [reflexivity| |reflexivity]. cbn [pread_all].
  assert (E : pread (bdc c) (pbbc c) w' p = pread (bdc c) (pbbc c) w p) by (unfold pread; rewrite H; [reflexivity|left; reflexivity]).
  rewrite E, IH; [reflexivity|]. intros q Hq. apply H. right; exact Hq.
Qed.

(** Bundles of a reached map point into its own storages. *)
Lemma reached_points (w : cworld c) (o : mapobj) (bs : st (pbbc c)) (bi : idx) (b : pbundle) :
  reached w o -> rdb w (m_bundles o) = Ok bs -> bget (pbbc c) bs bi = Ok (Some b) -> points_into own0 b.
Proof. intros [_ _ [_ I]] Hb Hg. exact (bundles_ok_get own0 anyT _ _ bs bi b (I bs Hb) Hg Logic.I). Qed.

Lemma copy_shows (w w1 : cworld c) (o o1 : mapobj) :
  reached w o -> cw_copy c w o = Ok (w1, o1) ->
  (forall i j, cw_stored c w1 o1 i j = cw_stored c w o i j) /\ (forall bi, cw_shown c w1 o1 bi = cw_shown c w o bi) /\
  same_view c w w1 o.
Proof.
  intros Hr H. destruct (copy_spec w w1 o o1 (reached_ids w o Hr) H) as [[ext De] [bext Be] F [bs [Rb [Rb1 _]]]].
  assert (Hlen : length (dstores w) = nb) by apply (r_len _ _ Hr).
  assert (Hread : forall bi, cw_shown c w1 o1 bi = cw_shown c w o bi).
  { intros bi. unfold cw_shown, pshown. rewrite Rb, Rb1. cbn [obind].
    destruct (bget (pbbc c) bs bi) as [[b|]| |] eqn:Eg; try reflexivity. cbn [obind]. f_equal.
    apply pread_all_eq. intros p Hp. apply (rdd_app_inv w w1 ext _ De). rewrite Hlen.
    exact (reached_points w o bs bi b Hr Rb Eg p Hp). }
  split; [|split; [exact Hread|split]].
  - intros i j. unfold cw_stored, pstored. clear -F. revert i. induction F as [|a a' l l' [s [R [R' _]]] _ IH]; intros [|i]; cbn [nth_error]; auto.
    rewrite R, R'. reflexivity.
  - intros i j. unfold cw_stored, pstored. destruct (nth_error (m_stores o) i) as [a|] eqn:Ea; [|reflexivity].
    rewrite (rdd_app_inv w w1 ext a De); [reflexivity|]. apply nth_error_In in Ea. pose proof (reached_ids w o Hr) as Hl.
    rewrite Forall_forall in Hl. apply Hl. exact Ea.
  - intros bi. rewrite <- Hread. unfold cw_shown, pshown. rewrite Rb1.
    assert (Rb2 : rdb w1 (m_bundles o) = Ok bs).
    { unfold rd_b in *. rewrite Be. destruct (nth_error (bstores w) (m_bundles o)) as [x|] eqn:E; [|discriminate].
      rewrite nth_error_app1, E; [exact Rb|]. apply nth_error_Some. rewrite E; discriminate. }
    rewrite Rb2. reflexivity.
Qed.

(** Static maps: every storage of the copy is new. *)
Lemma static_copyd (s : st (bdc c)) : kindc c = Static -> copyd s <> None.
Proof. revert s. unfold bdc, dist_backend, backend_copy. destruct (kindc c); cbn; [|discriminate]. intros s _. discriminate. Qed.
Lemma static_copyb (s : st (pbbc c)) : kindc c = Static -> backend_copy pmerge_bundle (dimc c) (kindc c) s <> None.
Proof. revert s. unfold pbbc, pbundle_backend, backend_copy. destruct (kindc c); cbn; [|discriminate]. intros s _. discriminate. Qed.

Definition fresh_copy (w : cworld c) (o1 : mapobj) : Prop :=
  Forall (fun a' => (length (dstores w) <= a')%nat) (m_stores o1) /\ m_bundles o1 = length (bstores w).

Lemma static_fresh (w w1 : cworld c) (o o1 : mapobj) : kindc c = Static -> copied w w1 o o1 -> fresh_copy w o1.
Proof.
  intros Hk [_ _ F [s [_ [_ Hs]]]]. split.
  - clear -F Hk. induction F as [|a a' l l' [s [_ [_ [H|[_ H]]]]] _ IH]; constructor; auto. exfalso. exact (static_copyd s Hk H).
  - destruct Hs as [Hs|[_ Hs]]; [exact Hs|]. exfalso. exact (static_copyb s Hk Hs).
Qed.

Lemma inv_ext (S : nat -> Prop) (T : idx -> Prop) (w w1 : cworld c) (o : mapobj) (bext : list (option (st (pbbc c)))) :
  bstores w1 = bstores w ++ bext -> (m_bundles o < length (bstores w))%nat -> dinv S T w o -> dinv S T w1 o.
Proof.
  intros Be Hl [A B]. split; [exact A|]. intros bs. unfold rd_b. rewrite Be, nth_error_app1 by exact Hl. apply B.
Qed.

(** The source's history leaves the storages of a fresh copy alone. *)
Lemma source_history (w w1 w2 : cworld c) (o o1 o2 : mapobj) (l : list (map_action (P:=P))) :
  kindc c = Static -> reached w o -> cw_copy c w o = Ok (w1, o1) -> cw_act_all c l (w1, o) = Ok (w2, o2) ->
  forall i j, cw_stored c w2 o1 i j = cw_stored c w1 o1 i j.
Proof.
  intros Hk Hr H Hl. pose proof (copy_spec w w1 o o1 (reached_ids w o Hr) H) as Hc.
  destruct (static_fresh w w1 o o1 Hk Hc) as [Hf _]. destruct (c_bext _ _ _ _ Hc) as [bext Be].
  destruct Hr as [[_ Hb] [L1 L2] I].
  assert (I1 : dinv own0 anyT w1 o) by (apply (inv_ext _ _ w w1 o bext Be); [rewrite Hb, L2; lia|exact I]).
  destruct (c_run_frame own0 anyT l w1 w2 o o2 (any_allowed l) I1 Hl) as [F _].
  apply (frame_view (bdc c) (pbbc c) own0 w1 w2 (m_bundles o) o1 F).
  eapply Forall_impl; [|exact Hf]. intros a Ha. unfold own0. rewrite L1 in Ha. lia.
Qed.

(** The copy's history at bundles the source does not have leaves the source alone. *)
Lemma copy_history (w w1 w2 : cworld c) (o o1 o2 : mapobj) (l : list (map_action (P:=P))) :
  kindc c = Static -> reached w o -> cw_copy c w o = Ok (w1, o1) ->
  Forall (allowed (fun bi => cw_shown c w o bi = Ok None)) l ->
  cw_act_all c l (w1, o1) = Ok (w2, o2) -> same_view c w1 w2 o.
Proof.
  intros Hk Hr H Hal Hl. pose proof (copy_spec w w1 o o1 (reached_ids w o Hr) H) as Hc.
  destruct (static_fresh w w1 o o1 Hk Hc) as [Hf Hfb]. destruct (c_bext _ _ _ _ Hc) as [bext Be].
  destruct (c_bundles _ _ _ _ Hc) as [bs [Rb [Rb1 _]]].
  pose proof (r_ids _ _ Hr) as [Hid Hb]. pose proof (r_len _ _ Hr) as [L1 L2].
  set (S1 := fun a => (nb <= a)%nat). set (T1 := fun bi => cw_shown c w o bi = Ok None).
  assert (I1 : dinv S1 T1 w1 o1).
  { split.
    - eapply Forall_impl; [|exact Hf]. intros a Ha. unfold S1. rewrite L1 in Ha. exact Ha.
    - intros bs' Hbs'. rewrite Rb1 in Hbs'. injection Hbs' as <-.
      assert (G : forall i, T1 i -> forall b, bget (pbbc c) bs i <> Ok (Some b)).
      { intros i Hi b Hg. unfold T1, cw_shown, pshown in Hi. rewrite Rb in Hi. cbn [obind] in Hi. rewrite Hg in Hi. cbn [obind] in Hi.
        destruct (pread_all _ _ _ _); cbn [obind] in Hi; discriminate. }
      assert (K : forall i, T1 i -> exists r, bget (pbbc c) bs i = Ok r).
      { intros i Hi. unfold T1, cw_shown, pshown in Hi. rewrite Rb in Hi. cbn [obind] in Hi. destruct (bget (pbbc c) bs i); [eauto|discriminate|discriminate]. }
      clear - G K Hk. unfold pbbc, pbundle_backend, bundles_ok in *. revert bs G K. destruct (kindc c); [|discriminate].
      cbn [array_backend st bget]. intros bs G K. apply Forall_forall. intros [i b] Hin Hi. cbn [fst snd] in *. exfalso.
      destruct (K i Hi) as [r Hr]. specialize (G i Hi). destruct (arr_inside (a_size bs) (a_offset bs) i); [|discriminate].
      assert (Hne : assoc (a_cells bs) i <> None).
      { clear -Hin. induction (a_cells bs) as [|[j v] l IH]; cbn [assoc]; [contradiction|].
        destruct (idx_eqb_spec j i); [discriminate|]. destruct Hin as [Hin|Hin]; [congruence|apply IH; exact Hin]. }
      destruct (assoc (a_cells bs) i) as [x|]; [|contradiction]. exact (G x eq_refl). }
  destruct (c_run_frame S1 T1 l w1 w2 o1 o2 Hal I1 Hl) as [F _].
  assert (Rbw : rdb w1 (m_bundles o) = Ok bs).
  { unfold rd_b in *. rewrite Be, nth_error_app1 by (rewrite Hb, L2; lia). exact Rb. }
  split.
  - apply (frame_view (bdc c) (pbbc c) S1 w1 w2 (m_bundles o1) o F). rewrite Hid. apply Forall_forall.
    intros a Ha. apply in_seq in Ha. unfold S1. lia.
  - apply (frame_shown (bdc c) (pbbc c) S1 w1 w2 (m_bundles o1) o F); [rewrite Hfb, Hb, L2; discriminate|].
    intros bs' bi b p Hbs' Hg Hp. rewrite Rbw in Hbs'. injection Hbs' as <-.
    pose proof (reached_points w o bs bi b Hr Rb Hg p Hp) as Ho. unfold own0, S1 in *. lia.
Qed.

(** A copy of a map without content. *)
Lemma empty_copyd (k : nat) : copyd (empty_dstore c k) <> None.
Proof. unfold empty_dstore, bdc, backend_copy, dist_backend. destruct (kindc c); discriminate. Qed.
Lemma empty_copyb : backend_copy pmerge_bundle (dimc c) (kindc c) (empty_bstore c) <> None.
Proof. unfold empty_bstore, pbbc, backend_copy, pbundle_backend. destruct (kindc c); discriminate. Qed.
Lemma new_copies (w1 : cworld c) (o1 : mapobj) :
  cw_copy c (fst (cw_new c)) (snd (cw_new c)) = Ok (w1, o1) -> fresh_copy (fst (cw_new c)) o1.
Proof.
  intros H. assert (Hr : reached (fst (cw_new c)) (snd (cw_new c))).
  { apply (run_reached []). rewrite <- surjective_pairing. reflexivity. }
  destruct (copy_spec _ _ _ _ (reached_ids _ _ Hr) H) as [_ _ F [s [Rs [_ Hs]]]]. split.
  - assert (G : forall a s, rdd (fst (cw_new c)) a = Ok s -> copyd s <> None).
    { intros a s0 Ha. unfold rd_d in Ha. cbn [cw_new fst dstores] in Ha. rewrite nth_error_map in Ha.
      destruct (nth_error (seq 0 nb) a) as [k|]; cbn [option_map] in Ha; [|discriminate]. injection Ha as <-.
      apply empty_copyd. }
    clear -F G. induction F as [|a a' l l' [s [R [_ [H|[_ H]]]]] _ IH]; constructor; auto. exfalso. exact (G a s R H).
  - destruct Hs as [Hs|[_ Hs]]; [exact Hs|]. exfalso. cbn in Rs. injection Rs as <-.
    exact (empty_copyb Hs).
Qed.

Definition own1 (a : nat) : Prop := (nb <= a)%nat.
Record both (w : cworld c) (oa ob : mapobj) : Prop := {
  b_a : dinv own0 anyT w oa; b_b : dinv own1 anyT w ob; b_ida : m_bundles oa = 0%nat; b_idb : m_bundles ob = 1%nat
}.
Lemma inv_framed (S S' : nat -> Prop) (w w' : cworld c) (o o' : mapobj) :
  frame (bdc c) (pbbc c) S (m_bundles o) w w' -> m_bundles o' <> m_bundles o -> dinv S' anyT w o' -> dinv S' anyT w' o'.
Proof. intros [_ [F _]] Hne [A B]. split; [exact A|]. intros bs. unfold rd_b. rewrite F by exact Hne. apply B. Qed.

Lemma both_a (w w' : cworld c) (oa oa' ob : mapobj) (l : list (map_action (P:=P))) :
  both w oa ob -> cw_act_all c l (w, oa) = Ok (w', oa') -> both w' oa' ob /\ same_view c w w' ob.
Proof.
  intros [A B Ha Hb] H. destruct (c_run_frame own0 anyT l w w' oa oa' (any_allowed l) A H) as [F [A' [I1 I2]]]. split.
  - constructor; [exact A'|eapply inv_framed; [exact F|congruence|exact B]|congruence|exact Hb].
  - split; [apply (frame_view (bdc c) (pbbc c) own0 w w' (m_bundles oa) ob F)|
            apply (frame_shown (bdc c) (pbbc c) own0 w w' (m_bundles oa) ob F)].
    + eapply Forall_impl; [|apply (proj1 B)]. intros a. unfold own0, own1. lia.
    + congruence.
    + intros bs bi b p Hbs Hg Hp. pose proof (bundles_ok_get own1 anyT _ _ bs bi b (proj2 B bs Hbs) Hg Logic.I p Hp) as Ho.
      unfold own0, own1 in *. lia.
Qed.
Lemma both_b (w w' : cworld c) (oa ob ob' : mapobj) (l : list (map_action (P:=P))) :
  both w oa ob -> cw_act_all c l (w, ob) = Ok (w', ob') -> both w' oa ob' /\ same_view c w w' oa.
Proof.
  intros [A B Ha Hb] H. destruct (c_run_frame own1 anyT l w w' ob ob' (any_allowed l) B H) as [F [B' [I1 I2]]]. split.
  - constructor; [eapply inv_framed; [exact F|congruence|exact A]|exact B'|exact Ha|congruence].
  - split; [apply (frame_view (bdc c) (pbbc c) own1 w w' (m_bundles ob) oa F)|
            apply (frame_shown (bdc c) (pbbc c) own1 w w' (m_bundles ob) oa F)].
    + eapply Forall_impl; [|apply (proj1 A)]. intros a. unfold own0, own1. lia.
    + congruence.
    + intros bs bi b p Hbs Hg Hp. pose proof (bundles_ok_get own0 anyT _ _ bs bi b (proj2 A bs Hbs) Hg Logic.I p Hp) as Ho.
      unfold own0, own1 in *. lia.
Qed.

Lemma fresh_both (w1 : cworld c) (o1 : mapobj) :
  cw_copy c (fst (cw_new c)) (snd (cw_new c)) = Ok (w1, o1) -> both w1 (snd (cw_new c)) o1.
Proof.
  intros H. assert (Hr : reached (fst (cw_new c)) (snd (cw_new c))).
  { apply (run_reached []). rewrite <- surjective_pairing. reflexivity. }
  destruct (new_copies w1 o1 H) as [Hf Hfb]. pose proof (copy_spec _ _ _ _ (reached_ids _ _ Hr) H) as Hc.
  destruct (c_bext _ _ _ _ Hc) as [bext Be]. destruct (c_bundles _ _ _ _ Hc) as [s [Rs [Rs1 _]]].
  constructor.
  - apply (inv_ext _ _ _ w1 _ bext Be); [cbn; lia|apply (r_inv _ _ Hr)].
  - split.
    + eapply Forall_impl; [|exact Hf]. intros a Ha. unfold own1. rewrite (proj1 (r_len _ _ Hr)) in Ha. exact Ha.
    + intros bs Hbs. rewrite Rs1 in Hbs. injection Hbs as <-. cbn in Rs. injection Rs as <-. apply empty_bundles_ok.
  - reflexivity.
  - rewrite Hfb. reflexivity.
Qed.

Lemma two_run_both (l : list (bool * map_action (P:=P))) (w w' : cworld c) (oa oa' ob ob' : mapobj) :
  both w oa ob -> two_run c l (w, oa, ob) = Ok (w', oa', ob') -> both w' oa' ob'.
Proof.
  revert w oa ob. induction l as [|[b a] l IH]; intros w oa ob Hb H; cbn [two_run ofold] in H; [injection H as <- <- <-; exact Hb|].
  obreak H. destruct a0 as [[w1 oa1] ob1]. eapply IH; [|exact H]. cbn [two_step fst snd] in E. destruct b.
  - obreak E. destruct a0 as [w2 o2]. injection E as <- <- <-.
    apply (both_a w w2 oa o2 ob [a] Hb). unfold cw_act_all. cbn [ofold]. rewrite E0. reflexivity.
  - obreak E. destruct a0 as [w2 o2]. injection E as <- <- <-.
    apply (both_b w w2 oa ob o2 [a] Hb). unfold cw_act_all. cbn [ofold]. rewrite E0. reflexivity.
Qed.

Lemma fresh_copy_independent (w1 w w' : cworld c) (o1 oa ob o' : mapobj) (l : list (bool * map_action (P:=P))) (l' : list (map_action (P:=P))) :
  cw_copy c (fst (cw_new c)) (snd (cw_new c)) = Ok (w1, o1) ->
  two_run c l (w1, snd (cw_new c), o1) = Ok (w, oa, ob) ->
  (cw_act_all c l' (w, oa) = Ok (w', o') -> same_view c w w' ob) /\
  (cw_act_all c l' (w, ob) = Ok (w', o') -> same_view c w w' oa).
Proof.
  intros H1 H2. pose proof (two_run_both l w1 w _ oa _ ob (fresh_both w1 o1 H1) H2) as Hb. split; intros H.
  - apply (both_a w w' oa o' ob l' Hb H).
  - apply (both_b w w' oa ob o' l' Hb H).
Qed.
End Sys.

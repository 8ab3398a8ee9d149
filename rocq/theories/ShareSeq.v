(** A program of ShareModel.v without others beside it does what TreeHeapModel.v says. *)
From Verif Require Import Base OctreeSpec OctreeModel TreeHeapSpec TreeHeapModel TreeHeapFacts ShareModel ShareFacts.
Open Scope Z_scope.

Lemma child_idx_no_throw (i : idx) (k r : nat) : computeChildIdx_from i k r <> Throw.
Proof.
  revert k; induction i as [|x i IH]; intros k; cbn [computeChildIdx_from]; [discriminate|].
  destruct (int_ok _); [|discriminate]. specialize (IH (S k)). destruct (computeChildIdx_from i (S k) r); cbn [obind]; congruence.
Qed.

Section Seq.
Context {V : Type}.
Variable merge : V -> V -> V.
Variable dims : nat.
Local Notation shared := (shared V).

Lemma alone_lift {A : Type} (x : outcome A) (s : shared) : x <> Throw -> alone (lift x) s = let* a := x in Ok (s, a).
Proof. destruct x; cbn; congruence. Qed.
Lemma alone_children (n : nat) (s : shared) : alone (p_children n) s = let* c := children_ (mem s) n in Ok (s, c).
Proof. cbn. unfold children_. destruct (word_of (mem s) n) as [[| |]| |]; reflexivity. Qed.
Lemma alone_data_ptr (n : nat) (s : shared) : alone (p_data_ptr n) s = let* c := data_ptr_ (mem s) n in Ok (s, c).
Proof. cbn. unfold data_ptr_. destruct (word_of (mem s) n) as [[| |]| |]; reflexivity. Qed.
Lemma alone_childExists (n pos : nat) (s : shared) :
  alone (p_childExists n pos) s = let* e := childExists (mem s) n pos in Ok (s, e).
Proof.
  unfold p_childExists, childExists. rewrite alone_bind, alone_children.
  destruct (children_ (mem s) n) as [[a|]| |]; cbn; try reflexivity.
  destruct (array_of (mem s) a); cbn [obind]; try reflexivity. destruct (entry a0 pos) as [[|]| |]; reflexivity.
Qed.
Lemma alone_getChild (n pos : nat) (s : shared) :
  alone (p_getChild n pos) s = let* c := getChild (mem s) n pos in Ok (s, c).
Proof.
  unfold p_getChild, getChild. rewrite alone_bind, alone_children.
  destruct (children_ (mem s) n) as [[a|]| |]; cbn; try reflexivity.
  destruct (array_of (mem s) a); cbn [obind]; try reflexivity. destruct (entry a0 pos) as [[|]| |]; reflexivity.
Qed.
Lemma word_children (h : memory V) (n : nat) (c : option nat) : children_ h n = Ok c -> exists w, nth_error h n = Some (ONode w).
Proof.
  unfold children_, word_of. destruct (nth_error h n) as [[w|l|i v]|]; cbn [obind]; try discriminate. eauto.
Qed.

Lemma alone_allocateChildren (n : nat) (s : shared) (c : option nat) : children_ (mem s) n = Ok c ->
  alone (p_allocateChildren dims n) s = let* h := allocateChildren dims (mem s) n in Ok (set_mem s h, tt).
Proof.
  intros H. destruct (word_children _ _ _ H) as [w Hw]. unfold p_allocateChildren, allocateChildren. cbn.
  unfold word_of. rewrite nth_error_app1 by (apply nth_error_Some; congruence). rewrite Hw. cbn [obind].
  destruct (store _ _ _); reflexivity.
Qed.
Lemma alone_createChild (n pos : nat) (s : shared) :
  alone (p_createChild dims n pos) s = let* h := createChild dims (mem s) n pos in Ok (set_mem s h, tt).
Proof.
  unfold p_createChild, createChild. rewrite alone_bind, alone_children.
  destruct (children_ (mem s) n) as [c| |] eqn:Ec; cbn [obind fst snd]; try reflexivity.
  rewrite alone_bind. destruct c as [a|].
  - cbn [alone obind fst snd]. rewrite alone_bind, alone_children, Ec. cbn [obind fst snd].
    unfold new_object. cbn [alone]. unfold new_object. cbn [set_mem mem].
    destruct (array_of (mem s ++ [ONode WNull]) a); cbn [obind]; try reflexivity.
    destruct (upd a0 pos (Some (length (mem s)))); cbn [obind]; reflexivity.
  - rewrite (alone_allocateChildren n s None Ec).
    destruct (allocateChildren dims (mem s) n) as [h1| |]; cbn [obind fst snd]; try reflexivity.
    rewrite alone_bind, alone_children. cbn [set_mem mem].
    destruct (children_ h1 n) as [[a|]| |]; cbn [obind fst snd]; try reflexivity.
    unfold new_object. cbn [alone]. unfold new_object. cbn [set_mem mem trees].
    destruct (array_of (h1 ++ [ONode WNull]) a); cbn [obind]; try reflexivity.
    destruct (upd a0 pos (Some (length h1))); cbn [obind]; reflexivity.
Qed.

Lemma alone_at_get (r n : nat) (i : idx) (s : shared) :
  alone (p_at_get r n i) s = let* p := at_get r (mem s) n i in Ok (s, p).
Proof.
  revert n; induction r as [|r IH]; intros n; cbn [p_at_get at_get]; [apply alone_data_ptr|].
  rewrite alone_bind, alone_lift by apply child_idx_no_throw.
  destruct (computeChildIdx i r) as [pos| |]; cbn [obind fst snd]; try reflexivity.
  rewrite alone_bind, alone_childExists. destruct (childExists (mem s) n pos) as [[|]| |]; cbn [obind fst snd]; try reflexivity.
  rewrite alone_bind, alone_getChild. destruct (getChild (mem s) n pos); cbn [obind fst snd]; try reflexivity. apply IH.
Qed.
Lemma alone_get (t : nat) (i : idx) (s : shared) (x : tree) : nth_error (trees s) t = Some x ->
  alone (p_get t i) s = let* p := tree_get (mem s) x i in Ok (s, p).
Proof.
  intros H. unfold tree_get. cbn [p_get alone]. unfold tree_at. rewrite H. cbn [obind].
  destruct (root_ x); [apply alone_at_get|reflexivity].
Qed.

Lemma alone_at_traverse (r n : nat) (s : shared) :
  alone (p_at_traverse dims r n) s = let* es := at_traverse dims r (mem s) n in Ok (s, es).
Proof.
  revert n; induction r as [|r IH]; intros n; cbn [p_at_traverse at_traverse].
  - rewrite alone_bind, alone_data_ptr. destruct (data_ptr_ (mem s) n) as [[d|]| |]; cbn [obind fst snd]; try reflexivity.
    cbn [alone]. destruct (data_of (mem s) d); reflexivity.
  - generalize (seq 0 (2 ^ dims)%nat). intros l. induction l as [|i l IHl]; [reflexivity|].
    rewrite alone_bind, alone_childExists. destruct (childExists (mem s) n i) as [[|]| |]; cbn [obind fst snd]; try reflexivity; [|exact IHl].
    rewrite alone_bind, alone_getChild. destruct (getChild (mem s) n i) as [c| |]; cbn [obind fst snd]; try reflexivity.
    rewrite alone_bind, IH. destruct (at_traverse dims r (mem s) c) as [a| |]; cbn [obind fst snd]; try reflexivity.
    rewrite alone_bind, IHl. match goal with |- context [obind (obind ?x _) _] => destruct x end; reflexivity.
Qed.
Lemma alone_traverse (t : nat) (s : shared) (x : tree) : nth_error (trees s) t = Some x ->
  alone (p_traverse dims t) s = let* es := tree_traverse dims (mem s) x in Ok (s, es).
Proof.
  intros H. unfold tree_traverse. cbn [p_traverse alone]. unfold tree_at. rewrite H. cbn [obind].
  destruct (root_ x); [apply alone_at_traverse|reflexivity].
Qed.

Definition grown (x : tree) (z : Z) : tree := {| root_ := root_ x; tree_size_ := tree_size_ x + z |}.

Lemma alone_count (t : nat) (s : shared) (x : tree) : nth_error (trees s) t = Some x ->
  exists l, upd (trees s) t (grown x 1) = Some l /\ alone (p_count t) s = Ok ({| mem := mem s; trees := l |}, tt).
Proof.
  intros H. destruct (upd_some (trees s) t (grown x 1)) as [l U]; [apply nth_error_Some; congruence|].
  exists l. split; [exact U|]. cbn. unfold tree_at, set_tree. rewrite H. cbn [obind]. unfold grown in U. rewrite U. reflexivity.
Qed.

Lemma upd_twice {A : Type} (l l1 l2 : list A) (i : nat) (x y : A) :
  upd l i x = Some l1 -> upd l1 i y = Some l2 -> upd l i y = Some l2.
Proof.
  revert i l1 l2; induction l as [|z l IH]; intros [|i] l1 l2; cbn [upd]; try discriminate.
  - intros [= <-]. cbn [upd]. auto.
  - destruct (upd l i x) as [l1'|] eqn:E; cbn; [|discriminate]. intros [= <-]. cbn [upd].
    destruct (upd l1' i y) as [l2'|] eqn:E2; cbn; [|discriminate]. intros [= <-]. rewrite (IH i l1' l2' E E2). reflexivity.
Qed.
Lemma upd_same {A : Type} (l : list A) (i : nat) (x : A) : nth_error l i = Some x -> upd l i x = Some l.
Proof.
  revert i; induction l as [|z l IH]; intros [|i]; cbn; try discriminate; [congruence|]. intros H. rewrite (IH i H). reflexivity.
Qed.
Lemma grown_0 (x : tree) : grown x 0 = x.
Proof. destruct x. unfold grown. cbn. f_equal. lia. Qed.

Lemma alone_data_insert (n : nat) (b : bool) (i : idx) (v : V) (s : shared) (w : word) : nth_error (mem s) n = Some (ONode w) ->
  alone (p_data_insert merge n b i v) s = let* r := data_insert merge (mem s) n b i v in Ok (set_mem s (fst r), snd r).
Proof.
  intros Hw. unfold p_data_insert, data_insert. destruct b.
  - cbn. unfold word_of. rewrite nth_error_app1 by (apply nth_error_Some; congruence). rewrite Hw. cbn [obind].
    destruct (store _ _ _); reflexivity.
  - rewrite alone_bind, alone_data_ptr. destruct (data_ptr_ (mem s) n) as [[d|]| |]; cbn [obind fst snd]; try reflexivity.
    cbn. destruct (data_of (mem s) d); cbn [obind]; try reflexivity. destruct (store _ _ _); reflexivity.
Qed.

(** The node at which an insertion starts. *)
Definition is_node (h : memory V) (n : nat) : Prop := exists w, nth_error h n = Some (ONode w).

Lemma created_node (h h' : memory V) (n pos c : nat) :
  createChild dims h n pos = Ok h' -> getChild h' n pos = Ok c -> is_node h' c.
Proof.
  unfold createChild. intros H G. obreak H. obreak H. obreak H. destruct a1 as [b|]; [|discriminate].
  unfold new_object in H. obreak H. destruct (upd a1 pos (Some (length a0))) as [l'|] eqn:U; [|discriminate].
  assert (S := store_nth _ _ _ (length a0) _ H). assert (Sn := store_nth _ _ _ n _ H). assert (Sb := store_nth _ _ _ b _ H).
  unfold array_of in E2. destruct (nth_error (a0 ++ [ONode WNull]) b) as [[w|l|i v]|] eqn:Eb; try discriminate. injection E2 as ->.
  unfold getChild, children_, word_of in G. rewrite Sn in G. destruct (Nat.eqb_spec b n) as [->|N]; [discriminate|].
  destruct (word_children _ _ _ E1) as [w Hw]. unfold children_, word_of in E1. rewrite Hw in E1.
  rewrite nth_error_app1 in G by (apply nth_error_Some; congruence). rewrite Hw in G. cbn [obind] in G, E1.
  destruct w as [|b'|d]; try discriminate. injection E1 as ->. cbn [obind] in G.
  unfold array_of in G. rewrite Sb, Nat.eqb_refl in G. cbn [obind] in G.
  unfold entry in G. rewrite (upd_nth_error _ _ _ pos _ U), Nat.eqb_refl in G. cbn [obind] in G. injection G as <-.
  unfold is_node. rewrite S. destruct (Nat.eqb_spec b (length a0)) as [->|N'].
  - rewrite nth_error_app2, Nat.sub_diag in Eb by lia. discriminate.
  - rewrite nth_error_app2, Nat.sub_diag by lia. cbn. eauto.
Qed.

Definition after (s : shared) (t : nat) (x : tree) (h : memory V) (z : Z) : shared :=
  {| mem := h; trees := match upd (trees s) t (grown x z) with Some l => l | None => trees s end |}.
Lemma after_0 (s : shared) (t : nat) (x : tree) (h : memory V) : nth_error (trees s) t = Some x -> after s t x h 0 = set_mem s h.
Proof. intros H. unfold after. rewrite grown_0, (upd_same _ _ _ H). reflexivity. Qed.

Lemma alone_at_insert (t r n : nat) (b : bool) (i : idx) (v : V) (s : shared) (x : tree) :
  nth_error (trees s) t = Some x -> (b = true -> is_node (mem s) n) ->
  alone (p_at_insert merge dims t r n b i v) s =
  let* res := at_insert merge dims r (mem s) n b i v in Ok (after s t x (fst (fst res)) (snd res), snd (fst res)).
Proof.
  revert n b s x; induction r as [|r IH]; intros n b s x Hx Hb; cbn [p_at_insert at_insert].
  - destruct (nth_error (mem s) n) as [[w|l|j u]|] eqn:En.
    1:{ rewrite (alone_data_insert n b i v s w En). destruct (data_insert merge (mem s) n b i v) as [res| |]; cbn [obind fst snd]; try reflexivity.
        rewrite after_0 by exact Hx. reflexivity. }
    all: destruct b; [destruct (Hb eq_refl) as [w' Hw']; congruence|].
    all: unfold p_data_insert, data_insert; rewrite alone_bind, alone_data_ptr; unfold data_ptr_, word_of; rewrite En; reflexivity.
  - rewrite alone_bind, alone_lift by apply child_idx_no_throw.
    destruct (computeChildIdx i r) as [pos| |]; cbn [obind fst snd]; try reflexivity.
    rewrite alone_bind, alone_childExists. destruct (childExists (mem s) n pos) as [e| |]; cbn [obind fst snd]; try reflexivity.
    rewrite alone_bind. destruct e.
    + cbn [alone obind fst snd]. rewrite alone_bind, alone_getChild.
      destruct (getChild (mem s) n pos) as [c| |]; cbn [obind fst snd negb]; try reflexivity.
      rewrite (IH c false s x Hx) by discriminate.
      destruct (at_insert merge dims r (mem s) c false i v) as [res| |]; cbn [obind fst snd]; try reflexivity.
      rewrite Z.add_0_r. reflexivity.
    + rewrite alone_bind, alone_createChild. destruct (createChild dims (mem s) n pos) as [h1| |] eqn:Ec; cbn [obind fst snd]; try reflexivity.
      destruct (alone_count t (set_mem s h1) x Hx) as [l [U ->]]. cbn [obind fst snd set_mem mem trees] in *.
      rewrite alone_bind, alone_getChild. cbn [mem]. destruct (getChild h1 n pos) as [c| |] eqn:Eg; cbn [obind fst snd negb]; try reflexivity.
      assert (HL : nth_error l t = Some (grown x 1)) by (rewrite (upd_nth_error _ _ _ t _ U), Nat.eqb_refl; reflexivity).
      rewrite (IH c true {| mem := h1; trees := l |} (grown x 1) HL) by (intros _; exact (created_node _ _ _ _ _ Ec Eg)). cbn [mem].
      destruct (at_insert merge dims r h1 c true i v) as [res| |]; cbn [obind fst snd]; try reflexivity.
      f_equal. f_equal. unfold after. cbn [trees]. f_equal.
      assert (G : grown (grown x 1) (snd res) = grown x (snd res + 1)) by (unfold grown; cbn; f_equal; lia). rewrite G.
      destruct (upd_some l t (grown x (snd res + 1))) as [l2 U2]; [apply nth_error_Some; congruence|].
      rewrite U2, (upd_twice _ _ _ _ _ _ U U2). reflexivity.
Qed.

(** Replacing octree [t]. *)
Definition with_tree (s : shared) (t : nat) (h : memory V) (x : tree) : shared :=
  {| mem := h; trees := match upd (trees s) t x with Some l => l | None => trees s end |}.

Lemma alone_insert (t : nat) (i : idx) (v : V) (s : shared) (x : tree) : nth_error (trees s) t = Some x ->
  alone (p_insert merge dims t i v) s =
  let* res := tree_insert merge dims (mem s) x i v in Ok (with_tree s t (fst (fst res)) (snd res), snd (fst res)).
Proof.
  intros Hx. unfold p_insert, tree_insert. cbn [alone]. unfold tree_at. rewrite Hx. cbn [obind].
  destruct (root_ x) as [n|] eqn:Er.
  - cbn [alone]. unfold tree_at. rewrite Hx. cbn [obind]. rewrite Er.
    rewrite (alone_at_insert t tree_depth n false i v s x Hx) by discriminate.
    destruct (at_insert merge dims tree_depth (mem s) n false i v) as [res| |]; cbn [obind fst snd]; try reflexivity.
    unfold after, with_tree, grown. rewrite Er. reflexivity.
  - cbn [alone]. unfold new_object. unfold tree_at. cbn [set_mem trees]. rewrite Hx. cbn [obind]. unfold set_tree. cbn [trees mem set_mem].
    set (x1 := {| root_ := Some (length (mem s)); tree_size_ := tree_size_ x |}).
    destruct (upd_some (trees s) t x1) as [l1 U1]; [apply nth_error_Some; congruence|]. rewrite U1. cbn [obind].
    assert (H1 : nth_error l1 t = Some x1) by (rewrite (upd_nth_error _ _ _ t _ U1), Nat.eqb_refl; reflexivity).
    rewrite alone_bind. destruct (alone_count t {| mem := mem s ++ [ONode WNull]; trees := l1 |} x1 H1) as [l2 [U2 ->]].
    cbn [obind fst snd alone mem trees] in *. unfold tree_at. cbn [trees].
    assert (H2 : nth_error l2 t = Some (grown x1 1)) by (rewrite (upd_nth_error _ _ _ t _ U2), Nat.eqb_refl; reflexivity).
    rewrite H2. cbn [obind grown root_ x1].
    rewrite (alone_at_insert t tree_depth (length (mem s)) true i v {| mem := mem s ++ [ONode WNull]; trees := l2 |} (grown x1 1) H2).
    2:{ intros _. unfold is_node. cbn [mem]. rewrite nth_error_app2, Nat.sub_diag by lia. cbn. eauto. }
    cbn [mem]. destruct (at_insert merge dims tree_depth (mem s ++ [ONode WNull]) (length (mem s)) true i v) as [res| |]; cbn [obind fst snd]; try reflexivity.
    f_equal. f_equal. unfold after, with_tree. cbn [trees]. f_equal.
    set (x2 := grown (grown x1 1) (snd res)).
    destruct (upd_some l2 t x2) as [l3 U3]; [apply nth_error_Some; congruence|].
    rewrite U3.
    assert (U4 : upd (trees s) t x2 = Some l3).
    { apply (upd_twice _ l1 _ _ x1); [exact U1|]. exact (upd_twice _ _ _ _ _ _ U2 U3). }
    unfold x2, x1, grown in U4. cbn [root_ tree_size_] in U4. rewrite U4. reflexivity.
Qed.

Lemma alone_op (t : nat) (o : map_op V) (s : shared) (x : tree) : nth_error (trees s) t = Some x ->
  alone (p_op merge dims t o) s =
  let* r := tree_step merge dims (mem s, x) o in Ok (with_tree s t (fst r) (snd r), tt).
Proof.
  intros Hx. destruct o as [i v|i f]; cbn [p_op tree_step fst snd].
  - rewrite alone_bind, (alone_insert t i v s x Hx). destruct (tree_insert merge dims (mem s) x i v) as [[[h d] y]| |]; reflexivity.
  - rewrite alone_bind, (alone_get t i s x Hx). destruct (tree_get (mem s) x i) as [[d|]| |]; cbn [obind fst snd]; try reflexivity.
    unfold write. cbn [alone]. destruct (data_of (mem s) d) as [e| |]; cbn [obind]; try reflexivity.
    destruct (store (mem s) d (OData (fst e) (f (snd e)))) as [h| |]; cbn [obind fst snd]; try reflexivity.
    unfold with_tree, set_mem. rewrite (upd_same _ _ _ Hx). reflexivity.
Qed.

Lemma alone_ops (t : nat) (ops : list (map_op V)) (s : shared) (x : tree) : nth_error (trees s) t = Some x ->
  alone (p_ops merge dims t ops) s =
  let* r := ofold (tree_step merge dims) ops (mem s, x) in Ok (with_tree s t (fst r) (snd r), tt).
Proof.
  revert s x; induction ops as [|o ops IH]; intros s x Hx; cbn [p_ops ofold].
  - cbn [alone obind fst snd]. unfold with_tree. rewrite (upd_same _ _ _ Hx). destruct s; reflexivity.
  - rewrite alone_bind, (alone_op t o s x Hx). destruct (tree_step merge dims (mem s, x) o) as [[h y]| |]; cbn [obind fst snd]; try reflexivity.
    destruct (upd_some (trees s) t y) as [l U]; [apply nth_error_Some; congruence|].
    assert (Hy : nth_error (trees (with_tree s t h y)) t = Some y).
    { unfold with_tree. rewrite U. cbn [trees]. rewrite (upd_nth_error _ _ _ t _ U), Nat.eqb_refl. reflexivity. }
    rewrite (IH _ y Hy). unfold with_tree at 1. cbn [mem].
    destruct (ofold (tree_step merge dims) ops (h, y)) as [[h2 y2]| |]; cbn [obind fst snd]; try reflexivity.
    f_equal. f_equal. unfold with_tree. rewrite U. cbn [trees]. f_equal.
    destruct (upd_some l t y2) as [l2 U2]; [rewrite (upd_length _ _ _ _ U); apply nth_error_Some; congruence|].
    rewrite U2, (upd_twice _ _ _ _ _ _ U U2). reflexivity.
Qed.
End Seq.

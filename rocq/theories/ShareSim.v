(** Threads that use different octrees: each runs as it would alone, at other addresses. *)
From Verif Require Import Base OctreeSpec OctreeModel TreeHeapSpec TreeHeapModel TreeHeapFacts ShareModel ShareFacts ShareSeq.
Open Scope Z_scope.

Section Sim.
Context {V : Type}.
Variable merge : V -> V -> V.
Variable dims : nat.
Local Notation prog := (prog V).
Local Notation shared := (shared V).

(** [r] lists the addresses in the shared memory of the objects of a thread, in the order in which
    the thread allocated them. *)
Definition ptr_rel (r : list nat) (x x' : option nat) : Prop :=
  match x, x' with None, None => True | Some a, Some a' => nth_error r a = Some a' | _, _ => False end.
Definition word_rel (r : list nat) (w w' : word) : Prop :=
  match w, w' with
  | WNull, WNull => True
  | WChildren a, WChildren a' => nth_error r a = Some a'
  | WData a, WData a' => nth_error r a = Some a'
  | _, _ => False
  end.
Definition object_rel (r : list nat) (o o' : object V) : Prop :=
  match o, o' with
  | ONode w, ONode w' => word_rel r w w'
  | OChildren l, OChildren l' => Forall2 (ptr_rel r) l l'
  | OData i v, OData i' v' => i = i' /\ v = v'
  | _, _ => False
  end.
Definition extends (r r' : list nat) : Prop := exists l, r' = r ++ l.

Lemma extends_refl (r : list nat) : extends r r.
Proof. exists []. rewrite app_nil_r. reflexivity. Qed.
Lemma extends_trans (r1 r2 r3 : list nat) : extends r1 r2 -> extends r2 r3 -> extends r1 r3.
Proof. intros [l ->] [l' ->]. exists (l ++ l'). rewrite app_assoc. reflexivity. Qed.
Lemma extends_nth (r r' : list nat) (a b : nat) : extends r r' -> nth_error r a = Some b -> nth_error r' a = Some b.
Proof. intros [l ->] H. rewrite nth_error_app1; [exact H|]. apply nth_error_Some. congruence. Qed.
Lemma ptr_mono (r r' : list nat) (x x' : option nat) : extends r r' -> ptr_rel r x x' -> ptr_rel r' x x'.
Proof. intros E. destruct x, x'; cbn; auto. apply extends_nth; exact E. Qed.
Lemma object_mono (r r' : list nat) (o o' : object V) : extends r r' -> object_rel r o o' -> object_rel r' o o'.
Proof.
  intros E. destruct o as [w|l|i v], o' as [w'|l'|i' v']; cbn; auto.
  - destruct w, w'; cbn; auto; apply extends_nth; exact E.
  - intros H. induction H; constructor; [eapply ptr_mono; eassumption|assumption].
Qed.

(** The same program at other addresses, touching no octree but [t]. *)
Inductive psim {A : Type} (RA : list nat -> A -> A -> Prop) (t : nat) : list nat -> prog A -> prog A -> Prop :=
| sim_ret r a a' : RA r a a' -> psim RA t r (Ret a) (Ret a')
| sim_crash r : psim RA t r Crash Crash
| sim_read_root r k k' :
    (forall r' x x', extends r r' -> ptr_rel r' x x' -> psim RA t r' (k x) (k' x')) ->
    psim RA t r (ReadRoot t k) (ReadRoot t k')
| sim_write_root r n n' k k' :
    nth_error r n = Some n' -> psim RA t r k k' -> psim RA t r (WriteRoot t n k) (WriteRoot t n' k')
| sim_read_size r k k' :
    (forall z, psim RA t r (k z) (k' z)) -> psim RA t r (ReadSize t k) (ReadSize t k')
| sim_write_size r z k k' : psim RA t r k k' -> psim RA t r (WriteSize t z k) (WriteSize t z k')
| sim_read_word r n n' k k' :
    nth_error r n = Some n' ->
    (forall r' w w', extends r r' -> word_rel r' w w' -> psim RA t r' (k w) (k' w')) ->
    psim RA t r (ReadWord n k) (ReadWord n' k')
| sim_write_word r n n' w w' k k' :
    nth_error r n = Some n' -> word_rel r w w' -> psim RA t r k k' ->
    psim RA t r (WriteWord n w k) (WriteWord n' w' k')
| sim_read_entry r a a' pos k k' :
    nth_error r a = Some a' ->
    (forall r' x x', extends r r' -> ptr_rel r' x x' -> psim RA t r' (k x) (k' x')) ->
    psim RA t r (ReadEntry a pos k) (ReadEntry a' pos k')
| sim_write_entry r a a' pos c c' k k' :
    nth_error r a = Some a' -> nth_error r c = Some c' -> psim RA t r k k' ->
    psim RA t r (WriteEntry a pos c k) (WriteEntry a' pos c' k')
| sim_read_data r d d' k k' :
    nth_error r d = Some d' -> (forall e, psim RA t r (k e) (k' e)) ->
    psim RA t r (ReadData d k) (ReadData d' k')
| sim_update_data r d d' f k k' :
    nth_error r d = Some d' -> psim RA t r k k' -> psim RA t r (UpdateData d f k) (UpdateData d' f k')
| sim_new r o o' k k' :
    object_rel r o o' ->
    (forall r' a a', extends r r' -> nth_error r' a = Some a' -> psim RA t r' (k a) (k' a')) ->
    psim RA t r (NewObject o k) (NewObject o' k').

Lemma psim_bind {A B : Type} (RA : list nat -> A -> A -> Prop) (RB : list nat -> B -> B -> Prop) (t : nat) (r : list nat)
  (p p' : prog A) (q q' : A -> prog B) :
  psim RA t r p p' ->
  (forall r' a a', extends r r' -> RA r' a a' -> psim RB t r' (q a) (q' a')) ->
  psim RB t r (pbind p q) (pbind p' q').
Proof.
  intros H. induction H; cbn [pbind]; intros HQ.
  1: { apply HQ; [apply extends_refl|assumption]. }
  all: constructor; auto.
  all: intros; match goal with H : forall _ _ _, _ -> _ -> _ -> psim _ _ _ _ _ |- _ => eapply H end; eauto.
  all: intros; apply HQ; [eapply extends_trans; eassumption|assumption].
Qed.

Definition same {A : Type} (r : list nat) (a a' : A) : Prop := a = a'.
Definition at_rel (r : list nat) (a a' : nat) : Prop := nth_error r a = Some a'.

Lemma sim_lift {A : Type} (t : nat) (r : list nat) (x : outcome A) : psim same t r (lift x) (lift x).
Proof. destruct x; constructor. reflexivity. Qed.
Lemma sim_children (t : nat) (r : list nat) (n n' : nat) : at_rel r n n' -> psim ptr_rel t r (p_children n) (p_children n').
Proof. intros H. constructor; [exact H|]. intros r' [| |] [| |] _ R; cbn in R; try contradiction; constructor; exact R. Qed.
Lemma sim_data_ptr (t : nat) (r : list nat) (n n' : nat) : at_rel r n n' -> psim ptr_rel t r (p_data_ptr n) (p_data_ptr n').
Proof. intros H. constructor; [exact H|]. intros r' [| |] [| |] _ R; cbn in R; try contradiction; constructor; exact R. Qed.
Lemma sim_childExists (t : nat) (r : list nat) (n n' pos : nat) : at_rel r n n' ->
  psim same t r (p_childExists n pos) (p_childExists n' pos).
Proof.
  intros H. eapply psim_bind; [apply sim_children; exact H|]. intros r' [a|] [a'|] _ R; cbn in R; try contradiction.
  - constructor; [exact R|]. intros r2 [x|] [x'|] _ R2; cbn in R2; try contradiction; constructor; reflexivity.
  - constructor. reflexivity.
Qed.
Lemma sim_getChild (t : nat) (r : list nat) (n n' pos : nat) : at_rel r n n' ->
  psim at_rel t r (p_getChild n pos) (p_getChild n' pos).
Proof.
  intros H. eapply psim_bind; [apply sim_children; exact H|]. intros r' [a|] [a'|] _ R; cbn in R; try contradiction.
  - constructor; [exact R|]. intros r2 [x|] [x'|] _ R2; cbn in R2; try contradiction; constructor. exact R2.
  - constructor.
Qed.
Lemma sim_createChild (t : nat) (r : list nat) (n n' pos : nat) : at_rel r n n' ->
  psim same t r (p_createChild dims n pos) (p_createChild dims n' pos).
Proof.
  intros H. eapply psim_bind; [apply sim_children; exact H|]. intros r' c c' E R.
  eapply psim_bind with (RA := same).
  - destruct c, c'; cbn in R; try contradiction; [constructor; reflexivity|].
    constructor.
    + cbn. clear. induction (2 ^ dims)%nat; cbn; constructor; [exact I|assumption].
    + intros r2 a a' E2 Ra. constructor; [eapply extends_nth; [|exact H]; eapply extends_trans; eassumption|exact Ra|].
      constructor. reflexivity.
  - intros r2 [] [] E2 _. eapply psim_bind; [apply sim_children; eapply extends_nth; [|exact H]; eapply extends_trans; eassumption|].
    intros r3 [a|] [a'|] E3 R3; cbn in R3; try contradiction; [|constructor].
    constructor; [exact I|]. intros r4 b b' E4 Rb. constructor; [eapply extends_nth; eassumption|exact Rb|]. constructor. reflexivity.
Qed.
Lemma sim_count (t : nat) (r : list nat) : psim same t r (p_count t) (p_count (V := V) t).
Proof. constructor. intros z. constructor. constructor. reflexivity. Qed.
Lemma sim_data_insert (t : nat) (r : list nat) (n n' : nat) (b : bool) (i : idx) (v : V) : at_rel r n n' ->
  psim at_rel t r (p_data_insert merge n b i v) (p_data_insert merge n' b i v).
Proof.
  intros H. destruct b; cbn [p_data_insert].
  - constructor; [split; reflexivity|]. intros r' a a' E R. constructor; [eapply extends_nth; eassumption|exact R|]. constructor. exact R.
  - eapply psim_bind; [apply sim_data_ptr; exact H|]. intros r' [a|] [a'|] E R; cbn in R; try contradiction; [|constructor].
    constructor; [exact R|]. constructor. exact R.
Qed.
Lemma sim_at_insert (t rem : nat) (r : list nat) (n n' : nat) (b : bool) (i : idx) (v : V) : at_rel r n n' ->
  psim at_rel t r (p_at_insert merge dims t rem n b i v) (p_at_insert merge dims t rem n' b i v).
Proof.
  revert r n n' b; induction rem as [|rem IH]; intros r n n' b H; cbn [p_at_insert]; [apply sim_data_insert; exact H|].
  eapply psim_bind; [apply sim_lift|]. intros r1 pos pos' E1 Q1. unfold same in Q1. subst pos'.
  eapply psim_bind; [apply sim_childExists; eapply extends_nth; eassumption|]. intros r2 e e' E2 Q2. unfold same in Q2. subst e'.
  assert (E02 := extends_trans _ _ _ E1 E2).
  eapply psim_bind with (RA := same).
  { destruct e; [constructor; reflexivity|]. eapply psim_bind; [apply sim_createChild; exact (extends_nth _ _ _ _ E02 H)|].
    intros. apply sim_count. }
  intros r3 [] [] E3 _. assert (E03 := extends_trans _ _ _ E02 E3).
  eapply psim_bind; [apply sim_getChild; exact (extends_nth _ _ _ _ E03 H)|]. intros r4 c c' E4 Rc. apply IH. exact Rc.
Qed.
Lemma sim_insert (t : nat) (r : list nat) (i : idx) (v : V) : psim at_rel t r (p_insert merge dims t i v) (p_insert merge dims t i v).
Proof.
  constructor. intros r1 [n|] [n'|] E1 R1; cbn in R1; try contradiction.
  - constructor. intros r2 [m|] [m'|] E2 R2; cbn in R2; try contradiction; [|constructor]. apply sim_at_insert. exact R2.
  - constructor; [exact I|]. intros r2 a a' E2 Ra. constructor; [exact Ra|].
    eapply psim_bind; [apply sim_count|]. intros r3 _ _ E3 _.
    constructor. intros r4 [m|] [m'|] E4 R4; cbn in R4; try contradiction; [|constructor]. apply sim_at_insert. exact R4.
Qed.
Lemma sim_at_get (t rem : nat) (r : list nat) (n n' : nat) (i : idx) : at_rel r n n' ->
  psim ptr_rel t r (p_at_get rem n i) (p_at_get rem n' i).
Proof.
  revert r n n'; induction rem as [|rem IH]; intros r n n' H; cbn [p_at_get]; [apply sim_data_ptr; exact H|].
  eapply psim_bind; [apply sim_lift|]. intros r1 pos pos' E1 Q1. unfold same in Q1. subst pos'.
  eapply psim_bind; [apply sim_childExists; eapply extends_nth; eassumption|]. intros r2 e e' E2 Q2. unfold same in Q2. subst e'.
  destruct e; [|constructor; exact I].
  eapply psim_bind; [apply sim_getChild; eapply extends_nth; [|exact H]; eapply extends_trans; eassumption|].
  intros r3 c c' E3 Rc. apply IH. exact Rc.
Qed.
Lemma sim_get (t : nat) (r : list nat) (i : idx) : psim ptr_rel t r (p_get t i) (p_get t i).
Proof.
  constructor. intros r1 [n|] [n'|] E1 R1; cbn in R1; try contradiction; [|constructor; exact I]. apply sim_at_get. exact R1.
Qed.
Lemma sim_op (t : nat) (r : list nat) (o : map_op V) : psim same t r (p_op merge dims t o) (p_op merge dims t o).
Proof.
  destruct o as [i v|i f]; cbn [p_op].
  - eapply psim_bind; [apply sim_insert|]. intros. constructor. reflexivity.
  - eapply psim_bind; [apply sim_get|]. intros r' [d|] [d'|] E R; cbn in R; try contradiction; [|constructor].
    constructor; [exact R|]. constructor. reflexivity.
Qed.
Lemma sim_ops (t : nat) (r : list nat) (ops : list (map_op V)) : psim same t r (p_ops merge dims t ops) (p_ops merge dims t ops).
Proof.
  revert r; induction ops as [|o ops IH]; intros r; cbn [p_ops]; [constructor; reflexivity|].
  eapply psim_bind; [apply sim_op|]. intros. apply IH.
Qed.

(** ** One step *)
Definition tree_rel (r : list nat) (x x' : tree) : Prop :=
  ptr_rel r (root_ x) (root_ x') /\ tree_size_ x = tree_size_ x'.
(** The state of thread [t] on its own and its part of the shared state. *)
Record srel (t : nat) (r : list nat) (s s' : shared) : Prop := {
  sr_length : length r = length (mem s);
  sr_nodup : NoDup r;
  sr_bound : forall a, In a r -> (a < length (mem s'))%nat;
  sr_objects : forall a a' o, nth_error r a = Some a' -> nth_error (mem s) a = Some o ->
    exists o', nth_error (mem s') a' = Some o' /\ object_rel r o o';
  sr_tree : forall x, nth_error (trees s) t = Some x -> exists x', nth_error (trees s') t = Some x' /\ tree_rel r x x' }.
(** Nothing changes but what [r] lists and octree [t]. *)
Record frame (t : nat) (r : list nat) (s s' : shared) : Prop := {
  fr_length : (length (mem s) <= length (mem s'))%nat;
  fr_objects : forall a, (a < length (mem s))%nat -> ~ In a r -> nth_error (mem s') a = nth_error (mem s) a;
  fr_trees : forall u, u <> t -> nth_error (trees s') u = nth_error (trees s) u }.
Lemma frame_refl (t : nat) (r : list nat) (s : shared) : frame t r s s.
Proof. split; auto. Qed.

Lemma srel_frame (t u : nat) (r ru : list nat) (su s s' : shared) :
  srel u ru su s -> frame t r s s' -> t <> u -> (forall a, In a r -> In a ru -> False) -> srel u ru su s'.
Proof.
  intros [L N B O T] [FL FO FT] Htu D. split; auto.
  - intros a Ha. specialize (B a Ha). lia.
  - intros a a' o Ha Ho. destruct (O a a' o Ha Ho) as [o' [Ho' R]]. exists o'. split; [|exact R].
    assert (I := nth_error_In _ _ Ha). rewrite FO; [exact Ho'|apply B; exact I|]. intros I2. exact (D a' I2 I).
  - intros x Hx. rewrite FT by congruence. apply T. exact Hx.
Qed.

(** Overwriting an object. *)
Lemma srel_store (t : nat) (r : list nat) (s s' : shared) (a a' : nat) (o o' : object V) (h : memory V) :
  srel t r s s' -> nth_error r a = Some a' -> store (mem s) a o = Ok h -> object_rel r o o' ->
  exists h', store (mem s') a' o' = Ok h' /\ srel t r (set_mem s h) (set_mem s' h') /\ frame t r s' (set_mem s' h').
Proof.
  intros [L N B O T] Ha Hs R.
  assert (Ba : (a < length (mem s))%nat) by (rewrite <- L; apply nth_error_Some; congruence).
  destruct (nth_error (mem s) a) as [o0|] eqn:E0; [|apply nth_error_None in E0; lia].
  destruct (O a a' o0 Ha E0) as [o0' [E0' _]]. destruct (store_ok (mem s') a' o' o0' E0') as [h' Hh']. exists h'.
  split; [exact Hh'|]. split.
  - split; cbn [set_mem mem trees]; auto.
    + rewrite (store_length _ _ _ _ Hs). exact L.
    + intros b Hb. rewrite (store_length _ _ _ _ Hh'). auto.
    + intros b b' ob Hb Hob. rewrite (store_nth _ _ _ b _ Hs) in Hob. rewrite (store_nth _ _ _ b' _ Hh').
      destruct (Nat.eqb_spec a b) as [->|Nab].
      * assert (b' = a') by congruence. subst b'. rewrite Nat.eqb_refl. injection Hob as <-. eauto.
      * destruct (Nat.eqb_spec a' b') as [->|_]; [|eauto].
        exfalso. apply Nab. apply (proj1 (NoDup_nth_error r) N); [apply nth_error_Some; congruence|congruence].
  - split; cbn [set_mem mem trees]; auto.
    + rewrite (store_length _ _ _ _ Hh'). lia.
    + intros b _ Hb. rewrite (store_nth _ _ _ b _ Hh'). destruct (Nat.eqb_spec a' b) as [->|_]; [|reflexivity].
      exfalso. apply Hb. eapply nth_error_In. exact Ha.
Qed.

(** Allocating an object. *)
Lemma srel_new (t : nat) (r : list nat) (s s' : shared) (o o' : object V) :
  srel t r s s' -> object_rel r o o' ->
  let r1 := r ++ [length (mem s')] in
  srel t r1 (set_mem s (mem s ++ [o])) (set_mem s' (mem s' ++ [o'])) /\
  nth_error r1 (length (mem s)) = Some (length (mem s')).
Proof.
  intros [L N B O T] R r1. assert (E : extends r r1) by (exists [length (mem s')]; reflexivity).
  assert (F : nth_error r1 (length (mem s)) = Some (length (mem s'))).
  { unfold r1. rewrite nth_error_app2 by lia. rewrite L, Nat.sub_diag. reflexivity. }
  split; [|exact F]. split; cbn [set_mem mem trees].
  - unfold r1. rewrite !app_length. cbn. lia.
  - unfold r1. apply Permutation_NoDup with (l := length (mem s') :: r); [apply Permutation_cons_append|].
    constructor; [|exact N]. intros I. specialize (B _ I). lia.
  - unfold r1. intros a Ha. rewrite app_length. cbn. apply in_app_or in Ha. destruct Ha as [Ha|[<-|[]]]; [specialize (B a Ha)|]; lia.
  - intros a a' oa Ha Hoa. rewrite nth_new in Hoa. destruct (Nat.eqb_spec (length (mem s)) a) as [<-|Na].
    + injection Hoa as <-. assert (a' = length (mem s')) by congruence. subst a'. exists o'.
      split; [rewrite nth_new, Nat.eqb_refl; reflexivity|eapply object_mono; eassumption].
    + assert (La : (a < length (mem s))%nat) by (apply nth_error_Some; congruence).
      assert (Ha0 : nth_error r a = Some a').
      { unfold r1 in Ha. rewrite nth_error_app1 in Ha by lia. exact Ha. }
      destruct (O a a' oa Ha0 Hoa) as [oa' [Hoa' Ra]]. exists oa'. split; [|eapply object_mono; eassumption].
      rewrite nth_error_app1; [exact Hoa'|]. apply nth_error_Some. congruence.
  - intros x Hx. destruct (T x Hx) as [x' [Hx' [Rr Rs]]]. exists x'. split; [exact Hx'|]. split; [eapply ptr_mono; eassumption|exact Rs].
Qed.

Lemma srel_tree (t : nat) (r : list nat) (s s' s1 : shared) (x x' : tree) :
  srel t r s s' -> set_tree s t x = Ok s1 -> tree_rel r x x' ->
  exists s1', set_tree s' t x' = Ok s1' /\ srel t r s1 s1' /\ frame t r s' s1'.
Proof.
  intros [L N B O T] Hs R. unfold set_tree in *. destruct (upd (trees s) t x) as [l|] eqn:U; [|discriminate]. injection Hs as <-.
  assert (Lt : (t < length (trees s))%nat).
  { assert (nth_error l t = Some x) by (rewrite (upd_nth_error _ _ _ t _ U), Nat.eqb_refl; reflexivity).
    rewrite <- (upd_length _ _ _ _ U). apply nth_error_Some. congruence. }
  destruct (nth_error (trees s) t) as [x0|] eqn:E0; [|apply nth_error_None in E0; lia].
  destruct (T x0 eq_refl) as [x0' [Hx0' _]].
  destruct (upd_some (trees s') t x') as [l' U']; [apply nth_error_Some; congruence|]. rewrite U'. eexists. split; [reflexivity|].
  split; split; cbn [mem trees]; auto.
  - intros y Hy. rewrite (upd_nth_error _ _ _ t _ U), Nat.eqb_refl in Hy. injection Hy as <-. exists x'.
    rewrite (upd_nth_error _ _ _ t _ U'), Nat.eqb_refl. auto.
  - intros u Hu. rewrite (upd_nth_error _ _ _ u _ U'). destruct (Nat.eqb_spec t u); congruence.
Qed.

Lemma upd_rel (r : list nat) (l l' l1 : list (option nat)) (pos : nat) (x x' : option nat) :
  Forall2 (ptr_rel r) l l' -> ptr_rel r x x' -> upd l pos x = Some l1 ->
  exists l1', upd l' pos x' = Some l1' /\ Forall2 (ptr_rel r) l1 l1'.
Proof.
  intros H Hx. revert pos l1; induction H as [|y y' l l' Hy H IH]; intros pos l1 U; [discriminate|].
  destruct pos as [|pos]; cbn [upd] in U |- *.
  - injection U as <-. eexists. split; [reflexivity|]. constructor; assumption.
  - destruct (upd l pos x) as [l2|] eqn:E; [|discriminate]. injection U as <-.
    destruct (IH pos l2 E) as [l2' [E' R]]. rewrite E'. eexists. split; [reflexivity|]. constructor; assumption.
Qed.
Lemma nth_rel (r : list nat) (l l' : list (option nat)) (pos : nat) (x : option nat) :
  Forall2 (ptr_rel r) l l' -> nth_error l pos = Some x -> exists x', nth_error l' pos = Some x' /\ ptr_rel r x x'.
Proof.
  intros H. revert pos; induction H as [|y y' l l' Hy H IH]; intros pos E; [destruct pos; discriminate|].
  destruct pos as [|pos]; cbn [nth_error] in *; [injection E as <-; eauto|apply IH; exact E].
Qed.

(** A step of a thread is its step alone; it touches nothing of other threads. *)
Lemma own_step {A : Type} (RA : list nat -> A -> A -> Prop) (t : nat) (r : list nat) (p p' : prog A) (s s' s1 : shared) (p1 : prog A) :
  psim RA t r p p' -> srel t r s s' -> pstep p s = Ok (s1, p1) ->
  exists r1 s1' p1', pstep p' s' = Ok (s1', p1') /\ psim RA t r1 p1 p1' /\ srel t r1 s1 s1' /\ frame t r s' s1' /\
    (forall a, In a r1 -> In a r \/ (length (mem s') <= a)%nat).
Proof.
  intros P S H. assert (W : forall a, In a r -> In a r \/ (length (mem s') <= a)%nat) by auto.
  destruct P; cbn [pstep] in *.
  - injection H as <- <-. exists r, s', (Ret a'). repeat split; auto using frame_refl; try apply S. constructor; assumption.
  - discriminate.
  - obreak H. injection H as <- <-. rename a into x. unfold tree_at in *.
    destruct (nth_error (trees s) t) eqn:E1; [|discriminate]. injection E as ->.
    destruct (sr_tree _ _ _ _ S x E1) as [x' [E2 [R _]]]. rewrite E2. cbn [obind].
    exists r, s', (k' (root_ x')). split; [reflexivity|]. split; [|split; [exact S|split; [apply frame_refl|exact W]]].
    apply H0; [apply extends_refl|exact R].
  - obreak H. obreak H. injection H as <- <-. rename a into x. unfold tree_at in *.
    destruct (nth_error (trees s) t) eqn:E1; [|discriminate]. injection E as ->.
    destruct (sr_tree _ _ _ _ S x E1) as [x' [E2 [_ R]]]. rewrite E2. cbn [obind].
    destruct (srel_tree t r s s' _ _ {| root_ := Some n'; tree_size_ := tree_size_ x' |} S E0) as [s1' [Es [S' F]]].
    { split; [exact H0|exact R]. }
    rewrite Es. cbn [obind]. exists r, s1', k'. auto.
  - obreak H. injection H as <- <-. rename a into x. unfold tree_at in *.
    destruct (nth_error (trees s) t) eqn:E1; [|discriminate]. injection E as ->.
    destruct (sr_tree _ _ _ _ S x E1) as [x' [E2 [_ R]]]. rewrite E2. cbn [obind].
    exists r, s', (k' (tree_size_ x')). split; [reflexivity|]. split; [|split; [exact S|split; [apply frame_refl|exact W]]].
    rewrite <- R. apply H0.
  - obreak H. obreak H. injection H as <- <-. rename a into x. unfold tree_at in *.
    destruct (nth_error (trees s) t) eqn:E1; [|discriminate]. injection E as ->.
    destruct (sr_tree _ _ _ _ S x E1) as [x' [E2 [R _]]]. rewrite E2. cbn [obind].
    destruct (srel_tree t r s s' _ _ {| root_ := root_ x'; tree_size_ := z |} S E0) as [s1' [Es [S' F]]].
    { split; [exact R|reflexivity]. }
    rewrite Es. cbn [obind]. exists r, s1', k'. auto.
  - obreak H. injection H as <- <-. rename a into w. unfold word_of in *.
    destruct (nth_error (mem s) n) as [[w0| |]|] eqn:E1; try discriminate. injection E as ->.
    destruct (sr_objects _ _ _ _ S _ _ _ H0 E1) as [[w'| |] [E2 R]]; cbn in R; try contradiction. rewrite E2. cbn [obind].
    exists r, s', (k' w'). split; [reflexivity|]. split; [|split; [exact S|split; [apply frame_refl|exact W]]].
    apply H1; [apply extends_refl|exact R].
  - obreak H. obreak H. injection H as <- <-. unfold word_of in *.
    destruct (nth_error (mem s) n) as [[w0| |]|] eqn:E1; try discriminate.
    destruct (sr_objects _ _ _ _ S _ _ _ H0 E1) as [[w0'| |] [E2 R]]; cbn in R; try contradiction. rewrite E2. cbn [obind].
    destruct (srel_store t r s s' n n' _ (ONode w') _ S H0 E0 H1) as [h' [Eh [S' F]]]. rewrite Eh. cbn [obind].
    exists r, (set_mem s' h'), k'. auto.
  - obreak H. obreak H. injection H as <- <-. rename a0 into l. rename a1 into x. unfold array_of, entry in *.
    destruct (nth_error (mem s) a) as [[|l0|]|] eqn:E1; try discriminate. injection E as ->.
    destruct (sr_objects _ _ _ _ S _ _ _ H0 E1) as [[|l'|] [E2 R]]; cbn in R; try contradiction. rewrite E2. cbn [obind].
    destruct (nth_error l pos) as [x0|] eqn:E3; [|discriminate]. injection E0 as ->.
    destruct (nth_rel _ _ _ _ _ R E3) as [x' [E4 R']]. rewrite E4. cbn [obind].
    exists r, s', (k' x'). split; [reflexivity|]. split; [|split; [exact S|split; [apply frame_refl|exact W]]].
    apply H1; [apply extends_refl|exact R'].
  - obreak H. rename a0 into l. unfold array_of in *.
    destruct (nth_error (mem s) a) as [[|l0|]|] eqn:E1; try discriminate. injection E as ->.
    destruct (sr_objects _ _ _ _ S _ _ _ H0 E1) as [[|l'|] [E2 R]]; cbn in R; try contradiction. rewrite E2. cbn [obind].
    destruct (upd l pos (Some c)) as [l1|] eqn:U; [|discriminate]. obreak H. injection H as <- <-.
    destruct (upd_rel r l l' l1 pos (Some c) (Some c') R H1 U) as [l1' [U' R']]. rewrite U'.
    destruct (srel_store t r s s' a a' _ (OChildren l1') _ S H0 E R') as [h' [Eh [S' F]]]. rewrite Eh. cbn [obind].
    exists r, (set_mem s' h'), k'. auto.
  - obreak H. injection H as <- <-. rename a into e. unfold data_of in *.
    destruct (nth_error (mem s) d) as [[| |i v]|] eqn:E1; try discriminate. injection E as <-.
    destruct (sr_objects _ _ _ _ S _ _ _ H0 E1) as [[| |i' v'] [E2 R]]; cbn in R; try contradiction. destruct R as [<- <-].
    rewrite E2. cbn [obind].
    exists r, s', (k' (i, v)). split; [reflexivity|]. split; [|split; [exact S|split; [apply frame_refl|exact W]]]. apply H1.
  - obreak H. obreak H. injection H as <- <-. rename a into e. unfold data_of in *.
    destruct (nth_error (mem s) d) as [[| |i v]|] eqn:E1; try discriminate. injection E as <-.
    destruct (sr_objects _ _ _ _ S _ _ _ H0 E1) as [[| |i' v'] [E2 R]]; cbn in R; try contradiction. destruct R as [<- <-].
    rewrite E2. cbn [obind fst snd] in *.
    destruct (srel_store t r s s' d d' _ (OData i (f v)) _ S H0 E0) as [h' [Eh [S' F]]]; [cbn; auto|]. rewrite Eh. cbn [obind].
    exists r, (set_mem s' h'), k'. auto.
  - unfold new_object in *. injection H as <- <-.
    destruct (srel_new t r s s' o o' S H0) as [S' F].
    exists (r ++ [length (mem s')]), (set_mem s' (mem s' ++ [o'])), (k' (length (mem s'))).
    split; [reflexivity|]. split; [apply H1; [exists [length (mem s')]; reflexivity|exact F]|]. split; [exact S'|]. split.
    + split; cbn [set_mem mem trees]; auto.
      * rewrite app_length. lia.
      * intros a Ha _. rewrite nth_error_app1 by exact Ha. reflexivity.
    + intros a Ha. apply in_app_or in Ha. destruct Ha as [Ha|[<-|[]]]; auto.
Qed.
End Sim.

(** Octrees in memory refine the octrees of OctreeModel.v. *)
From Verif Require Import Base OctreeModel OctreeSpec OctreeFacts OctreeHist TreeHeapSpec TreeHeapModel.
Open Scope Z_scope.

Lemma nodup_app {A : Type} (l1 l2 : list A) : NoDup (l1 ++ l2) -> NoDup l1 /\ NoDup l2.
Proof.
  induction l1 as [|x l1 IH]; cbn [app]; intros H; [split; [constructor|exact H]|].
  inversion H; subst. destruct (IH H3) as [H4 H5]. split; [|exact H5]. constructor; [|exact H4].
  intros Hin. apply H2. apply in_or_app; left; exact Hin.
Qed.
Lemma nodup_concat {A : Type} (l : list (list A)) :
  NoDup (concat l) <->
  (forall p f, nth_error l p = Some f -> NoDup f) /\
  (forall p q f g a, nth_error l p = Some f -> nth_error l q = Some g -> In a f -> In a g -> p = q).
Proof.
  induction l as [|x l IH]; cbn [concat].
  - split; [intros _; split; intros [|p]; try discriminate; cbn; discriminate|constructor].
  - split.
    + intros H. assert (Hx : NoDup x) by (apply (nodup_app _ _ H)).
      assert (Hl : NoDup (concat l)) by (apply (nodup_app _ _ H)).
      assert (D : forall a, In a x -> In a (concat l) -> False).
      { intros a Ha Hb. clear Hx Hl IH. induction x as [|y x IHx]; [contradiction|].
        cbn [app] in H. inversion H; subst. destruct Ha as [->|Ha]; [|auto].
        apply H2. apply in_or_app; auto. }
      apply IH in Hl. destruct Hl as [L1 L2]. split.
      * intros [|p] f Hf; cbn in Hf; [congruence|eauto].
      * intros [|p] [|q] f g a Hf Hg Haf Hag; cbn in Hf, Hg; [reflexivity| | |f_equal; eauto].
        -- exfalso. injection Hf as ->. apply (D a Haf). apply in_concat. exists g. split; [eapply nth_error_In; exact Hg|exact Hag].
        -- exfalso. injection Hg as ->. apply (D a Hag). apply in_concat. exists f. split; [eapply nth_error_In; exact Hf|exact Haf].
    + intros [H1 H2].
      assert (Hl : NoDup (concat l)).
      { apply IH. split; [intros p f Hf; apply (H1 (S p) f Hf)|].
        intros p q f g a Hf Hg Ha Hb. assert (S p = S q) by (apply (H2 (S p) (S q) f g a); assumption). congruence. }
      pose proof (H1 O x eq_refl) as Hx.
      assert (D : forall a, In a x -> In a (concat l) -> False).
      { intros a Ha Hb. apply in_concat in Hb. destruct Hb as [g [Hg Hb]]. apply In_nth_error in Hg. destruct Hg as [q Hq].
        discriminate (H2 O (S q) x g a eq_refl Hq Ha Hb). }
      clear -Hx Hl D. induction x as [|y x IHx]; cbn [app]; [exact Hl|].
      inversion Hx; subst. constructor.
      * intros Hin. apply in_app_or in Hin. destruct Hin as [Hin|Hin]; [auto|]. apply (D y); [left; reflexivity|exact Hin].
      * apply IHx; [assumption|]. intros a Ha. apply D. right; exact Ha.
Qed.

Section Facts.
Context {V : Type}.
Variable merge : V -> V -> V.
Variable dims : nat.
Notation good := (key_computable dims).
Notation node := (node V).
Notation memory := (memory V).

(** ** Memory *)
Lemma store_nth (h h' : memory) (a b : addr) (o : object V) :
  store h a o = Ok h' -> nth_error h' b = if Nat.eqb a b then Some o else nth_error h b.
Proof.
  unfold store. destruct (upd h a o) as [l|] eqn:E; [|discriminate]. intros H; injection H as ->.
  apply (upd_nth_error _ _ _ _ _ E).
Qed.
Lemma store_length (h h' : memory) (a : addr) (o : object V) : store h a o = Ok h' -> length h' = length h.
Proof.
  unfold store. destruct (upd h a o) as [l|] eqn:E; [|discriminate]. intros H; injection H as ->.
  apply (upd_length _ _ _ _ E).
Qed.
Lemma store_ok (h : memory) (a : addr) (o o0 : object V) : nth_error h a = Some o0 -> exists h', store h a o = Ok h'.
Proof.
  intros H. unfold store. destruct (upd_some h a o) as [h' E]; [apply nth_error_Some; congruence|].
  rewrite E. eauto.
Qed.
Lemma nth_lt (h : memory) (a : addr) (o : object V) : nth_error h a = Some o -> (a < length h)%nat.
Proof. intros H. apply nth_error_Some. congruence. Qed.
Lemma nth_new (h : memory) (o : object V) (a : addr) :
  nth_error (h ++ [o]) a = if Nat.eqb (length h) a then Some o else nth_error h a.
Proof.
  destruct (Nat.eqb_spec (length h) a) as [<-|N].
  - rewrite nth_error_app2 by lia. rewrite Nat.sub_diag. reflexivity.
  - destruct (Nat.lt_ge_cases a (length h)); [apply nth_error_app1; assumption|].
    transitivity (@None (object V)); [|symmetry]; apply nth_error_None; [rewrite app_length; cbn|]; lia.
Qed.

(** What never changes: nodes keep what they point to, elements keep their index. *)
Definition refined (o o' : object V) : Prop :=
  match o, o' with
  | ONode WNull, ONode _ => True
  | ONode w, ONode w' => w = w'
  | OChildren l, OChildren l' => forall p a, nth_error l p = Some (Some a) -> nth_error l' p = Some (Some a)
  | OData i _, OData j _ => i = j
  | _, _ => False
  end.
Definition grows (h h' : memory) : Prop :=
  forall a o, nth_error h a = Some o -> exists o', nth_error h' a = Some o' /\ refined o o'.
Lemma refined_refl (o : object V) : refined o o.
Proof. destruct o as [[]| |]; cbn; auto. Qed.
Lemma refined_trans (o1 o2 o3 : object V) : refined o1 o2 -> refined o2 o3 -> refined o1 o3.
Proof.
  destruct o1 as [[]| |], o2 as [[]| |], o3 as [[]| |]; cbn; intros H1 H2; try contradiction; try congruence; auto.
Qed.
Lemma grows_refl (h : memory) : grows h h.
Proof. intros a o H. exists o. split; [exact H|apply refined_refl]. Qed.
Lemma grows_trans (h1 h2 h3 : memory) : grows h1 h2 -> grows h2 h3 -> grows h1 h3.
Proof.
  intros A B a o H. destruct (A a o H) as [o2 [H2 R2]]. destruct (B a o2 H2) as [o3 [H3 R3]].
  exists o3. split; [exact H3|eapply refined_trans; eassumption].
Qed.
Lemma grows_new (h : memory) (o : object V) : grows h (h ++ [o]).
Proof.
  intros a x H. exists x. split; [|apply refined_refl].
  rewrite nth_error_app1; [exact H|apply nth_error_Some; congruence].
Qed.
Lemma grows_store (h h' : memory) (a : addr) (o o0 : object V) :
  nth_error h a = Some o0 -> refined o0 o -> store h a o = Ok h' -> grows h h'.
Proof.
  intros H0 R S b x Hx. rewrite (store_nth _ _ _ b _ S).
  destruct (Nat.eqb_spec a b) as [->|N].
  - exists o. split; [reflexivity|]. congruence.
  - exists x. split; [exact Hx|apply refined_refl].
Qed.

Lemma grows_child (h h' : memory) (n : addr) (p : nat) (c : addr) :
  grows h h' -> getChild h n p = Ok c -> childExists h' n p = Ok true /\ getChild h' n p = Ok c.
Proof.
  intros G H. unfold getChild, childExists, children_, word_of in *.
  destruct (nth_error h n) as [[[|k|k]| |]|] eqn:En; cbn [obind] in *; try discriminate.
  destruct (G n _ En) as [o' [En' R]]. destruct o' as [w'| |]; cbn in R; try contradiction. subst w'.
  rewrite En'. cbn [obind]. unfold array_of in *.
  destruct (nth_error h k) as [[|l|]|] eqn:Ek; cbn [obind] in *; try discriminate.
  destruct (G k _ Ek) as [o' [Ek' R]]. destruct o' as [|l'|]; cbn in R; try contradiction.
  rewrite Ek'. cbn [obind]. unfold entry in *.
  destruct (nth_error l p) as [[x|]|] eqn:Ep; cbn [obind] in *; try discriminate.
  rewrite (R p x Ep). cbn [obind]. split; [reflexivity|exact H].
Qed.

Lemma exists_child (h : memory) (n : addr) (p : nat) : childExists h n p = Ok true -> exists c, getChild h n p = Ok c.
Proof.
  unfold getChild, childExists. destruct (children_ h n) as [[a|]| |]; cbn [obind]; try discriminate.
  destruct (array_of h a); cbn [obind]; try discriminate. destruct (entry a0 p) as [[x|]| |]; cbn [obind]; try discriminate.
  eauto.
Qed.

Lemma grows_get (r : nat) (h h' : memory) (n : addr) (i : idx) (d : addr) :
  grows h h' -> at_get r h n i = Ok (Some d) -> at_get r h' n i = Ok (Some d).
Proof.
  intros G. revert n; induction r as [|r IH]; intros n H; cbn [at_get] in *.
  - unfold data_ptr_, word_of in *.
    destruct (nth_error h n) as [[[|k|k]| |]|] eqn:En; cbn [obind] in *; try discriminate.
    destruct (G n _ En) as [o' [En' R]]. destruct o' as [w'| |]; cbn in R; try contradiction. subst w'.
    rewrite En'. exact H.
  - destruct (computeChildIdx i r) as [p| |]; cbn [obind] in *; try discriminate.
    destruct (childExists h n p) as [[|]| |] eqn:E; cbn [obind] in *; try discriminate.
    destruct (exists_child h n p E) as [c Hc]. rewrite Hc in H. cbn [obind] in H.
    destruct (grows_child h h' n p c G Hc) as [E1 E2]. rewrite E1. cbn [obind]. rewrite E2. cbn [obind]. auto.
Qed.

(** ** Representation of a node by the objects at the addresses [fp] *)
Definition slot_rel (R : addr -> node -> list addr -> Prop) (x : option (option node))
  (y : option (option addr)) (z : option (list addr)) : Prop :=
  match x, y, z with
  | Some (Some c), Some (Some a), Some f => R a c f
  | Some None, Some None, Some f => f = []
  | None, None, None => True
  | _, _, _ => False
  end.
Fixpoint repr (r : nat) (h : memory) (n : addr) (nd : node) (fp : list addr) : Prop :=
  match nd with
  | NNull => fp = [n] /\ nth_error h n = Some (ONode WNull)
  | NData i v =>
      match r with
      | O => exists d, fp = [n; d] /\ nth_error h n = Some (ONode (WData d)) /\ nth_error h d = Some (OData i v)
      | S _ => False
      end
  | NChildren cs =>
      match r with
      | O => False
      | S r' => exists k l fps, fp = n :: k :: concat fps /\
          nth_error h n = Some (ONode (WChildren k)) /\ nth_error h k = Some (OChildren l) /\
          forall p, slot_rel (repr r' h) (nth_error cs p) (nth_error l p) (nth_error fps p)
      end
  end.

Lemma repr_lt (r : nat) (h : memory) (n : addr) (nd : node) (fp : list addr) (a : addr) :
  repr r h n nd fp -> In a fp -> (a < length h)%nat.
Proof.
  revert n nd fp; induction r as [|r IH]; intros n nd fp H Ha; destruct nd as [|cs|i v]; cbn [repr] in H; try contradiction.
  - destruct H as [-> E]. destruct Ha as [<-|[]]. apply (nth_lt _ _ _ E).
  - destruct H as [d [-> [E1 E2]]]. destruct Ha as [<-|[<-|[]]]; eapply nth_lt; eassumption.
  - destruct H as [-> E]. destruct Ha as [<-|[]]. apply (nth_lt _ _ _ E).
  - destruct H as [k [l [fps [-> [E1 [E2 F]]]]]].
    destruct Ha as [<-|[<-|Ha]]; try (eapply nth_lt; eassumption).
    apply in_concat in Ha. destruct Ha as [f [Hf Ha]]. apply In_nth_error in Hf. destruct Hf as [p Hp].
    specialize (F p). rewrite Hp in F. unfold slot_rel in F.
    destruct (nth_error cs p) as [[c|]|], (nth_error l p) as [[b|]|]; try contradiction.
    + eapply IH; eassumption.
    + subst f. contradiction.
Qed.

Lemma repr_frame (r : nat) (h h' : memory) (n : addr) (nd : node) (fp : list addr) :
  (forall a, In a fp -> nth_error h' a = nth_error h a) -> repr r h n nd fp -> repr r h' n nd fp.
Proof.
  revert n nd fp; induction r as [|r IH]; intros n nd fp A H; destruct nd as [|cs|i v]; cbn [repr] in *; try contradiction.
  - destruct H as [-> E]. split; [reflexivity|]. rewrite A; [exact E|left; reflexivity].
  - destruct H as [d [-> [E1 E2]]]. exists d. split; [reflexivity|].
    rewrite !A; [auto|right; left; reflexivity|left; reflexivity].
  - destruct H as [-> E]. split; [reflexivity|]. rewrite A; [exact E|left; reflexivity].
  - destruct H as [k [l [fps [-> [E1 [E2 F]]]]]]. exists k, l, fps. split; [reflexivity|].
    rewrite !A by (cbn; auto). split; [exact E1|]. split; [exact E2|].
    intros p. specialize (F p). unfold slot_rel in *.
    destruct (nth_error cs p) as [[c|]|], (nth_error l p) as [[b|]|], (nth_error fps p) as [f|] eqn:Ef; try contradiction; auto.
    apply IH; [|exact F]. intros a Ha. apply A. right; right. apply in_concat. exists f.
    split; [eapply nth_error_In; exact Ef|exact Ha].
Qed.

Lemma repr_root (r : nat) (h : memory) (n : addr) (nd : node) (fp : list addr) : repr r h n nd fp -> In n fp.
Proof.
  destruct r, nd; cbn [repr]; try contradiction.
  - intros [-> _]; left; reflexivity.
  - intros [d [-> _]]; left; reflexivity.
  - intros [-> _]; left; reflexivity.
  - intros [k [l [fps [-> _]]]]; left; reflexivity.
Qed.

(** Memory [h] with footprint [fp] becomes [h'] with footprint [fp']: only the footprint changes,
    and it only grows by new objects. *)
Definition evolves (h : memory) (fp : list addr) (h' : memory) (fp' : list addr) : Prop :=
  (length h <= length h')%nat /\ incl fp fp' /\
  (forall a, In a fp' -> In a fp \/ (length h <= a)%nat) /\
  (forall a, (a < length h)%nat -> ~ In a fp -> nth_error h' a = nth_error h a).
Lemma evolves_trans (h1 h2 h3 : memory) (f1 f2 f3 : list addr) :
  evolves h1 f1 h2 f2 -> evolves h2 f2 h3 f3 -> evolves h1 f1 h3 f3.
Proof.
  intros [A1 [A2 [A3 A4]]] [B1 [B2 [B3 B4]]]. split; [lia|]. split; [eapply incl_tran; eassumption|]. split.
  - intros a Ha. destruct (B3 a Ha) as [Hb|Hb]; [apply A3; exact Hb|right; lia].
  - intros a L N. rewrite B4; [apply A4; assumption|lia|]. intros Hb. destruct (A3 a Hb); [contradiction|lia].
Qed.

(** Going down to child [p] and replacing it. *)
Lemma descend (r : nat) (h : memory) (n : addr) (cs : list (option node)) (fp : list addr) (p : nat) (c : node) :
  repr (S r) h n (NChildren cs) fp -> NoDup fp -> nth_error cs p = Some (Some c) ->
  exists a f, childExists h n p = Ok true /\ getChild h n p = Ok a /\ repr r h a c f /\ NoDup f /\ incl f fp /\
    forall h' c' f' cs', repr r h' a c' f' -> NoDup f' -> evolves h f h' f' -> upd cs p (Some c') = Some cs' ->
      exists fp', repr (S r) h' n (NChildren cs') fp' /\ NoDup fp' /\ evolves h fp h' fp'.
Proof.
  intros H ND Hc. pose proof (fun a => repr_lt (S r) h n (NChildren cs) fp a H) as LT.
  cbn [repr] in H. destruct H as [k [l [fps [-> [En [Ek F]]]]]].
  pose proof (F p) as Fp. rewrite Hc in Fp. unfold slot_rel in Fp.
  destruct (nth_error l p) as [[a|]|] eqn:El; try contradiction.
  destruct (nth_error fps p) as [f|] eqn:Ef; try contradiction.
  inversion ND as [|? ? Nn ND1]; subst. inversion ND1 as [|? ? Nk ND2]; subst.
  pose proof (proj1 (nodup_concat fps) ND2) as [C1 C2].
  assert (If : incl f (concat fps)).
  { intros x Hx. apply in_concat. exists f. split; [eapply nth_error_In; exact Ef|exact Hx]. }
  exists a, f.
  unfold childExists, getChild, children_, word_of, array_of, entry. rewrite En. cbn [obind]. rewrite Ek. cbn [obind].
  rewrite El. cbn [obind].
  split; [reflexivity|]. split; [reflexivity|]. split; [exact Fp|]. split; [eapply C1; exact Ef|].
  split; [intros x Hx; right; right; apply If; exact Hx|].
  intros h' c' f' cs' R' ND' [L' [I' [N' Fr]]] Hu.
  assert (Lf : (p < length fps)%nat) by (apply nth_error_Some; congruence).
  destruct (upd_some fps p f' Lf) as [fps' Hf].
  assert (Ln : (n < length h)%nat) by (eapply nth_lt; exact En).
  assert (Lk : (k < length h)%nat) by (eapply nth_lt; exact Ek).
  assert (Nf : ~ In n f) by (intros X; apply Nn; right; apply If; exact X).
  assert (Kf : ~ In k f) by (intros X; apply Nk; apply If; exact X).
  assert (Old : forall q g x, nth_error fps q = Some g -> In x g -> (x < length h)%nat).
  { intros q g x Hq Hx. apply LT. right; right. apply in_concat. exists g. split; [eapply nth_error_In; exact Hq|exact Hx]. }
  exists (n :: k :: concat fps').
  assert (In' : forall x, In x (concat fps') -> In x (concat fps) \/ (length h <= x)%nat).
  { intros x Hx. apply in_concat in Hx. destruct Hx as [g [Hg Hx]]. apply In_nth_error in Hg. destruct Hg as [q Hq].
    rewrite (upd_nth_error _ _ _ _ _ Hf) in Hq. destruct (Nat.eqb_spec p q) as [Epq|Npq]; [subst q|].
    - injection Hq as <-. destruct (N' x Hx) as [Hy|Hy]; [left; apply If; exact Hy|right; exact Hy].
    - left. apply in_concat. exists g. split; [eapply nth_error_In; exact Hq|exact Hx]. }
  split; [|split].
  - cbn [repr]. exists k, l, fps'. split; [reflexivity|].
    rewrite (Fr n Ln Nf), (Fr k Lk Kf). split; [exact En|]. split; [exact Ek|].
    intros q. rewrite (upd_nth_error _ _ _ _ _ Hu), (upd_nth_error _ _ _ _ _ Hf).
    destruct (Nat.eqb_spec p q) as [Epq|Npq]; [subst q|].
    + rewrite El. cbn [slot_rel]. exact R'.
    + specialize (F q). unfold slot_rel in *.
      destruct (nth_error cs q) as [[c2|]|], (nth_error l q) as [[b|]|], (nth_error fps q) as [g|] eqn:Eg; try contradiction; auto.
      apply (repr_frame r h); [|exact F]. intros x Hx. apply Fr; [apply (Old q g); assumption|].
      intros Hy. apply Npq. apply (C2 p q f g x); assumption.
  - constructor; [|constructor].
    + intros [X|X]; [subst; apply Nn; left; reflexivity|]. destruct (In' n X) as [Y|Y]; [apply Nn; right; exact Y|lia].
    + intros X. destruct (In' k X) as [Y|Y]; [contradiction|lia].
    + apply nodup_concat. split.
      * intros q g Hq. rewrite (upd_nth_error _ _ _ _ _ Hf) in Hq. destruct (Nat.eqb_spec p q) as [Epq|Npq]; [subst q|]; [congruence|eauto].
      * intros q1 q2 g1 g2 x H1 H2 X1 X2. rewrite (upd_nth_error _ _ _ _ _ Hf) in H1. rewrite (upd_nth_error _ _ _ _ _ Hf) in H2.
        destruct (Nat.eqb_spec p q1) as [Q1|N1], (Nat.eqb_spec p q2) as [Q2|N2]; [congruence|subst q1|subst q2|eauto].
        -- injection H1 as <-. destruct (N' x X1) as [Y|Y]; [eapply C2; eassumption|]. specialize (Old q2 g2 x H2 X2). lia.
        -- injection H2 as <-. destruct (N' x X2) as [Y|Y]; [eapply C2; eassumption|]. specialize (Old q1 g1 x H1 X1). lia.
  - split; [exact L'|]. split; [|split].
    + intros x [<-|[<-|Hx]]; [left; reflexivity|right; left; reflexivity|]. right; right.
      apply in_concat in Hx. destruct Hx as [g [Hg Hx]]. apply In_nth_error in Hg. destruct Hg as [q Hq].
      apply in_concat. destruct (Nat.eq_dec p q) as [<-|Npq].
      * exists f'. split; [apply (nth_error_In _ p); rewrite (upd_nth_error _ _ _ _ _ Hf), Nat.eqb_refl; reflexivity|].
        apply I'. congruence.
      * exists g. split; [apply (nth_error_In _ q)|exact Hx]. rewrite (upd_nth_error _ _ _ _ _ Hf).
        destruct (Nat.eqb_spec p q); [contradiction|exact Hq].
    + intros x [<-|[<-|Hx]]; [left; left; reflexivity|left; right; left; reflexivity|].
      destruct (In' x Hx); [left; right; right; assumption|right; assumption].
    + intros x Lx Nx. apply Fr; [exact Lx|]. intros Hx. apply Nx. right; right. apply If; exact Hx.
Qed.

Lemma repr_null_exists (r : nat) (h : memory) (n : addr) (cs : list (option node)) (fp : list addr) (p : nat) :
  repr (S r) h n (NChildren cs) fp -> nth_error cs p = Some None -> childExists h n p = Ok false.
Proof.
  cbn [repr]. intros [k [l [fps [-> [En [Ek F]]]]]] Hc. specialize (F p). rewrite Hc in F. unfold slot_rel in F.
  unfold childExists, children_, word_of, array_of, entry. rewrite En. cbn [obind]. rewrite Ek. cbn [obind].
  destruct (nth_error l p) as [[a|]|]; try contradiction. reflexivity.
Qed.

(** [createChild] on a node with an array. *)
Lemma create_in (r : nat) (h : memory) (n : addr) (cs cs' : list (option node)) (fp : list addr) (p : nat) :
  repr (S r) h n (NChildren cs) fp -> NoDup fp -> nth_error cs p = Some None -> upd cs p (Some NNull) = Some cs' ->
  exists h' fp', createChild dims h n p = Ok h' /\ repr (S r) h' n (NChildren cs') fp' /\ NoDup fp' /\
    evolves h fp h' fp' /\ grows h h'.
Proof.
  intros H ND Hc Hu. pose proof (fun a => repr_lt (S r) h n (NChildren cs) fp a H) as LT.
  cbn [repr] in H. destruct H as [k [l [fps [-> [En [Ek F]]]]]].
  pose proof (F p) as Fp. rewrite Hc in Fp. unfold slot_rel in Fp.
  destruct (nth_error l p) as [[a|]|] eqn:El; try contradiction.
  destruct (nth_error fps p) as [f|] eqn:Ef; try contradiction. subst f.
  inversion ND as [|? ? Nn ND1]; subst. inversion ND1 as [|? ? Nk ND2]; subst.
  pose proof (proj1 (nodup_concat fps) ND2) as [C1 C2].
  assert (Ln : (n < length h)%nat) by (eapply nth_lt; exact En).
  assert (Lk : (k < length h)%nat) by (eapply nth_lt; exact Ek).
  unfold createChild, children_, word_of. rewrite En. cbn [obind]. rewrite En. cbn [obind new_object].
  unfold array_of. rewrite nth_new. destruct (Nat.eqb_spec (length h) k) as [X|_]; [lia|]. rewrite Ek. cbn [obind].
  destruct (upd_some l p (@Some addr (length h))) as [l' Hl]; [apply nth_error_Some; congruence|]. rewrite Hl.
  assert (E1 : nth_error (h ++ [ONode WNull]) k = Some (OChildren l)) by (rewrite nth_error_app1; assumption).
  destruct (store_ok (h ++ [ONode WNull]) k (OChildren l') _ E1) as [h' Hs]. rewrite Hs.
  assert (Lf : (p < length fps)%nat) by (apply nth_error_Some; congruence).
  destruct (upd_some fps p ([length h] : list addr) Lf) as [fps' Hf].
  assert (Nth : forall x, nth_error h' x = if Nat.eqb k x then Some (OChildren l') else if Nat.eqb (length h) x then Some (ONode WNull) else nth_error h x).
  { intros x. rewrite (store_nth _ _ _ x _ Hs), nth_new. reflexivity. }
  assert (Old : forall q g x, nth_error fps q = Some g -> In x g -> (x < length h)%nat).
  { intros q g x Hq Hx. apply LT. right; right. apply in_concat. exists g. split; [eapply nth_error_In; exact Hq|exact Hx]. }
  assert (In' : forall x, In x (concat fps') -> In x (concat fps) \/ x = length h).
  { intros x Hx. apply in_concat in Hx. destruct Hx as [g [Hg Hx]]. apply In_nth_error in Hg. destruct Hg as [q Hq].
    rewrite (upd_nth_error _ _ _ _ _ Hf) in Hq. destruct (Nat.eqb_spec p q) as [Epq|Npq]; [subst q|].
    - injection Hq as <-. destruct Hx as [<-|[]]. right; reflexivity.
    - left. apply in_concat. exists g. split; [eapply nth_error_In; exact Hq|exact Hx]. }
  exists h', (n :: k :: concat fps'). split; [reflexivity|].
  assert (Nkn : n <> k) by (intros ->; apply Nn; left; reflexivity).
  split; [|split; [|split]].
  - cbn [repr]. exists k, l', fps'. split; [reflexivity|]. rewrite !Nth, Nat.eqb_refl.
    destruct (Nat.eqb_spec k n); [congruence|]. destruct (Nat.eqb_spec (length h) n); [lia|].
    split; [exact En|]. split; [reflexivity|]. intros q.
    rewrite (upd_nth_error _ _ _ _ _ Hu), (upd_nth_error _ _ _ _ _ Hl), (upd_nth_error _ _ _ _ _ Hf).
    destruct (Nat.eqb_spec p q) as [Epq|Npq]; [subst q|].
    + cbn [slot_rel]. destruct r; cbn [repr]; (split; [reflexivity|]); rewrite Nth, Nat.eqb_refl;
        (destruct (Nat.eqb_spec k (length h)); [lia|reflexivity]).
    + specialize (F q). unfold slot_rel in *.
      destruct (nth_error cs q) as [[c2|]|], (nth_error l q) as [[b|]|], (nth_error fps q) as [g|] eqn:Eg; try contradiction; auto.
      apply (repr_frame r h); [|exact F]. intros x Hx. rewrite Nth. pose proof (Old q g x Eg Hx).
      destruct (Nat.eqb_spec k x) as [<-|_].
      * exfalso. apply Nk. apply in_concat. exists g. split; [eapply nth_error_In; exact Eg|exact Hx].
      * destruct (Nat.eqb_spec (length h) x); [lia|reflexivity].
  - constructor; [|constructor].
    + intros [X|X]; [congruence|]. destruct (In' n X) as [Y|Y]; [apply Nn; right; exact Y|lia].
    + intros X. destruct (In' k X) as [Y|Y]; [contradiction|lia].
    + apply nodup_concat. split.
      * intros q g Hq. rewrite (upd_nth_error _ _ _ _ _ Hf) in Hq. destruct (Nat.eqb_spec p q) as [Epq|Npq]; [subst q|]; [|eauto].
        injection Hq as <-. repeat constructor; auto.
      * intros q1 q2 g1 g2 x H1 H2 X1 X2. rewrite (upd_nth_error _ _ _ _ _ Hf) in H1. rewrite (upd_nth_error _ _ _ _ _ Hf) in H2.
        destruct (Nat.eqb_spec p q1) as [Q1|N1], (Nat.eqb_spec p q2) as [Q2|N2]; [congruence|subst q1|subst q2|eauto].
        -- injection H1 as <-. destruct X1 as [<-|[]]. specialize (Old q2 g2 _ H2 X2). lia.
        -- injection H2 as <-. destruct X2 as [<-|[]]. specialize (Old q1 g1 _ H1 X1). lia.
  - split; [rewrite (store_length _ _ _ _ Hs), app_length; lia|]. split; [|split].
    + intros x [<-|[<-|Hx]]; [left; reflexivity|right; left; reflexivity|]. right; right.
      apply in_concat in Hx. destruct Hx as [g [Hg Hx]]. apply In_nth_error in Hg. destruct Hg as [q Hq].
      destruct (Nat.eq_dec p q) as [<-|Npq]; [rewrite Ef in Hq; injection Hq as <-; contradiction|].
      apply in_concat. exists g. split; [apply (nth_error_In _ q)|exact Hx]. rewrite (upd_nth_error _ _ _ _ _ Hf).
      destruct (Nat.eqb_spec p q); [contradiction|exact Hq].
    + intros x [<-|[<-|Hx]]; [left; left; reflexivity|left; right; left; reflexivity|].
      destruct (In' x Hx) as [Y| ->]; [left; right; right; assumption|right; lia].
    + intros x Lx Nx. rewrite Nth. destruct (Nat.eqb_spec k x) as [->|_]; [exfalso; apply Nx; right; left; reflexivity|].
      destruct (Nat.eqb_spec (length h) x); [lia|reflexivity].
  - eapply grows_trans; [apply grows_new|]. apply (grows_store _ _ k (OChildren l') (OChildren l) E1); [|exact Hs].
    cbn [refined]. intros q b Hq. rewrite (upd_nth_error _ _ _ _ _ Hl).
    destruct (Nat.eqb_spec p q) as [<-|_]; [congruence|exact Hq].
Qed.

Lemma nth_repeat_none {A : Type} (m p : nat) :
  nth_error (repeat (@None A) m) p = if Nat.ltb p m then Some None else None.
Proof.
  destruct (Nat.ltb_spec p m) as [L|L].
  - rewrite (nth_error_repeat None L). reflexivity.
  - apply nth_error_None. rewrite repeat_length. exact L.
Qed.

(** [allocateChildren] on a new node. *)
Lemma alloc_in (r : nat) (h : memory) (n : addr) :
  nth_error h n = Some (ONode WNull) ->
  exists h' fp', allocateChildren dims h n = Ok h' /\
    repr (S r) h' n (NChildren (repeat None (2 ^ dims)%nat)) fp' /\ NoDup fp' /\
    evolves h [n] h' fp' /\ grows h h'.
Proof.
  intros En. assert (Ln : (n < length h)%nat) by (eapply nth_lt; exact En).
  unfold allocateChildren, new_object.
  assert (E1 : nth_error (h ++ [OChildren (repeat None (2 ^ dims))]) n = Some (ONode WNull)) by (rewrite nth_error_app1; assumption).
  destruct (store_ok _ n (ONode (WChildren (length h))) _ E1) as [h' Hs]. rewrite Hs.
  assert (Nth : forall x, nth_error h' x = if Nat.eqb n x then Some (ONode (WChildren (length h))) else if Nat.eqb (length h) x then Some (OChildren (repeat None (2 ^ dims))) else nth_error h x).
  { intros x. rewrite (store_nth _ _ _ x _ Hs), nth_new. reflexivity. }
  exists h', (n :: length h :: concat (repeat [] (2 ^ dims))). split; [reflexivity|].
  assert (Ec : concat (repeat (@nil addr) (2 ^ dims)) = []).
  { clear. induction (2 ^ dims)%nat as [|m IH]; [reflexivity|exact IH]. }
  split; [|split; [|split]].
  - cbn [repr]. exists (length h), (repeat None (2 ^ dims)%nat), (repeat [] (2 ^ dims)%nat). split; [reflexivity|].
    rewrite !Nth, !Nat.eqb_refl. destruct (Nat.eqb_spec n (length h)); [lia|].
    split; [reflexivity|]. split; [reflexivity|]. intros p. rewrite !nth_repeat_none.
    destruct (Nat.ltb_spec p (2 ^ dims)) as [L|L].
    + rewrite (nth_error_repeat _ L). reflexivity.
    + replace (nth_error (repeat (@nil addr) (2 ^ dims)) p) with (@None (list addr)); [exact I|].
      symmetry. apply nth_error_None. rewrite repeat_length. exact L.
  - rewrite Ec. constructor; [cbn; intros [X|[]]; lia|]. constructor; [intros []|constructor].
  - split; [rewrite (store_length _ _ _ _ Hs), app_length; lia|]. rewrite Ec. split; [|split].
    + intros x [<-|[]]. left; reflexivity.
    + intros x [<-|[<-|[]]]; [left; left; reflexivity|right; lia].
    + intros x Lx Nx. rewrite Nth. destruct (Nat.eqb_spec n x) as [->|_]; [exfalso; apply Nx; left; reflexivity|].
      destruct (Nat.eqb_spec (length h) x); [lia|reflexivity].
  - eapply grows_trans; [apply grows_new|]. refine (grows_store _ _ n _ _ E1 _ Hs); exact I.
Qed.

(** [createChild] on any node that is not a leaf. *)
Lemma create_spec (r : nat) (h : memory) (n : addr) (nd : node) (fp : list addr) (cs : list (option node)) (p : nat) :
  repr (S r) h n nd fp -> NoDup fp -> children_or_alloc dims nd = Ok cs -> nth_error cs p = Some None ->
  exists h' fp' cs', upd cs p (Some NNull) = Some cs' /\ childExists h n p = Ok false /\
    createChild dims h n p = Ok h' /\ repr (S r) h' n (NChildren cs') fp' /\ NoDup fp' /\
    evolves h fp h' fp' /\ grows h h'.
Proof.
  intros H ND Hcs Hp. destruct (upd_some cs p (Some NNull)) as [cs' Hu]; [apply nth_error_Some; congruence|].
  destruct nd as [|cs0|]; cbn [children_or_alloc] in Hcs; try discriminate.
  - injection Hcs as <-. cbn [repr] in H. destruct H as [-> En].
    destruct (alloc_in r h n En) as [h1 [fp1 [A [R1 [N1 [V1 G1]]]]]].
    destruct (create_in r h1 n _ cs' fp1 p R1 N1 Hp Hu) as [h2 [fp2 [C [R2 [N2 [V2 G2]]]]]].
    exists h2, fp2, cs'. split; [exact Hu|].
    split; [unfold childExists, children_, word_of; rewrite En; reflexivity|].
    split; [|split; [exact R2|split; [exact N2|split; [eapply evolves_trans; eassumption|eapply grows_trans; eassumption]]]].
    unfold createChild in C |- *.
    assert (E0 : children_ h n = Ok None) by (unfold children_, word_of; rewrite En; reflexivity).
    assert (E1 : exists k, children_ h1 n = Ok (Some k)).
    { cbn [repr] in R1. destruct R1 as [k [l [fps [_ [E _]]]]]. exists k. unfold children_, word_of. rewrite E. reflexivity. }
    destruct E1 as [k E1]. rewrite E0. cbn [obind]. rewrite A. cbn [obind]. rewrite E1 in C |- *. cbn [obind] in C |- *.
    rewrite E1 in C. cbn [obind] in C. exact C.
  - injection Hcs as <-. destruct (create_in r h n _ cs' fp p H ND Hp Hu) as [h2 [fp2 [C [R2 [N2 [V2 G2]]]]]].
    exists h2, fp2, cs'. split; [exact Hu|]. split; [eapply repr_null_exists; eassumption|]. auto 10.
Qed.

Lemma upd_upd {A : Type} (l l1 l2 : list A) (p : nat) (x y : A) :
  upd l p x = Some l1 -> upd l p y = Some l2 -> upd l1 p y = Some l2.
Proof.
  revert p l1 l2; induction l as [|z l IH]; intros [|p] l1 l2 H1 H2; cbn [upd] in *; try discriminate.
  - injection H1 as <-. injection H2 as <-. reflexivity.
  - destruct (upd l p x) as [m1|] eqn:E1; [|discriminate]. injection H1 as <-.
    destruct (upd l p y) as [m2|] eqn:E2; [|discriminate]. injection H2 as <-.
    cbn [upd]. rewrite (IH p m1 m2 E1 E2). reflexivity.
Qed.

(** ** Insertion *)
Lemma insert_spec (r : nat) (h : memory) (n : addr) (nd nd' : node) (fp : list addr) (created : bool) (i : idx) (v : V) (z : Z) :
  repr r h n nd fp -> NoDup fp -> (created = true -> nd = NNull) ->
  node_insert merge dims r nd created i v = Ok (nd', z) ->
  exists h' d fp', at_insert merge dims r h n created i v = Ok (h', d, z) /\
    repr r h' n nd' fp' /\ NoDup fp' /\ evolves h fp h' fp' /\ grows h h' /\
    at_get r h' n i = Ok (Some d).
Proof.
  revert h n nd nd' fp created z; induction r as [|r IH]; intros h n nd nd' fp created z H ND Hc Hi; cbn [node_insert at_insert] in *.
  - unfold data_insert. destruct created.
    + injection Hi as <- <-. rewrite (Hc eq_refl) in H. cbn [repr] in H. destruct H as [-> En].
      assert (Ln : (n < length h)%nat) by (eapply nth_lt; exact En).
      cbn [new_object].
      assert (E1 : nth_error (h ++ [OData i v]) n = Some (ONode WNull)) by (rewrite nth_error_app1; assumption).
      destruct (store_ok _ n (ONode (WData (length h))) _ E1) as [h' Hs]. rewrite Hs. cbn [obind].
      assert (Nth : forall x, nth_error h' x = if Nat.eqb n x then Some (ONode (WData (length h))) else if Nat.eqb (length h) x then Some (OData i v) else nth_error h x).
      { intros x. rewrite (store_nth _ _ _ x _ Hs), nth_new. reflexivity. }
      exists h', (length h), [n; length h]. split; [reflexivity|].
      split; [|split; [|split; [|split]]].
      * cbn [repr]. exists (length h). split; [reflexivity|]. rewrite !Nth, !Nat.eqb_refl.
        destruct (Nat.eqb_spec n (length h)); [lia|]. auto.
      * constructor; [cbn; intros [X|[]]; lia|]. constructor; [intros []|constructor].
      * split; [rewrite (store_length _ _ _ _ Hs), app_length; lia|]. split; [|split].
        -- intros x [<-|[]]. left; reflexivity.
        -- intros x [<-|[<-|[]]]; [left; left; reflexivity|right; lia].
        -- intros x Lx Nx. rewrite Nth. destruct (Nat.eqb_spec n x) as [->|_]; [exfalso; apply Nx; left; reflexivity|].
           destruct (Nat.eqb_spec (length h) x); [lia|reflexivity].
      * eapply grows_trans; [apply grows_new|]. refine (grows_store _ _ n _ _ E1 _ Hs); exact I.
      * cbn [at_get]. unfold data_ptr_, word_of. rewrite Nth, Nat.eqb_refl. reflexivity.
    + destruct nd as [|cs|i0 v0]; try discriminate. injection Hi as <- <-. cbn [repr] in H.
      destruct H as [d [-> [En Ed]]].
      unfold data_ptr_, word_of. rewrite En. cbn [obind]. unfold data_of. rewrite Ed. cbn [obind fst snd].
      destruct (store_ok h d (OData i0 (merge v0 v)) _ Ed) as [h' Hs]. rewrite Hs. cbn [obind].
      assert (Nth := fun x => store_nth _ _ _ x _ Hs).
      inversion ND as [|? ? Nn ND1]; subst. assert (Nnd : n <> d) by (intros ->; apply Nn; left; reflexivity).
      exists h', d, [n; d]. split; [reflexivity|]. split; [|split; [exact ND|split; [|split]]].
      * cbn [repr]. exists d. split; [reflexivity|]. rewrite !Nth, Nat.eqb_refl.
        destruct (Nat.eqb_spec d n); [congruence|]. auto.
      * split; [rewrite (store_length _ _ _ _ Hs); lia|]. split; [apply incl_refl|]. split; [auto|].
        intros x Lx Nx. rewrite Nth. destruct (Nat.eqb_spec d x) as [->|_]; [exfalso; apply Nx; right; left; reflexivity|reflexivity].
      * refine (grows_store _ _ d _ _ Ed _ Hs); reflexivity.
      * cbn [at_get]. unfold data_ptr_, word_of. rewrite Nth. destruct (Nat.eqb_spec d n); [congruence|]. rewrite En. reflexivity.
  - destruct (computeChildIdx i r) as [p| |] eqn:Ep; cbn [obind] in *; try discriminate.
    destruct (children_or_alloc dims nd) as [cs| |] eqn:Ecs; cbn [obind] in *; try discriminate.
    destruct (nth_error cs p) as [[c|]|] eqn:Ec; try discriminate.
    + (* existing child *)
      destruct nd as [|cs0|]; cbn [children_or_alloc] in Ecs; try discriminate.
      { injection Ecs as <-. rewrite nth_repeat_none in Ec. destruct (Nat.ltb p (2 ^ dims)); discriminate. }
      injection Ecs as ->.
      destruct (node_insert merge dims r c false i v) as [[c' z']| |] eqn:Ei; cbn [obind fst snd] in Hi; try discriminate.
      destruct (upd cs p (Some c')) as [cs'|] eqn:Hu; [|discriminate]. injection Hi as <- <-.
      destruct (descend r h n cs fp p c H ND Ec) as [a [f [E1 [E2 [Rf [Nf [If K]]]]]]].
      rewrite E1. cbn [obind]. rewrite E2. cbn [obind negb].
      destruct (IH h a c c' f false z' Rf Nf ltac:(discriminate) Ei) as [h' [d [f' [A [R' [N' [V' [G' Q]]]]]]]].
      rewrite A. cbn [obind fst snd].
      destruct (K h' c' f' cs' R' N' V' Hu) as [fp' [Rp [Np Vp]]].
      exists h', d, fp'. rewrite Z.add_0_r. split; [reflexivity|]. split; [exact Rp|]. split; [exact Np|]. split; [exact Vp|].
      split; [exact G'|]. cbn [at_get]. rewrite Ep. cbn [obind].
      destruct (grows_child h h' n p a G' E2) as [B1 B2]. rewrite B1. cbn [obind]. rewrite B2. exact Q.
    + (* new child *)
      destruct (node_insert merge dims r NNull true i v) as [[c' z']| |] eqn:Ei; cbn [obind fst snd] in Hi; try discriminate.
      destruct (upd cs p (Some c')) as [cs'|] eqn:Hu; [|discriminate]. injection Hi as <- <-.
      destruct (create_spec r h n nd fp cs p H ND Ecs Ec) as [h1 [fp1 [cs1 [Hu1 [E0 [C [R1 [N1 [V1 G1]]]]]]]]].
      rewrite E0. cbn [obind]. rewrite C. cbn [obind negb].
      assert (Ec1 : nth_error cs1 p = Some (Some NNull)) by (rewrite (upd_nth_error _ _ _ _ _ Hu1), Nat.eqb_refl; reflexivity).
      destruct (descend r h1 n cs1 fp1 p NNull R1 N1 Ec1) as [a [f [E1 [E2 [Rf [Nf [If K]]]]]]].
      rewrite E2. cbn [obind].
      destruct (IH h1 a NNull c' f true z' Rf Nf (fun _ => eq_refl) Ei) as [h' [d [f' [A [R' [N' [V' [G' Q]]]]]]]].
      rewrite A. cbn [obind fst snd].
      destruct (K h' c' f' cs' R' N' V' (upd_upd _ _ _ _ _ _ Hu1 Hu)) as [fp' [Rp [Np Vp]]].
      exists h', d, fp'. split; [reflexivity|]. split; [exact Rp|]. split; [exact Np|]. split; [eapply evolves_trans; eassumption|].
      split; [eapply grows_trans; eassumption|]. cbn [at_get]. rewrite Ep. cbn [obind].
      destruct (grows_child h1 h' n p a G' E2) as [B1 B2]. rewrite B1. cbn [obind]. rewrite B2. exact Q.
Qed.

(** ** Lookup *)
Lemma get_spec (r : nat) (P : idx -> Prop) (h : memory) (n : addr) (nd : node) (fp : list addr) (i : idx) :
  repr r h n nd fp -> NoDup fp -> wf dims r P nd -> good i ->
  match find r nd i with
  | None => at_get r h n i = Ok None
  | Some e => exists d, at_get r h n i = Ok (Some d) /\ data_of h d = Ok e /\ In d fp
  end.
Proof.
  intros H ND W Hi. revert P n nd fp H ND W; induction r as [|r IH]; intros P n nd fp H ND W; cbn [find at_get wf] in *.
  - destruct nd as [|cs|j v]; try contradiction. cbn [repr] in H. destruct H as [d [-> [En Ed]]].
    exists d. unfold data_ptr_, word_of, data_of. rewrite En, Ed. split; [reflexivity|]. split; [reflexivity|]. right; left; reflexivity.
  - rewrite (computeChildIdx_ok dims) by exact Hi. cbn [obind].
    destruct nd as [|cs|j v]; try contradiction. destruct W as [HL [_ Hc]].
    destruct (nth_error_in_range cs (cidx i r)) as [x Hx]; [rewrite HL; apply (cidx_good dims); exact Hi|].
    rewrite Hx. destruct x as [c|].
    + destruct (descend r h n cs fp _ c H ND Hx) as [a [f [E1 [E2 [Rf [Nf [If _]]]]]]].
      rewrite E1. cbn [obind]. rewrite E2. cbn [obind].
      specialize (IH _ a c f Rf Nf (Hc _ _ Hx)). destruct (find r c i) as [e|]; [|exact IH].
      destruct IH as [d [A [B C]]]. exists d. auto.
    + rewrite (repr_null_exists r h n cs fp _ H Hx). reflexivity.
Qed.

Lemma get_injective (r : nat) (P : idx -> Prop) (h : memory) (n : addr) (nd : node) (fp : list addr) (i j : idx) (d : addr) :
  repr r h n nd fp -> NoDup fp -> wf dims r P nd -> good i -> good j ->
  at_get r h n i = Ok (Some d) -> at_get r h n j = Ok (Some d) -> path_eqb r i j = true.
Proof.
  intros H ND W Hi Hj. revert P n nd fp H ND W; induction r as [|r IH]; intros P n nd fp H ND W Gi Gj; [reflexivity|].
  cbn [path_eqb wf] in *. cbn [at_get] in Gi, Gj. rewrite (computeChildIdx_ok dims) in Gi by exact Hi.
  rewrite (computeChildIdx_ok dims) in Gj by exact Hj. cbn [obind] in Gi, Gj.
  destruct nd as [|cs|i0 v0]; try contradiction. destruct W as [HL [_ Hc]].
  destruct (nth_error_in_range cs (cidx i r)) as [x Hx]; [rewrite HL; apply (cidx_good dims); exact Hi|].
  destruct (nth_error_in_range cs (cidx j r)) as [y Hy]; [rewrite HL; apply (cidx_good dims); exact Hj|].
  destruct x as [c|]; [|rewrite (repr_null_exists r h n cs fp _ H Hx) in Gi; discriminate].
  destruct y as [c2|]; [|rewrite (repr_null_exists r h n cs fp _ H Hy) in Gj; discriminate].
  cbn [repr] in H. destruct H as [k [l [fps [-> [En [Ek F]]]]]].
  inversion ND as [|? ? Nn ND1]; subst. inversion ND1 as [|? ? Nk ND2]; subst.
  pose proof (proj1 (nodup_concat fps) ND2) as [C1 C2].
  unfold childExists, getChild, children_, word_of, array_of, entry in Gi, Gj.
  rewrite En in Gi, Gj. cbn [obind] in Gi, Gj. rewrite Ek in Gi, Gj. cbn [obind] in Gi, Gj.
  pose proof (F (cidx i r)) as Fi. pose proof (F (cidx j r)) as Fj. rewrite Hx in Fi. rewrite Hy in Fj. unfold slot_rel in Fi, Fj.
  destruct (nth_error l (cidx i r)) as [[a|]|] eqn:Eli; try contradiction.
  destruct (nth_error fps (cidx i r)) as [f|] eqn:Efi; try contradiction.
  destruct (nth_error l (cidx j r)) as [[b|]|] eqn:Elj; try contradiction.
  destruct (nth_error fps (cidx j r)) as [g|] eqn:Efj; try contradiction.
  cbn [obind] in Gi, Gj.
  pose proof (get_spec r _ h a c f i Fi (C1 _ _ Efi) (Hc _ _ Hx) Hi) as Si. rewrite Gi in Si.
  pose proof (get_spec r _ h b c2 g j Fj (C1 _ _ Efj) (Hc _ _ Hy) Hj) as Sj. rewrite Gj in Sj.
  destruct (find r c i) as [ei|]; [|discriminate]. destruct Si as [di [Xi [_ Ii]]]. injection Xi as <-.
  destruct (find r c2 j) as [ej|]; [|discriminate]. destruct Sj as [dj [Xj [_ Ij]]]. injection Xj as <-.
  assert (Ep : cidx i r = cidx j r) by (eapply C2; eassumption).
  rewrite Ep, Nat.eqb_refl. cbn [andb]. rewrite <- Ep in Elj, Efj, Hy.
  assert (b = a) by congruence. assert (g = f) by congruence. assert (c2 = c) by congruence. subst b g c2.
  eapply IH; [exact Fi|eapply C1; exact Efi|eapply Hc; exact Hx|exact Gi|exact Gj].
Qed.

(** ** Writing through a pointer *)
Lemma write_spec (r : nat) (h : memory) (n : addr) (nd nd' : node) (fp : list addr) (i : idx) (d : addr) (f : V -> V) :
  repr r h n nd fp -> NoDup fp -> at_get r h n i = Ok (Some d) -> node_modify r nd i f = Ok nd' ->
  exists h', write h d f = Ok h' /\ repr r h' n nd' fp /\ evolves h fp h' fp /\ grows h h'.
Proof.
  intros H ND G M.
  assert (X : exists h' fp', write h d f = Ok h' /\ repr r h' n nd' fp' /\ NoDup fp' /\ evolves h fp h' fp' /\ grows h h' /\ length h' = length h /\ fp' = fp).
  { revert n nd nd' fp H ND G M; induction r as [|r IH]; intros n nd nd' fp H ND G M; cbn [node_modify at_get] in *.
    - destruct nd as [|cs|i0 v0]; try discriminate. injection M as <-. cbn [repr] in H. destruct H as [d0 [-> [En Ed]]].
      unfold data_ptr_, word_of in G. rewrite En in G. cbn [obind] in G. injection G as ->.
      unfold write, data_of. rewrite Ed. cbn [obind fst snd].
      destruct (store_ok h d (OData i0 (f v0)) _ Ed) as [h' Hs]. rewrite Hs.
      assert (Nth := fun x => store_nth _ _ _ x _ Hs).
      inversion ND as [|? ? Nn ND1]; subst. assert (Nnd : n <> d) by (intros ->; apply Nn; left; reflexivity).
      exists h', [n; d]. split; [reflexivity|]. split; [|split; [exact ND|split; [|split; [|split; [apply (store_length _ _ _ _ Hs)|reflexivity]]]]].
      * cbn [repr]. exists d. split; [reflexivity|]. rewrite !Nth, Nat.eqb_refl.
        destruct (Nat.eqb_spec d n); [congruence|]. auto.
      * split; [rewrite (store_length _ _ _ _ Hs); lia|]. split; [apply incl_refl|]. split; [auto|].
        intros x Lx Nx. rewrite Nth. destruct (Nat.eqb_spec d x) as [->|_]; [exfalso; apply Nx; right; left; reflexivity|reflexivity].
      * refine (grows_store _ _ d _ _ Ed _ Hs); reflexivity.
    - destruct (computeChildIdx i r) as [p| |]; cbn [obind] in *; try discriminate.
      destruct nd as [|cs|i0 v0]; try discriminate.
      destruct (nth_error cs p) as [[c|]|] eqn:Ec; try discriminate.
      destruct (node_modify r c i f) as [c'| |] eqn:Em; cbn [obind] in M; try discriminate.
      destruct (upd cs p (Some c')) as [cs'|] eqn:Hu; [|discriminate]. injection M as <-.
      cbn [repr] in H. destruct H as [k [l [fps [-> [En [Ek F]]]]]].
      unfold childExists, getChild, children_, word_of, array_of, entry in G. rewrite En in G. cbn [obind] in G. rewrite Ek in G. cbn [obind] in G.
      pose proof (F p) as Fp. rewrite Ec in Fp. unfold slot_rel in Fp.
      destruct (nth_error l p) as [[a|]|] eqn:El; try contradiction.
      destruct (nth_error fps p) as [g|] eqn:Ef; try contradiction. cbn [obind] in G.
      inversion ND as [|? ? Nn ND1]; subst. inversion ND1 as [|? ? Nk ND2]; subst.
      pose proof (proj1 (nodup_concat fps) ND2) as [C1 C2].
      destruct (IH a c c' g Fp (C1 _ _ Ef) G Em) as [h' [g' [W [R' [N' [V' [G' [L' ->]]]]]]]].
      assert (If : incl g (concat fps)).
      { intros x Hx. apply in_concat. exists g. split; [eapply nth_error_In; exact Ef|exact Hx]. }
      pose proof V' as [_ [_ [_ Fr]]].
      exists h', (n :: k :: concat fps). split; [exact W|]. split; [|split; [exact ND|split; [|split; [exact G'|split; [exact L'|reflexivity]]]]].
      + cbn [repr]. exists k, l, fps. split; [reflexivity|].
        rewrite !Fr; [|eapply nth_lt; exact Ek|intros X; apply Nk, If, X|eapply nth_lt; exact En|intros X; apply Nn; right; apply If, X].
        split; [exact En|]. split; [exact Ek|]. intros q. rewrite (upd_nth_error _ _ _ _ _ Hu).
        destruct (Nat.eqb_spec p q) as [Epq|Npq]; [subst q|]; [rewrite El, Ef; exact R'|].
        specialize (F q). unfold slot_rel in *.
        destruct (nth_error cs q) as [[c2|]|], (nth_error l q) as [[b|]|], (nth_error fps q) as [g2|] eqn:Eg; try contradiction; auto.
        apply (repr_frame r h); [|exact F]. intros x Hx. apply Fr; [exact (repr_lt r h b c2 g2 x F Hx)|].
        intros Hy. apply Npq. apply (C2 p q g g2 x); assumption.
      + destruct V' as [V1 [V2 [V3 V4]]]. split; [exact V1|]. split; [apply incl_refl|]. split; [auto|].
        intros x Lx Nx. apply V4; [exact Lx|]. intros Hx. apply Nx. right; right. apply If; exact Hx. }
  destruct X as [h' [fp' [A [B [C [D [E [_ ->]]]]]]]]. exists h'. auto.
Qed.

(** ** Traversal *)
Lemma traverse_spec (r : nat) (P : idx -> Prop) (h : memory) (n : addr) (nd : node) (fp : list addr) :
  repr r h n nd fp -> NoDup fp -> wf dims r P nd -> at_traverse dims r h n = node_traverse r nd.
Proof.
  revert P n nd fp; induction r as [|r IH]; intros P n nd fp H ND W; cbn [at_traverse node_traverse wf] in *.
  - destruct nd as [|cs|j v]; try contradiction. cbn [repr] in H. destruct H as [d [-> [En Ed]]].
    unfold data_ptr_, word_of, data_of. rewrite En. cbn [obind]. rewrite Ed. reflexivity.
  - destruct nd as [|cs|j v]; try contradiction. destruct W as [HL [_ Hc]].
    rewrite <- HL. clear HL.
    assert (X : forall pre post, cs = pre ++ post ->
      (fix go (l : list nat) : outcome (list (idx * V)) :=
         match l with
         | [] => Ok []
         | i :: l' =>
             let* e := childExists h n i in
             if e then let* c := getChild h n i in let* a := at_traverse dims r h c in let* b := go l' in Ok (a ++ b)
             else go l'
         end) (seq (length pre) (length post)) =
      (fix go (l : list (option node)) : outcome (list (idx * V)) :=
             match l with
             | [] => Ok []
             | None :: l' => go l'
             | Some c :: l' => let* a := node_traverse r c in let* b := go l' in Ok (a ++ b)
             end) post).
    { intros pre post. revert pre; induction post as [|x post IHp]; intros pre E; cbn [length seq]; [reflexivity|].
      assert (Ex : nth_error cs (length pre) = Some x).
      { rewrite E, nth_error_app2, Nat.sub_diag by lia. reflexivity. }
      specialize (IHp (pre ++ [x])). rewrite app_length in IHp. cbn [length] in IHp. rewrite Nat.add_1_r in IHp.
      rewrite <- app_assoc in IHp. specialize (IHp E).
      destruct x as [c|].
      - destruct (descend r h n cs fp _ c H ND Ex) as [a [f [E1 [E2 [Rf [Nf _]]]]]].
        rewrite E1. cbn [obind]. rewrite E2. cbn [obind].
        rewrite (IH _ a c f Rf Nf (Hc _ _ Ex)). rewrite IHp. reflexivity.
      - rewrite (repr_null_exists r h n cs fp _ H Ex). cbn [obind]. exact IHp. }
    exact (X [] cs eq_refl).
Qed.

End Facts.

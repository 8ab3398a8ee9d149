(** The map with pointers in memory refines the map of MapModel.v. *)
From Verif Require Import Base SeqModel SeqFacts IndexModel IndexFacts OctreeSpec OctreeModel OctreeFacts OctreeHist MapModel BackendModel SysModel.
From Verif Require Import TreeHeapSpec TreeHeapModel TreeHeapFacts TreeHeapHist PtrMapModel.
Open Scope Z_scope.
Local Opaque tree_depth.

(** ** Outcomes in lockstep *)
Definition osim {A B : Type} (R : A -> B -> Prop) (x : outcome A) (y : outcome B) : Prop :=
  match x, y with Ok a, Ok b => R a b | UB, UB => True | Throw, Throw => True | _, _ => False end.
Lemma osim_bind {A B C D : Type} (R : A -> B -> Prop) (S : C -> D -> Prop) (x : outcome A) (y : outcome B)
  (f : A -> outcome C) (g : B -> outcome D) :
  osim R x y -> (forall a b, R a b -> osim S (f a) (g b)) -> osim S (obind x f) (obind y g).
Proof. destruct x, y; cbn; intros H K; try contradiction; auto. Qed.
Lemma osim_weaken {A B : Type} (R S : A -> B -> Prop) (x : outcome A) (y : outcome B) :
  osim R x y -> (forall a b, R a b -> S a b) -> osim S x y.
Proof. destruct x, y; cbn; auto. Qed.
Lemma osim_fold {A B X Y : Type} (R : A -> B -> Prop) (Q : X -> Y -> Prop) (f : A -> X -> outcome A) (g : B -> Y -> outcome B)
  (l : list X) (k : list Y) (a : A) (b : B) :
  (forall a b x y, R a b -> Q x y -> osim R (f a x) (g b y)) -> Forall2 Q l k -> R a b ->
  osim R (ofold f l a) (ofold g k b).
Proof.
  intros H F. revert a b; induction F as [|x y l k Hxy F IH]; intros a b Hab; cbn [ofold]; [exact Hab|].
  apply (osim_bind R); [apply H; assumption|]. intros a' b' H'. apply IH. exact H'.
Qed.

(** ** Trees with related values *)
Section Param.
Context {V W : Type}.
Variable R : V -> W -> Prop.
Definition srel {A B : Type} (Q : A -> B -> Prop) (x : option A) (y : option B) : Prop :=
  match x, y with Some a, Some b => Q a b | None, None => True | _, _ => False end.
Fixpoint nrel (r : nat) (nd : node V) (md : node W) : Prop :=
  match nd, md with
  | NNull, NNull => True
  | NData i v, NData j w => i = j /\ R v w
  | NChildren l, NChildren k => match r with O => True | S r' => Forall2 (srel (nrel r')) l k end
  | _, _ => False
  end.
Lemma nrel_null (r : nat) : nrel r NNull NNull.
Proof. destruct r; exact I. Qed.
Lemma forall2_nth {A B : Type} (Q : A -> B -> Prop) (l : list A) (k : list B) (p : nat) :
  Forall2 Q l k -> srel Q (nth_error l p) (nth_error k p).
Proof. intros F. revert p; induction F; intros [|p]; cbn; auto. Qed.
Lemma forall2_upd {A B : Type} (Q : A -> B -> Prop) (l : list A) (k : list B) (p : nat) (x : A) (y : B) :
  Forall2 Q l k -> Q x y -> srel (Forall2 Q) (upd l p x) (upd k p y).
Proof.
  intros F H. revert p; induction F as [|a b l k Hab F IH]; intros [|p]; cbn [upd]; try exact I.
  - cbn. constructor; assumption.
  - specialize (IH p). destruct (upd l p x), (upd k p y); cbn in *; try contradiction; [constructor; assumption|exact I].
Qed.
Variable mV : V -> V -> V.
Variable mW : W -> W -> W.
Hypothesis Hm : forall a b c d, R a b -> R c d -> R (mV a c) (mW b d).
Variable dims : nat.

Lemma repeat_rel {A B : Type} (Q : A -> B -> Prop) (n : nat) : Forall2 (srel Q) (repeat None n) (repeat None n).
Proof. induction n; cbn; constructor; [exact I|assumption]. Qed.

Lemma node_insert_rel (r : nat) (nd : node V) (md : node W) (b : bool) (i : idx) (v : V) (w : W) :
  nrel r nd md -> R v w ->
  osim (fun x y => nrel r (fst x) (fst y) /\ snd x = snd y) (node_insert mV dims r nd b i v) (node_insert mW dims r md b i w).
Proof.
  revert nd md b; induction r as [|r IH]; intros nd md b HN HR; cbn [node_insert].
  - destruct b; [cbn; auto|]. destruct nd, md; cbn in HN |- *; try contradiction; auto.
    destruct HN as [-> HN]. auto.
  - destruct (computeChildIdx i r) as [pos| |]; cbn [obind]; [|exact I|exact I].
    apply (osim_bind (Forall2 (srel (nrel r)))).
    + destruct nd, md; cbn in HN |- *; try contradiction; auto. apply repeat_rel.
    + intros l k F. pose proof (forall2_nth _ _ _ pos F) as Fp.
      destruct (nth_error l pos) as [[c|]|], (nth_error k pos) as [[d|]|]; cbn [srel] in Fp; try contradiction; [| |exact I].
      * eapply osim_bind; [apply (IH c d false Fp HR)|]. intros x y [H1 H2].
        pose proof (forall2_upd _ _ _ pos (Some (fst x)) (Some (fst y)) F H1) as U.
        destruct (upd l pos _), (upd k pos _); cbn in U |- *; try contradiction; auto.
      * eapply osim_bind; [apply (IH NNull NNull true (nrel_null r) HR)|]. intros x y [H1 H2].
        pose proof (forall2_upd _ _ _ pos (Some (fst x)) (Some (fst y)) F H1) as U.
        destruct (upd l pos _), (upd k pos _); cbn in U |- *; try contradiction; auto. rewrite H2. auto.
Qed.
Lemma node_get_rel (r : nat) (nd : node V) (md : node W) (i : idx) :
  nrel r nd md -> osim (srel R) (node_get r nd i) (node_get r md i).
Proof.
  revert nd md; induction r as [|r IH]; intros nd md HN; cbn [node_get].
  - destruct nd, md; cbn in HN |- *; try contradiction; auto. apply HN.
  - destruct (computeChildIdx i r) as [pos| |]; cbn [obind]; [|exact I|exact I].
    destruct nd as [|l|], md as [|k|]; cbn in HN; try contradiction; [exact I| |exact I].
    pose proof (forall2_nth _ _ _ pos HN) as Fp.
    destruct (nth_error l pos) as [[c|]|], (nth_error k pos) as [[d|]|]; cbn [srel] in Fp; try contradiction; [apply IH; exact Fp|exact I|exact I].
Qed.
Lemma node_modify_rel (r : nat) (nd : node V) (md : node W) (i : idx) (f : V -> V) (g : W -> W) :
  (forall a b, R a b -> R (f a) (g b)) -> nrel r nd md -> osim (nrel r) (node_modify r nd i f) (node_modify r md i g).
Proof.
  intros Hf. revert nd md; induction r as [|r IH]; intros nd md HN; cbn [node_modify].
  - destruct nd, md; cbn in HN |- *; try contradiction; auto. destruct HN; auto.
  - destruct (computeChildIdx i r) as [pos| |]; cbn [obind]; [|exact I|exact I].
    destruct nd as [|l|], md as [|k|]; cbn in HN; try contradiction; [exact I| |exact I].
    pose proof (forall2_nth _ _ _ pos HN) as Fp.
    destruct (nth_error l pos) as [[c|]|], (nth_error k pos) as [[d|]|]; cbn [srel] in Fp; try contradiction; [|exact I|exact I].
    eapply osim_bind; [apply (IH c d Fp)|]. intros x y H1.
    pose proof (forall2_upd _ _ _ pos (Some x) (Some y) HN H1) as U.
    destruct (upd l pos _), (upd k pos _); cbn in U |- *; try contradiction; auto.
Qed.
Definition erel (x : idx * V) (y : idx * W) : Prop := fst x = fst y /\ R (snd x) (snd y).
Lemma node_traverse_rel (r : nat) (nd : node V) (md : node W) :
  nrel r nd md -> osim (Forall2 erel) (node_traverse r nd) (node_traverse r md).
Proof.
  revert nd md; induction r as [|r IH]; intros nd md HN; cbn [node_traverse].
  - destruct nd, md; cbn in HN |- *; try contradiction; [constructor|exact I|]. constructor; [exact HN|constructor].
  - destruct nd as [|l|], md as [|k|]; cbn in HN; try contradiction; [constructor| |exact I].
    induction HN as [|x y l k Hxy F IHF]; [constructor|].
    destruct x as [c|], y as [d|]; cbn [srel] in Hxy; try contradiction; [|exact IHF].
    eapply osim_bind; [apply (IH c d Hxy)|]. intros es es' HE.
    eapply osim_bind; [exact IHF|]. intros es2 es2' HE2. cbn. apply Forall2_app; assumption.
Qed.

Definition trel (t : octree V) (u : octree W) : Prop :=
  tree_size t = tree_size u /\ srel (nrel tree_depth) (root t) (root u).
Lemma tree_insert_rel (t : octree V) (u : octree W) (i : idx) (v : V) (w : W) :
  trel t u -> R v w -> osim trel (octree_insert mV dims t i v) (octree_insert mW dims u i w).
Proof.
  intros [HS HT] HR. unfold octree_insert. destruct (root t), (root u); cbn [srel] in HT; try contradiction.
  - eapply osim_bind; [apply node_insert_rel; eassumption|]. intros x y [H1 H2]. split; cbn; [lia|exact H1].
  - eapply osim_bind; [apply node_insert_rel; [apply nrel_null|exact HR]|]. intros x y [H1 H2]. split; cbn; [lia|exact H1].
Qed.
Lemma tree_get_rel (t : octree V) (u : octree W) (i : idx) : trel t u -> osim (srel R) (octree_get t i) (octree_get u i).
Proof.
  intros [HS HT]. unfold octree_get. destruct (root t), (root u); cbn [srel] in HT; try contradiction; [|exact I].
  apply node_get_rel. exact HT.
Qed.
Lemma tree_modify_rel (t : octree V) (u : octree W) (i : idx) (f : V -> V) (g : W -> W) :
  (forall a b, R a b -> R (f a) (g b)) -> trel t u -> osim trel (octree_modify t i f) (octree_modify u i g).
Proof.
  intros Hf [HS HT]. unfold octree_modify. destruct (root t), (root u); cbn [srel] in HT; try contradiction; [|exact I].
  eapply osim_bind; [apply (node_modify_rel _ _ _ _ f g Hf HT)|]. intros x y H. split; [exact HS|exact H].
Qed.
Lemma tree_traverse_rel (t : octree V) (u : octree W) : trel t u -> osim (Forall2 erel) (octree_traverse t) (octree_traverse u).
Proof.
  intros [HS HT]. unfold octree_traverse. destruct (root t), (root u); cbn [srel] in HT; try contradiction; [|constructor].
  apply node_traverse_rel. exact HT.
Qed.
End Param.

Lemma nrel_mono {V W : Type} (R S : V -> W -> Prop) (r : nat) (nd : node V) (md : node W) :
  (forall a b, R a b -> S a b) -> nrel R r nd md -> nrel S r nd md.
Proof.
  intros H. revert nd md; induction r as [|r IH]; intros nd md HN; destruct nd as [|l|], md as [|k|]; cbn in *; try contradiction; auto.
  - destruct HN; auto.
  - induction HN as [|x y l k Hxy F IHF]; constructor; [|exact IHF]. destruct x, y; cbn in *; auto.
  - destruct HN; auto.
Qed.
Lemma trel_mono {V W : Type} (R S : V -> W -> Prop) (t : octree V) (u : octree W) :
  (forall a b, R a b -> S a b) -> trel R t u -> trel S t u.
Proof.
  intros H [HS HT]. split; [exact HS|]. destruct (root t), (root u); cbn in *; auto. eapply nrel_mono; eassumption.
Qed.

(** ** One octree in memory *)
Section Tree.
Context {V : Type}.
Variable merge : V -> V -> V.
Variable dims : nat.
Notation good := (key_computable dims).
Notation any := (fun _ : idx => True).

Definition has (h : memory V) (x : tree) (t : octree V) (fp : list nat) : Prop :=
  tree_size_ x = tree_size t /\
  match root_ x, root t with
  | None, None => fp = []
  | Some n, Some nd => repr tree_depth h n nd fp /\ NoDup fp /\ wf dims tree_depth any nd
  | _, _ => False
  end.
(** Roots stay. *)
Definition kept_root (x x' : tree) : Prop := root_ x = None \/ root_ x' = root_ x.

Lemma good_dec (i : idx) : length i = dims -> good i \/ (forall r, computeChildIdx i r = UB).
Proof.
  intros HL. destruct (forallb (fun z => int_ok (z + 32768)) i) eqn:E.
  - left. split; [exact HL|]. rewrite forallb_forall in E. apply Forall_forall. intros z Hz. specialize (E z Hz).
    unfold int_ok in E. apply andb_true_iff in E. destruct E as [E1 E2]. lia.
  - right. intros r. unfold computeChildIdx. generalize 0%nat. clear HL.
    induction i as [|x i IH]; intros k; [discriminate|]. cbn [computeChildIdx_from].
    change tree_max_val with 32768. cbn [forallb] in E. destruct (int_ok (x + 32768)); [|reflexivity].
    rewrite (IH E). reflexivity.
Qed.
Lemma kept_trans (x y z : tree) : kept_root x y -> kept_root y z -> kept_root x z.
Proof. unfold kept_root. intros [H|H] [K|K]; auto; rewrite ?H in *; auto; right; congruence. Qed.
Lemma tree_get_grows (h h' : memory V) (x x' : tree) (i : idx) (d : nat) :
  grows h h' -> kept_root x x' -> tree_get h x i = Ok (Some d) -> tree_get h' x' i = Ok (Some d).
Proof.
  intros G [K|K] H; unfold tree_get in *; [rewrite K in H; discriminate|]. rewrite K.
  destruct (root_ x); [|discriminate]. eapply grows_get; eassumption.
Qed.

(** Indices whose key overflows. *)
Section Bad.
Variable i : idx.
Hypothesis Hi : forall r, computeChildIdx i r = UB.
Lemma bad_node_get (nd : node V) : node_get tree_depth nd i = UB.
Proof. change tree_depth with (S 15). generalize 15%nat as r. intros r. cbn [node_get]. rewrite Hi. reflexivity. Qed.
Lemma bad_at_get (h : memory V) (n : nat) : at_get tree_depth h n i = UB.
Proof. change tree_depth with (S 15). generalize 15%nat as r. intros r. cbn [at_get]. rewrite Hi. reflexivity. Qed.
Lemma bad_node_insert (nd : node V) (b : bool) (v : V) : node_insert merge dims tree_depth nd b i v = UB.
Proof. change tree_depth with (S 15). generalize 15%nat as r. intros r. cbn [node_insert]. rewrite Hi. reflexivity. Qed.
Lemma bad_at_insert (h : memory V) (n : nat) (b : bool) (v : V) : at_insert merge dims tree_depth h n b i v = UB.
Proof. change tree_depth with (S 15). generalize 15%nat as r. intros r. cbn [at_insert]. rewrite Hi. reflexivity. Qed.
End Bad.

Lemma get_sim (h : memory V) (x : tree) (t : octree V) (fp : list nat) (i : idx) :
  has h x t fp -> length i = dims ->
  osim (srel (fun v d => exists i0, data_of h d = Ok (i0, v))) (octree_get t i) (tree_get h x i).
Proof.
  intros [HS HT] HL. unfold octree_get, tree_get.
  destruct (root_ x) as [n|], (root t) as [nd|]; try contradiction; [|exact I].
  destruct HT as [R [ND W]]. destruct (good_dec i HL) as [Hi|Hi].
  - rewrite (node_get_find dims _ _ _ _ W Hi). pose proof (get_spec dims _ _ h n nd fp i R ND W Hi) as G.
    destruct (find tree_depth nd i) as [[i0 v]|]; [|rewrite G; exact I].
    destruct G as [d [G1 [G2 _]]]. rewrite G1. cbn. eauto.
  - rewrite (bad_node_get i Hi), (bad_at_get i Hi). exact I.
Qed.

Lemma insert_sim (h : memory V) (x : tree) (t : octree V) (fp : list nat) (i : idx) (v : V) :
  has h x t fp -> length i = dims ->
  osim (fun t' r => exists fp', has (fst (fst r)) (snd r) t' fp' /\ evolves h fp (fst (fst r)) fp' /\ grows h (fst (fst r)) /\
          tree_get (fst (fst r)) (snd r) i = Ok (Some (snd (fst r))) /\ kept_root x (snd r))
    (octree_insert merge dims t i v) (tree_insert merge dims h x i v).
Proof.
  intros [HS HT] HL. destruct (good_dec i HL) as [Hi|Hi].
  - unfold octree_insert. destruct (root_ x) as [n|] eqn:Ex, (root t) as [nd|] eqn:Et; try contradiction.
    + destruct HT as [R [ND W]].
      destruct (tree_insert_old merge dims any h x n nd fp i v Ex R ND W Hi I) as [h' [d [nd' [z [fp' [A [N [R' [ND' [W' [EV [G [Q F]]]]]]]]]]]]].
      rewrite N, A. cbn [obind osim fst snd]. exists fp'. split; [split; cbn [tree_size_ tree_size root_ root fst snd]; [lia|]|].
      * split; [exact R'|]. split; assumption.
      * split; [exact EV|]. split; [exact G|]. split; [exact Q|]. right. cbn [root_]. congruence.
    + subst fp. destruct (tree_insert_new merge dims any h x i v Ex Hi I) as [h' [d [nd' [z [fp' [A [N [R' [ND' [W' [EV [G [Q F]]]]]]]]]]]]].
      rewrite N, A. cbn [obind osim fst snd]. exists fp'. split; [split; cbn [tree_size_ tree_size root_ root fst snd]; [lia|]|].
      * split; [exact R'|]. split; assumption.
      * split; [exact EV|]. split; [exact G|]. split; [exact Q|]. left. exact Ex.
  - unfold octree_insert, tree_insert. destruct (root_ x) as [n|], (root t) as [nd|]; try contradiction;
      cbn [new_object]; rewrite (bad_node_insert i Hi), (bad_at_insert i Hi); exact I.
Qed.

Lemma modify_sim (h : memory V) (x : tree) (t : octree V) (fp : list nat) (i : idx) (d : nat) (f : V -> V) :
  has h x t fp -> length i = dims -> tree_get h x i = Ok (Some d) ->
  exists h' t', write h d f = Ok h' /\ octree_modify t i f = Ok t' /\ has h' x t' fp /\ evolves h fp h' fp /\ grows h h'.
Proof.
  intros [HS HT] HL. unfold tree_get, octree_modify, has. intros G1.
  destruct (root_ x) as [n|] eqn:Ex, (root t) as [nd|]; try contradiction; try discriminate.
  destruct HT as [R [ND W]]. destruct (good_dec i HL) as [Hi|Hi].
  - pose proof (get_spec dims _ _ h n nd fp i R ND W Hi) as G.
    destruct (find tree_depth nd i) as [e|] eqn:Ef; [|congruence].
    destruct (node_modify_spec dims tree_depth any nd i f e W Hi Ef) as [nd' [M [W' _]]]. rewrite M. cbn [obind].
    destruct (write_spec tree_depth h n nd nd' fp i d f R ND G1 M) as [h' [A [R' [EV G']]]]. rewrite A.
    do 2 eexists. split; [reflexivity|]. split; [reflexivity|]. cbn [tree_size root].
    split; [|split; [exact EV|exact G']]. split; [exact HS|]. split; [exact R'|]. split; assumption.
  - exfalso. rewrite (bad_at_get i Hi) in G1. discriminate.
Qed.

(** The elements visited by a traversal, with their addresses. *)
Definition go_refs (r : nat) (h : memory V) (n : nat) : list nat -> outcome (list (idx * nat)) :=
  fix go (l : list nat) : outcome (list (idx * nat)) :=
    match l with
    | [] => Ok []
    | i :: l' =>
        let* e := childExists h n i in
        if e then
          let* c := getChild h n i in
          let* a := at_refs dims r h c in
          let* b := go l' in
          Ok (a ++ b)
        else go l'
    end.
Definition ref_ok (h : memory V) (at_ : idx -> outcome (option nat)) (e : idx * V) (d : idx * nat) : Prop :=
  fst e = fst d /\ good (fst e) /\ at_ (fst e) = Ok (Some (snd d)) /\ data_of h (snd d) = Ok e.
Lemma refs_node (r : nat) (Q : idx -> Prop) (h : memory V) (n : nat) (nd : node V) (fp : list nat) :
  repr r h n nd fp -> NoDup fp -> wf dims r Q nd ->
  exists es ds, node_traverse r nd = Ok es /\ at_refs dims r h n = Ok ds /\ Forall2 (ref_ok h (at_get r h n)) es ds /\
    Forall (fun e => Q (fst e)) es.
Proof.
  revert Q n nd fp; induction r as [|r IH]; intros Q n nd fp R ND W.
  - cbn [wf] in W. destruct nd as [|l|i v]; try contradiction. cbn [repr] in R. destruct R as [d [-> [En Ed]]].
    cbn [node_traverse at_refs]. unfold data_ptr_, word_of, data_of. rewrite En. cbn [obind]. rewrite Ed. cbn [obind fst snd].
    do 2 eexists. split; [reflexivity|]. split; [reflexivity|]. split.
    + constructor; [|constructor]. split; [reflexivity|]. split; [apply W|]. cbn [fst snd at_get].
      unfold data_ptr_, word_of, data_of. rewrite En, Ed. auto.
    + constructor; [apply W|constructor].
  - cbn [wf] in W. destruct nd as [|cs|]; try contradiction. destruct W as [HL [_ Hc]]. rewrite node_traverse_S.
    cbn [at_refs]. fold (go_refs r h n). rewrite <- HL.
    assert (X : forall k l, (forall p, nth_error l p = nth_error cs (k + p)) -> exists es ds, go_list r l = Ok es /\ go_refs r h n (seq k (length l)) = Ok ds /\
        Forall2 (ref_ok h (at_get (S r) h n)) es ds /\ Forall (fun e => Q (fst e)) es).
    { intros k l; revert k; induction l as [|o l IHl]; intros k Hl; cbn [length seq go_list go_refs].
      - exists [], []. split; [reflexivity|]. split; [reflexivity|]. split; constructor.
      - pose proof (Hl O) as Hk. cbn [nth_error] in Hk. rewrite Nat.add_0_r in Hk. symmetry in Hk.
        destruct (IHl (S k)) as [es [ds [E1 [E2 [E3 E4]]]]]; [intros p; specialize (Hl (S p)); cbn [nth_error] in Hl; rewrite Hl; f_equal; lia|].
        destruct o as [c|].
        + destruct (descend r h n cs fp k c R ND Hk) as [a [f [D1 [D2 [D3 [D4 [D5 _]]]]]]].
          destruct (IH _ a c f D3 D4 (Hc _ _ Hk)) as [es0 [ds0 [F1 [F2 [F3 F4]]]]].
          rewrite F1. cbn [obind]. rewrite E1. cbn [obind]. change (seq (S k) (length l)) with (seq (S k) (length l)).
          rewrite D1. cbn [obind]. rewrite D2. cbn [obind]. rewrite F2. cbn [obind]. rewrite E2. cbn [obind].
          do 2 eexists. split; [reflexivity|]. split; [reflexivity|]. split.
          * apply Forall2_app; [|exact E3]. clear - F3 F4 D1 D2. induction F3 as [|e d es0 ds0 [A1 [A2 [A3 A4]]] F IHF]; [constructor|].
            inversion F4 as [|? ? [Q1 Q2] F4']; subst. constructor; [|apply IHF; exact F4'].
            split; [exact A1|]. split; [exact A2|]. split; [|exact A4].
            cbn [at_get]. rewrite (computeChildIdx_ok dims) by exact A2. cbn [obind]. rewrite D1. cbn [obind]. rewrite D2. cbn [obind]. exact A3.
          * apply Forall_app. split; [|exact E4]. eapply Forall_impl; [|exact F4]. cbn beta. intros e [H _]. exact H.
        + rewrite (repr_null_exists r h n cs fp k R Hk). cbn [obind]. exists es, ds. auto. }
    apply (X O cs). reflexivity.
Qed.

Lemma refs_sim (h : memory V) (x : tree) (t : octree V) (fp : list nat) :
  has h x t fp ->
  exists es ds, octree_traverse t = Ok es /\ tree_refs dims h x = Ok ds /\ Forall2 (ref_ok h (tree_get h x)) es ds.
Proof.
  intros [HS HT]. unfold octree_traverse, tree_refs, tree_get. destruct (root_ x) as [n|], (root t) as [nd|]; try contradiction.
  - destruct HT as [R [ND W]]. destruct (refs_node _ _ _ _ _ _ R ND W) as [es [ds [E1 [E2 [E3 _]]]]]. exists es, ds. auto.
  - exists [], []. split; [reflexivity|]. split; [reflexivity|]. constructor.
Qed.

(** ** Several octrees in one memory *)
Definition family (h : memory V) (xs : list tree) (ts : list (octree V)) : Prop :=
  exists fps, NoDup (concat fps) /\ forall k,
    match nth_error xs k, nth_error ts k, nth_error fps k with
    | Some x, Some t, Some fp => has h x t fp
    | None, None, None => True
    | _, _, _ => False
    end.
Lemma has_lt (h : memory V) (x : tree) (t : octree V) (fp : list nat) (a : nat) : has h x t fp -> In a fp -> (a < length h)%nat.
Proof.
  intros [_ H] Ha. destruct (root_ x), (root t); try contradiction; [|subst fp; contradiction].
  destruct H as [R _]. eapply repr_lt; eassumption.
Qed.
Lemma has_nodup (h : memory V) (x : tree) (t : octree V) (fp : list nat) : has h x t fp -> NoDup fp.
Proof. intros [_ H]. destruct (root_ x), (root t); try contradiction; [apply H|subst fp; constructor]. Qed.
Lemma has_frame (h h' : memory V) (x : tree) (t : octree V) (fp : list nat) :
  (forall a, In a fp -> nth_error h' a = nth_error h a) -> has h x t fp -> has h' x t fp.
Proof.
  intros F [HS H]. split; [exact HS|]. destruct (root_ x), (root t); try contradiction; [|exact H].
  destruct H as [R H]. split; [eapply repr_frame; eassumption|exact H].
Qed.
Lemma family_pick (h : memory V) (xs : list tree) (ts : list (octree V)) (k : nat) :
  family h xs ts ->
  srel (fun x t => exists fp, has h x t fp /\
    forall h' x' t' fp' xs' ts', has h' x' t' fp' -> evolves h fp h' fp' ->
      upd xs k x' = Some xs' -> upd ts k t' = Some ts' -> family h' xs' ts') (nth_error xs k) (nth_error ts k).
Proof.
  intros [fps [N F]]. pose proof (F k) as Fk.
  destruct (nth_error xs k) as [x|] eqn:Ex, (nth_error ts k) as [t|] eqn:Et, (nth_error fps k) as [fp|] eqn:Ef; try contradiction; [|exact I].
  exists fp. split; [exact Fk|]. intros h' x' t' fp' xs' ts' H' [L' [I' [F' Fr]]] Ux Ut.
  pose proof (proj1 (nodup_concat _) N) as [C1 C2].
  destruct (upd_some fps k fp') as [fps' Uf]; [apply nth_error_Some; congruence|].
  exists fps'. split.
  - apply nodup_concat. split.
    + intros p g Hp. rewrite (upd_nth_error _ _ _ _ _ Uf) in Hp. destruct (Nat.eqb_spec k p) as [E|E].
      * injection Hp as <-. eapply has_nodup; exact H'.
      * eapply C1; exact Hp.
    + intros p q f g a Hp Hq Ha Hb. rewrite (upd_nth_error _ _ _ _ _ Uf) in Hp. rewrite (upd_nth_error _ _ _ _ _ Uf) in Hq.
      assert (Old : forall q0 g0, nth_error fps q0 = Some g0 -> In a g0 -> (a < length h)%nat).
      { intros q0 g0 Hq0 Hg. pose proof (F q0) as Fq. rewrite Hq0 in Fq.
        destruct (nth_error xs q0), (nth_error ts q0); try contradiction. eapply has_lt; eassumption. }
      destruct (Nat.eqb_spec k p) as [E|E], (Nat.eqb_spec k q) as [E'|E']; [congruence| | |].
      * injection Hp as <-. destruct (F' a Ha) as [H|H]; [subst p; apply (C2 k q fp g a); assumption|].
        pose proof (Old q g Hq Hb). lia.
      * injection Hq as <-. destruct (F' a Hb) as [H|H]; [subst q; apply (C2 p k f fp a); assumption|].
        pose proof (Old p f Hp Ha). lia.
      * apply (C2 p q f g a); assumption.
  - intros q. rewrite (upd_nth_error _ _ _ _ _ Ux), (upd_nth_error _ _ _ _ _ Ut), (upd_nth_error _ _ _ _ _ Uf).
    destruct (Nat.eqb_spec k q) as [E|E]; [exact H'|]. pose proof (F q) as Fq.
    destruct (nth_error xs q) as [y|], (nth_error ts q) as [u|], (nth_error fps q) as [g|] eqn:Eg; try contradiction; [|exact I].
    apply (has_frame h); [|exact Fq]. intros a Ha. apply Fr; [eapply has_lt; eassumption|].
    intros Hb. apply E. apply (C2 k q fp g a); assumption.
Qed.
End Tree.

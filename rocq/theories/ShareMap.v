(** The dynamic map of PtrMapModel.v queried by several threads. *)
From Verif Require Import Base ExtentModel SeqModel SeqFacts IndexModel OctreeSpec OctreeModel MapModel SysModel SysSpec SysFacts TreeHeapModel TreeHeapFacts
  PtrMapModel PtrMapHist PtrMapTop ShareModel ShareFacts ShareSeq ShareTop.
Open Scope Z_scope.

(** The map with distributions and bundles in one memory: the objects of PtrMapModel.v's memory of
    bundles, then those of its memory of distributions, whose addresses move up accordingly. *)
Definition move_word (k : nat) (w : word) : word :=
  match w with WNull => WNull | WChildren a => WChildren (k + a) | WData a => WData (k + a) end.
Definition move_object {V W : Type} (k : nat) (f : V -> W) (o : object V) : object W :=
  match o with
  | ONode w => ONode (move_word k w)
  | OChildren l => OChildren (map (option_map (Nat.add k)) l)
  | OData i v => OData i (f v)
  end.
Definition move_bundle {P : Type} (k : nat) (b : hbundle) : content P := Bundle (map (option_map (Nat.add k)) (hslots b)).
Definition move_tree (k : nat) (x : tree) : tree :=
  {| root_ := option_map (Nat.add k) (root_ x); tree_size_ := tree_size_ x |}.
Definition one_memory {P : Type} (m : hmap P) : shared (content P) :=
  let k := length (bmem m) in
  {| mem := map (move_object 0 (move_bundle k)) (bmem m) ++ map (move_object k Dist) (dmem m);
     trees := btree m :: map (move_tree k) (dtrees m) |}.

Section Queried.
Context {P : Type}.
Variable m : hmap P.
Let h := mem (one_memory m).
Let k := length (bmem m).

Lemma bundle_object (a : nat) (o : object hbundle) : nth_error (bmem m) a = Some o ->
  nth_error h a = Some (move_object 0 (move_bundle k) o).
Proof.
  intros H. unfold h. cbn [one_memory mem]. rewrite nth_error_app1.
  - rewrite nth_error_map, H. reflexivity.
  - rewrite map_length. apply nth_error_Some. congruence.
Qed.
Lemma dist_object (a : nat) (o : object P) : nth_error (dmem m) a = Some o ->
  nth_error h (k + a) = Some (move_object k Dist o).
Proof.
  intros H. unfold h. cbn [one_memory mem]. rewrite nth_error_app2; rewrite map_length; [|unfold k; lia].
  replace (k + a - length (bmem m))%nat with a by (unfold k; lia). rewrite nth_error_map, H. reflexivity.
Qed.
Lemma bundle_word (n : nat) (w : word) : word_of (bmem m) n = Ok w -> word_of h n = Ok w.
Proof.
  unfold word_of. destruct (nth_error (bmem m) n) as [[w'| |]|] eqn:E; try discriminate. intros H; injection H as ->.
  rewrite (bundle_object _ _ E). destruct w; reflexivity.
Qed.
Lemma bundle_array (a : nat) (l : list (option nat)) : array_of (bmem m) a = Ok l -> array_of h a = Ok l.
Proof.
  unfold array_of. destruct (nth_error (bmem m) a) as [[|l'|]|] eqn:E; try discriminate. intros H; injection H as ->.
  rewrite (bundle_object _ _ E). cbn. f_equal. rewrite <- (map_id l) at 2. apply map_ext. intros [x|]; reflexivity.
Qed.
Lemma bundle_children (n : nat) (c : option nat) : children_ (bmem m) n = Ok c -> children_ h n = Ok c.
Proof. unfold children_. intros H. obreak H. rewrite (bundle_word _ _ E). exact H. Qed.
Lemma bundle_exists (n pos : nat) (b : bool) : childExists (bmem m) n pos = Ok b -> childExists h n pos = Ok b.
Proof.
  unfold childExists. intros H. obreak H. rewrite (bundle_children _ _ E). cbn [obind]. destruct a as [a|]; [|exact H].
  obreak H. rewrite (bundle_array _ _ E0). exact H.
Qed.
Lemma bundle_child (n pos c : nat) : getChild (bmem m) n pos = Ok c -> getChild h n pos = Ok c.
Proof.
  unfold getChild. intros H. obreak H. rewrite (bundle_children _ _ E). cbn [obind]. destruct a as [a|]; [|exact H].
  obreak H. rewrite (bundle_array _ _ E0). exact H.
Qed.
Lemma bundle_at_get (rem n : nat) (i : idx) (p : option nat) : at_get rem (bmem m) n i = Ok p -> at_get rem h n i = Ok p.
Proof.
  revert n; induction rem as [|rem IH]; intros n H; cbn [at_get] in *.
  - unfold data_ptr_ in *. obreak H. rewrite (bundle_word _ _ E). exact H.
  - obreak H. rewrite E. cbn [obind]. obreak H. rewrite (bundle_exists _ _ _ E0). cbn [obind]. destruct a0; [|exact H].
    obreak H. rewrite (bundle_child _ _ _ E1). cbn [obind]. apply IH. exact H.
Qed.
Lemma bundle_get (i : idx) (p : option nat) : bundle_pointer m i = Ok p -> alone (p_get 0 i) (one_memory m) = Ok (one_memory m, p).
Proof.
  intros H. rewrite (alone_get 0 i (one_memory m) (btree m) eq_refl). unfold bundle_pointer, tree_get in *.
  destruct (root_ (btree m)) as [n|]; [|injection H as <-; reflexivity]. fold h. rewrite (bundle_at_get _ _ _ _ H). reflexivity.
Qed.
Lemma alone_slots (b : nat) (ks : list nat) (vs : list (option P)) :
  omap (behind m b) ks = Ok vs -> alone (p_slots b ks) (one_memory m) = Ok (one_memory m, vs).
Proof.
  revert vs; induction ks as [|x ks IH]; intros vs H; cbn [omap p_slots alone] in *; [injection H as <-; reflexivity|].
  obreak H. rename a into v. obreak H. rename a into vs'. injection H as <-. unfold behind, slot_at in E. obreak E. obreak E1.
  unfold data_of in E2. destruct (nth_error (bmem m) b) as [[| |i bu]|] eqn:Eb; try discriminate. injection E2 as <-. cbn [snd] in E1.
  unfold data_of at 1. fold h. rewrite (bundle_object _ _ Eb). cbn [move_object obind snd move_bundle].
  rewrite nth_error_map. destruct (nth_error (hslots bu) x) as [[d|]|]; [| |discriminate]; injection E1 as <-; cbn [option_map].
  - obreak E. injection E as <-. unfold data_of in E1. destruct (nth_error (dmem m) d) as [[| |i' v]|] eqn:Ed; try discriminate. injection E1 as <-.
    cbn [alone]. unfold data_of. fold h. rewrite (dist_object _ _ Ed). cbn [move_object obind snd]. rewrite alone_bind, (IH _ E0). reflexivity.
  - injection E as <-. rewrite alone_bind, (IH _ E0). reflexivity.
Qed.
End Queried.

Section Top.
Context {P : Type}.
Variable c : config P.
Hypothesis Hc : config_ok c.
Hypothesis Hk : kindc c = Dynamic.

(** The history names a bundle. *)
Definition named (l : list (map_action (P:=P))) (bi : idx) : Prop := In (Touch bi) l \/ exists f, In (Modify bi f) l.
(** Queries covered: sampling anywhere in the map's range and looking up bundles already named. *)
Definition settled (l : list (map_action (P:=P))) (q : query) : Prop :=
  match q with LookUp bi _ => usable c 0 bi /\ named l bi | Sample bi => usable c 0 bi end.
(** The answers of a map [m] with history [l]. *)
Definition answered (l : list (map_action (P:=P))) (m : hmap P) (q : query) (r : answer P) : Prop :=
  match q, r with
  | LookUp bi _, Found b => bundle_pointer m bi = Ok (Some b)
  | Sample bi, Sampled (Some vs) =>
      vs = map (fun i => Some (apply_changes (changes l i (generate_index bi i)) (defaultc c))) (seq 0 (2 ^ dimc c)) /\
      (named l bi \/ In ExpandAll l)
  | Sample bi, Sampled None => ~ named l bi
  | _, _ => False
  end.

Lemma in_expand (l : list (map_action (P:=P))) : In ExpandAll l \/ ~ In ExpandAll l.
Proof.
  induction l as [|a l [IH|IH]]; [right; intros []|left; right; exact IH|].
  destruct a; [right|right|left; left; reflexivity]; intros [K|K]; [discriminate|auto|discriminate|auto].
Qed.

Lemma map_queries (l : list (map_action (P:=P))) (threads : list (list query)) :
  fits c l -> Forall (Forall (settled l)) threads ->
  exists m (needed : nat -> nat), hrun c l = Ok m /\ forall schedule,
   exists ps, interleave schedule (one_memory m) (map (p_queries (defaultc c) (mergec c) (dimc c)) threads) = Ok (one_memory m, ps) /\
     length ps = length threads /\ race_free ps /\
     forall t qs, nth_error threads t = Some qs ->
       exists r, Forall2 (answered l m) qs r /\
         ((needed t <= given t schedule)%nat -> nth_error ps t = Some (Ret r)) /\
         (forall r', nth_error ps t = Some (Ret r') -> r' = r).
Proof.
  intros Hf HQ. destruct (run_state c Hc Hk l Hf) as [a [m [E0 [E [_ S]]]]]. exists m.
  assert (G : forall bi, usable c 0 bi -> exists p, bundle_pointer m bi = Ok p /\
    (named l bi -> p <> None) /\ (p <> None -> named l bi \/ In ExpandAll l)).
  { intros bi Hu. pose proof (run_seen c l Hk (offsets_length c Hc) (fits_lengths c l Hf)) as RS.
    rewrite E0 in RS. destruct RS as [s [ES [[_ [_ [_ [_ HS]]]] _]]].
    assert (s = m) by congruence. subst s. specialize (HS bi (proj1 Hu)).
    destruct (run_spec c Hc l Hf) as [a' [E' [HI [HR [_ [N1 N2]]]]]]. assert (a' = a) by congruence. subst a'.
    assert (D : cbdom c (cshape c (new_map c)) bi) by (apply (usable_bdom c Hc 0); [lia|exact Hu]).
    rewrite (cbundle_spec c Hc a bi HI Hu) in HS.
    assert (K1 : named l bi -> cbget c a bi <> None).
    { intros [K|[f K]]; (eapply N1; [exact K|exact D|]); cbn [names]; [|reflexivity].
      split; [reflexivity|]. apply (usable_valid c Hc 0); [lia|exact Hu]. }
    assert (K2 : cbget c a bi <> None -> named l bi \/ In ExpandAll l).
    { intros K. destruct (in_expand l) as [X|X]; [right; exact X|]. left.
      destruct (N2 bi D X K) as [[bi' f|bi'|] [Ha Hn]]; cbn [names] in Hn; try contradiction; [subst bi'; right; eauto|destruct Hn as [-> _]; left; exact Ha]. }
    destruct (cbget c a bi) as [bu|]; [destruct HS as [b [Hb _]]; exists (Some b)|exists None];
      (split; [assumption|]).
    - split; [discriminate|]. intros _. apply K2. discriminate.
    - split; [intros N; destruct (K1 N); reflexivity|]. intros K; contradiction. }
  set (d0 := one_memory m).
  assert (Q1 : forall q, settled l q ->
    exists r, answered l m q r /\ (exists x, alone (p_query (defaultc c) (mergec c) (dimc c) q) d0 = Ok (d0, x) /\ x = r) /\ present d0 q).
  { intros [bi is|bi] Hq; cbn [p_query settled] in *.
    - destruct Hq as [Hu Hn]. destruct (G bi Hu) as [[b|] [Hb [G1 _]]]; [|destruct (G1 Hn); reflexivity].
      exists (Found b). split; [exact Hb|]. split.
      + eexists. split; [|reflexivity]. rewrite alone_bind. unfold p_getAllocate. rewrite alone_bind. unfold d0. rewrite (bundle_get m bi _ Hb). reflexivity.
      + exists b. apply bundle_get. exact Hb.
    - destruct (G bi Hq) as [p [Hp [G1 G2]]]. destruct p as [b|].
      + eexists (Sampled (Some _)). split; [split; [reflexivity|apply G2; discriminate]|]. split; [|exact I].
        eexists. split; [|reflexivity]. rewrite alone_bind. unfold p_sample. rewrite alone_bind. unfold d0.
        rewrite (bundle_get m bi _ Hp). cbn [obind fst snd]. rewrite alone_bind.
        assert (B : omap (behind m b) (seq 0 (2 ^ dimc c)) =
          Ok (map (fun i => Some (apply_changes (changes l i (generate_index bi i)) (defaultc c))) (seq 0 (2 ^ dimc c)))).
        { assert (F : Forall (fun i => (i < 2 ^ dimc c)%nat) (seq 0 (2 ^ dimc c))).
          { rewrite Forall_forall. intros i Hi. apply in_seq in Hi. lia. }
          induction F as [|i ks Hi _ IH]; cbn [omap map]; [reflexivity|].
          rewrite (proj1 (S bi b i Hq Hp Hi)). cbn [obind]. rewrite IH. reflexivity. }
        rewrite (alone_slots m b _ _ B). reflexivity.
      + exists (Sampled None). split; [intros N; exact (G1 N eq_refl)|]. split; [|exact I].
        eexists. split; [|reflexivity]. rewrite alone_bind. unfold p_sample. rewrite alone_bind. unfold d0.
        rewrite (bundle_get m bi _ Hp). reflexivity. }
  assert (Q2 : forall qs, Forall (settled l) qs ->
    exists r, Forall2 (answered l m) qs r /\ alone (p_queries (defaultc c) (mergec c) (dimc c) qs) d0 = Ok (d0, r)).
  { induction 1 as [|q qs Hq _ [r [R1 R2]]]; [exists []; split; [constructor|reflexivity]|].
    destruct (Q1 q Hq) as [x [X1 [[x' [X2 ->]] _]]]. exists (x :: r). cbn [p_queries]. split; [constructor; assumption|].
    rewrite alone_bind, X2. cbn [obind fst snd]. rewrite alone_bind, R2. reflexivity. }
  destruct (queries_together (defaultc c) (mergec c) (dimc c) d0 threads) as [needed H].
  - eapply Forall_impl; [|exact HQ]. intros qs. apply Forall_impl. intros q Hq. destruct (Q1 q Hq) as [x [_ [_ X]]]. exact X.
  - intros qs Hin. rewrite Forall_forall in HQ. destruct (Q2 qs (HQ qs Hin)) as [r [_ R]]. eauto.
  - exists needed. split; [exact E|]. intros schedule. destruct (H schedule) as [ps [I [L [F K]]]]. exists ps. split; [exact I|]. split; [exact L|]. split; [exact F|].
    intros t qs Ht. rewrite Forall_forall in HQ. destruct (Q2 qs (HQ qs (nth_error_In _ _ Ht))) as [r [R1 R2]].
    exists r. split; [exact R1|]. exact (K t qs r d0 Ht R2).
Qed.
End Top.

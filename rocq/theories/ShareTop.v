(** Octrees filled by different threads, for every schedule. *)
From Coq Require Import Sorted.
From Verif Require Import Base OctreeSpec OctreeModel OctreeFacts OctreeHist TreeHeapSpec TreeHeapModel TreeHeapFacts TreeHeapHist
  ShareModel ShareFacts ShareSeq ShareSim.
Open Scope Z_scope.

Section Top.
Context {V : Type}.
Variable merge : V -> V -> V.
Variable dims : nat.
Local Notation prog := (prog V).
Local Notation shared := (shared V).

(** ** What is seen of related octrees *)
Section Observe.
Variables (t : nat) (r : list nat) (s s' : shared).
Hypothesis S : srel t r s s'.

Lemma children_rel (n n' : nat) (c : option nat) : nth_error r n = Some n' -> children_ (mem s) n = Ok c ->
  exists c', children_ (mem s') n' = Ok c' /\ ptr_rel r c c'.
Proof.
  intros Hn. unfold children_, word_of. destruct (nth_error (mem s) n) as [[w| |]|] eqn:E; try discriminate. cbn [obind].
  destruct (sr_objects _ _ _ _ S _ _ _ Hn E) as [[w'| |] [E' R]]; cbn in R; try contradiction. rewrite E'. cbn [obind].
  destruct w, w'; cbn in R; try contradiction; intros H; try discriminate; injection H as <-; eexists; split; try reflexivity; exact R.
Qed.
Lemma data_ptr_rel (n n' : nat) (c : option nat) : nth_error r n = Some n' -> data_ptr_ (mem s) n = Ok c ->
  exists c', data_ptr_ (mem s') n' = Ok c' /\ ptr_rel r c c'.
Proof.
  intros Hn. unfold data_ptr_, word_of. destruct (nth_error (mem s) n) as [[w| |]|] eqn:E; try discriminate. cbn [obind].
  destruct (sr_objects _ _ _ _ S _ _ _ Hn E) as [[w'| |] [E' R]]; cbn in R; try contradiction. rewrite E'. cbn [obind].
  destruct w, w'; cbn in R; try contradiction; intros H; try discriminate; injection H as <-; eexists; split; try reflexivity; exact R.
Qed.
Lemma data_of_rel (d d' : nat) (e : idx * V) : nth_error r d = Some d' -> data_of (mem s) d = Ok e -> data_of (mem s') d' = Ok e.
Proof.
  intros Hn. unfold data_of. destruct (nth_error (mem s) d) as [[| |i v]|] eqn:E; try discriminate.
  destruct (sr_objects _ _ _ _ S _ _ _ Hn E) as [[| |i' v'] [E' R]]; cbn in R; try contradiction. rewrite E'.
  destruct R as [<- <-]. auto.
Qed.
Lemma array_rel (a a' : nat) (l : list (option nat)) : nth_error r a = Some a' -> array_of (mem s) a = Ok l ->
  exists l', array_of (mem s') a' = Ok l' /\ Forall2 (ptr_rel r) l l'.
Proof.
  intros Hn. unfold array_of. destruct (nth_error (mem s) a) as [[|l0|]|] eqn:E; try discriminate.
  destruct (sr_objects _ _ _ _ S _ _ _ Hn E) as [[|l'|] [E' R]]; cbn in R; try contradiction. rewrite E'.
  intros H; injection H as ->. eauto.
Qed.
Lemma entry_rel (l l' : list (option nat)) (pos : nat) (x : option nat) : Forall2 (ptr_rel r) l l' -> entry l pos = Ok x ->
  exists x', entry l' pos = Ok x' /\ ptr_rel r x x'.
Proof.
  unfold entry. intros R H. destruct (nth_error l pos) as [y|] eqn:E; [|discriminate]. injection H as ->.
  destruct (nth_rel r l l' pos x R E) as [x' [E' R']]. rewrite E'. eauto.
Qed.
Lemma childExists_rel (n n' pos : nat) (b : bool) : nth_error r n = Some n' -> childExists (mem s) n pos = Ok b ->
  childExists (mem s') n' pos = Ok b.
Proof.
  intros Hn H. unfold childExists in *. obreak H. destruct (children_rel n n' a Hn E) as [c' [E' R]]. rewrite E'. cbn [obind].
  destruct a as [a|], c' as [a'|]; cbn in R; try contradiction; [|exact H].
  obreak H. destruct (array_rel _ _ _ R E0) as [l' [E1 R1]]. rewrite E1. cbn [obind].
  obreak H. destruct (entry_rel _ _ _ _ R1 E2) as [x' [E3 R3]]. rewrite E3. cbn [obind].
  destruct a1, x'; cbn in R3; try contradiction; exact H.
Qed.
Lemma getChild_rel (n n' pos c : nat) : nth_error r n = Some n' -> getChild (mem s) n pos = Ok c ->
  exists c', getChild (mem s') n' pos = Ok c' /\ nth_error r c = Some c'.
Proof.
  intros Hn H. unfold getChild in *. obreak H. destruct (children_rel n n' a Hn E) as [c' [E' R]]. rewrite E'. cbn [obind].
  destruct a as [a|], c' as [a'|]; cbn in R; try contradiction; [|discriminate].
  obreak H. destruct (array_rel _ _ _ R E0) as [l' [E1 R1]]. rewrite E1. cbn [obind].
  obreak H. destruct (entry_rel _ _ _ _ R1 E2) as [x' [E3 R3]]. rewrite E3. cbn [obind].
  destruct a1, x'; cbn in R3; try contradiction; [|discriminate]. injection H as ->. eauto.
Qed.
Lemma at_get_rel (rem n n' : nat) (i : idx) (p : option nat) : nth_error r n = Some n' -> at_get rem (mem s) n i = Ok p ->
  exists p', at_get rem (mem s') n' i = Ok p' /\ ptr_rel r p p'.
Proof.
  revert n n'; induction rem as [|rem IH]; intros n n' Hn H; cbn [at_get] in *; [eapply data_ptr_rel; eassumption|].
  obreak H. rewrite E. cbn [obind]. obreak H. rewrite (childExists_rel n n' a a0 Hn E0). cbn [obind]. destruct a0.
  - obreak H. destruct (getChild_rel n n' a _ Hn E1) as [c' [E2 R]]. rewrite E2. cbn [obind]. eapply IH; eassumption.
  - injection H as <-. exists None. split; [reflexivity|exact I].
Qed.
Lemma at_traverse_rel (rem n n' : nat) (es : list (idx * V)) : nth_error r n = Some n' -> at_traverse dims rem (mem s) n = Ok es ->
  at_traverse dims rem (mem s') n' = Ok es.
Proof.
  revert n n' es; induction rem as [|rem IH]; intros n n' es Hn H; cbn [at_traverse] in *.
  - obreak H. destruct (data_ptr_rel _ _ _ Hn E) as [c' [E' R]]. rewrite E'. cbn [obind].
    destruct a as [d|], c' as [d'|]; cbn in R; try contradiction; [|exact H].
    obreak H. rewrite (data_of_rel _ _ _ R E0). exact H.
  - revert es H. generalize (seq 0 (2 ^ dims)%nat). intros l. induction l as [|i l IHl]; intros es H; [exact H|].
    obreak H. rewrite (childExists_rel n n' i a Hn E). cbn [obind]. destruct a; [|apply IHl; exact H].
    obreak H. destruct (getChild_rel n n' i _ Hn E0) as [c' [E2 R]]. rewrite E2. cbn [obind].
    obreak H. rewrite (IH _ _ _ R E1). cbn [obind]. obreak H. rewrite (IHl _ E3). exact H.
Qed.

(** Reported size, traversal and lookups. *)
Lemma observed_rel (x x' : tree) (es : list (idx * V)) :
  nth_error (trees s) t = Some x -> nth_error (trees s') t = Some x' -> tree_traverse dims (mem s) x = Ok es ->
  tree_size_ x' = tree_size_ x /\ tree_traverse dims (mem s') x' = Ok es /\
  forall i v, (let* p := tree_get (mem s) x i in
               match p with None => Ok None | Some d => let* e := data_of (mem s) d in Ok (Some (snd e)) end) = Ok v ->
              (let* p := tree_get (mem s') x' i in
               match p with None => Ok None | Some d => let* e := data_of (mem s') d in Ok (Some (snd e)) end) = Ok v.
Proof.
  intros Hx Hx' T. destruct (sr_tree _ _ _ _ S x Hx) as [y [Hy [R Z]]]. rewrite Hx' in Hy. injection Hy as <-.
  split; [symmetry; exact Z|]. unfold tree_traverse, tree_get in *.
  destruct (root_ x) as [n|], (root_ x') as [n'|]; cbn in R; try contradiction.
  - split; [eapply at_traverse_rel; eassumption|]. intros i v H. obreak H.
    destruct (at_get_rel _ _ _ _ _ R E) as [p' [E' R']]. rewrite E'. cbn [obind].
    destruct a as [d|], p' as [d'|]; cbn in R'; try contradiction; [|exact H].
    obreak H. rewrite (data_of_rel _ _ _ R' E0). exact H.
  - split; [exact T|]. auto.
Qed.
End Observe.

(** ** All threads *)
Definition ghost : Type := (shared * prog unit * list nat)%type.
Definition g_state (g : ghost) : shared := fst (fst g).
Definition g_prog (g : ghost) : prog unit := snd (fst g).
Definition g_map (g : ghost) : list nat := snd g.

(** Every thread is where it is alone, at addresses no other thread uses. *)
Record together (gs : list ghost) (s : shared) (ps : list (prog unit)) : Prop := {
  tg_length : length gs = length ps;
  tg_thread : forall i g p, nth_error gs i = Some g -> nth_error ps i = Some p ->
    psim same i (g_map g) (g_prog g) p /\ srel i (g_map g) (g_state g) s;
  tg_apart : forall i j g g' a, i <> j -> nth_error gs i = Some g -> nth_error gs j = Some g' ->
    In a (g_map g) -> In a (g_map g') -> False }.

Lemma together_step (gs : list ghost) (s : shared) (ps : list (prog unit)) (i : nat) (g : ghost) (p : prog unit) (s1 : shared) (q1 : prog unit) :
  together gs s ps -> nth_error gs i = Some g -> nth_error ps i = Some p -> pstep (g_prog g) (g_state g) = Ok (s1, q1) ->
  exists r1 s' p' gs' ps', pstep p s = Ok (s', p') /\ upd ps i p' = Some ps' /\ upd gs i (s1, q1, r1) = Some gs' /\ together gs' s' ps'.
Proof.
  intros [L T A] Hg Hp Hs. destruct (T i g p Hg Hp) as [P S].
  destruct (own_step same i (g_map g) (g_prog g) p (g_state g) s s1 q1 P S Hs) as [r1 [s' [p' [E [P' [S' [F W]]]]]]].
  destruct (upd_some ps i p') as [ps' U]; [apply nth_error_Some; congruence|].
  destruct (upd_some gs i (s1, q1, r1)) as [gs' U']; [apply nth_error_Some; congruence|].
  exists r1, s', p', gs', ps'. split; [exact E|]. split; [exact U|]. split; [exact U'|]. split.
  - rewrite (upd_length _ _ _ _ U), (upd_length _ _ _ _ U'). exact L.
  - intros j gj pj Hgj Hpj. destruct (nth_upd _ _ _ _ _ _ U' Hgj) as [[<- ->]|[N Hgj']].
    + destruct (nth_upd _ _ _ _ _ _ U Hpj) as [[_ ->]|[N _]]; [|congruence]. split; [exact P'|exact S'].
    + destruct (nth_upd _ _ _ _ _ _ U Hpj) as [[-> _]|[_ Hpj']]; [congruence|].
      destruct (T j gj pj Hgj' Hpj') as [Pj Sj]. split; [exact Pj|].
      apply (srel_frame i j (g_map g) (g_map gj) (g_state gj) s s' Sj F N). intros a Ia Ib. exact (A i j g gj a N Hg Hgj' Ia Ib).
  - assert (Fresh : forall j gj a, i <> j -> nth_error gs j = Some gj -> In a r1 -> In a (g_map gj) -> False).
    { intros j gj a N Hj Ia Ib. destruct (W a Ia) as [Ia'|B]; [exact (A i j g gj a N Hg Hj Ia' Ib)|].
      assert (exists pj, nth_error ps j = Some pj) as [pj Hpj].
      { destruct (nth_error ps j) as [pj|] eqn:Ej; [eauto|]. exfalso. apply nth_error_None in Ej.
        assert (j < length gs)%nat by (apply nth_error_Some; congruence). lia. }
      destruct (T j gj pj Hj Hpj) as [_ Sj]. specialize (sr_bound _ _ _ _ Sj a Ib). lia. }
    intros j k gj gk a N Hj Hk Ia Ib.
    destruct (nth_upd _ _ _ _ _ _ U' Hj) as [[<- ->]|[Nj Hj']]; destruct (nth_upd _ _ _ _ _ _ U' Hk) as [[<- ->]|[Nk Hk']].
    + congruence.
    + exact (Fresh k gk a Nk Hk' Ia Ib).
    + exact (Fresh j gj a Nj Hj' Ib Ia).
    + exact (A j k gj gk a N Hj' Hk' Ia Ib).
Qed.

Lemma together_run (schedule : list nat) (gs : list ghost) (s : shared) (ps : list (prog unit)) :
  together gs s ps -> (forall i g, nth_error gs i = Some g -> exists f, alone (g_prog g) (g_state g) = Ok (f, tt)) ->
  exists gs' s' ps', interleave schedule s ps = Ok (s', ps') /\ together gs' s' ps' /\
    forall i g, nth_error gs i = Some g -> exists g', nth_error gs' i = Some g' /\
      alone (g_prog g') (g_state g') = alone (g_prog g) (g_state g) /\
      turns (g_prog g') (g_state g') = (turns (g_prog g) (g_state g) - given i schedule)%nat.
Proof.
  unfold interleave. revert gs s ps; induction schedule as [|j schedule IH]; intros gs s ps T H.
  - exists gs, s, ps. split; [reflexivity|]. split; [exact T|]. intros i g E. exists g. split; [exact E|]. split; [reflexivity|]. cbn. lia.
  - cbn [ofold]. unfold turn at 1. cbn [fst snd]. destruct (nth_error ps j) as [p|] eqn:E.
    + assert (exists g, nth_error gs j = Some g) as [g Hg].
      { destruct (nth_error gs j) as [g|] eqn:Eg; [eauto|]. exfalso. apply nth_error_None in Eg. rewrite (tg_length _ _ _ T) in Eg.
        assert (j < length ps)%nat by (apply nth_error_Some; congruence). lia. }
      destruct (H j g Hg) as [f R]. destruct (alone_pstep _ _ _ _ R) as [s1 [q1 [P R1]]].
      destruct (together_step gs s ps j g p s1 q1 T Hg E P) as [r1 [s' [p' [gs1 [ps1 [E1 [U [U1 T1]]]]]]]].
      rewrite E1. cbn [obind fst snd]. rewrite U. cbn [obind].
      destruct (IH gs1 s' ps1 T1) as [gs2 [s2 [ps2 [I2 [T2 K]]]]].
      { intros i q Hq. destruct (nth_upd _ _ _ _ _ _ U1 Hq) as [[-> ->]|[N Hi]]; [cbn; eauto|eauto]. }
      exists gs2, s2, ps2. split; [exact I2|]. split; [exact T2|]. intros i q Hq.
      destruct (nth_error gs1 i) as [q0|] eqn:Eq.
      2:{ exfalso. apply nth_error_None in Eq. rewrite (upd_length _ _ _ _ U1) in Eq.
          assert (i < length gs)%nat by (apply nth_error_Some; congruence). lia. }
      destruct (K i q0 Eq) as [g2 [Hg2 [K1 K2]]]. exists g2. split; [exact Hg2|]. rewrite K1, K2. unfold given. cbn [count_occ].
      destruct (nth_upd _ _ _ _ _ _ U1 Eq) as [[-> ->]|[N Hi]].
      * rewrite Hg in Hq. injection Hq as <-. cbn [g_prog g_state fst snd]. split; [congruence|].
        rewrite (turns_step _ _ _ _ P). destruct (Nat.eq_dec i i); lia.
      * rewrite Hi in Hq. injection Hq as <-. split; [reflexivity|]. destruct (Nat.eq_dec j i); [congruence|reflexivity].
    + cbn [obind]. destruct (IH gs s ps T H) as [gs2 [s2 [ps2 [I2 [T2 K]]]]]. exists gs2, s2, ps2. split; [exact I2|]. split; [exact T2|].
      intros i q Hq. destruct (K i q Hq) as [g2 [Hg2 [K1 K2]]]. exists g2. split; [exact Hg2|]. split; [exact K1|]. rewrite K2.
      assert (i <> j). { intros ->. apply nth_error_None in E. rewrite <- (tg_length _ _ _ T) in E.
        assert (j < length gs)%nat by (apply nth_error_Some; congruence). lia. }
      unfold given. cbn [count_occ]. destruct (Nat.eq_dec j i); [congruence|reflexivity].
Qed.

(** Locations of a thread. *)
Lemma access_own {A : Type} (RA : list nat -> A -> A -> Prop) (t : nat) (r : list nat) (p p' : prog A) (l : location) (w : bool) :
  psim RA t r p p' -> access p' = Some (l, w) ->
  match l with LRoot u | LSize u => u = t | LWord a | LEntry a _ | LData a => In a r end.
Proof.
  intros P H. destruct P; cbn [access] in H; try discriminate; injection H as <- <-; try reflexivity; eapply nth_error_In; eassumption.
Qed.
Lemma together_race_free (gs : list ghost) (s : shared) (ps : list (prog unit)) : together gs s ps -> race_free ps.
Proof.
  intros [L T A] i j p q N Hp Hq [l [w [w' [A1 [A2 _]]]]].
  assert (G : forall k x, nth_error ps k = Some x -> exists g, nth_error gs k = Some g).
  { intros k x Hk. destruct (nth_error gs k) as [g|] eqn:Eg; [eauto|]. exfalso. apply nth_error_None in Eg. rewrite L in Eg.
    assert (k < length ps)%nat by (apply nth_error_Some; congruence). lia. }
  destruct (G i p Hp) as [g Hg]. destruct (G j q Hq) as [g' Hg'].
  pose proof (access_own same i _ _ p l w (proj1 (T i g p Hg Hp)) A1) as B1.
  pose proof (access_own same j _ _ q l w' (proj1 (T j g' q Hg' Hq)) A2) as B2.
  destruct l; try congruence; exact (A i j g g' _ N Hg Hg' B1 B2).
Qed.

(** ** Filling octrees *)
Lemma nth_combine_seq {A : Type} (l : list A) (k i : nat) :
  nth_error (combine (seq k (length l)) l) i = option_map (fun x => ((k + i)%nat, x)) (nth_error l i).
Proof.
  revert k i; induction l as [|a l IH]; intros k [|i]; cbn; try reflexivity.
  - rewrite Nat.add_0_r. reflexivity.
  - rewrite IH. destruct (nth_error l i); cbn; [|reflexivity]. rewrite Nat.add_succ_r. reflexivity.
Qed.
Lemma nth_fill (work : list (list (map_op V))) (i : nat) :
  nth_error (fill_threads merge dims work) i = option_map (p_ops merge dims i) (nth_error work i).
Proof. unfold fill_threads. rewrite nth_error_map, nth_combine_seq. destruct (nth_error work i); reflexivity. Qed.

Definition ghosts (s : shared) (ps : list (prog unit)) : list ghost := map (fun p => (s, p, [])) ps.

Lemma together_start (garbage : list Z) (work : list (list (map_op V))) :
  together (ghosts (empty_trees garbage) (fill_threads merge dims work)) (empty_trees garbage) (fill_threads merge dims work).
Proof.
  split.
  - unfold ghosts. apply map_length.
  - intros i g p Hg Hp. unfold ghosts in Hg. rewrite nth_error_map, Hp in Hg. injection Hg as <-. cbn [g_map g_prog g_state fst snd].
    rewrite nth_fill in Hp. destruct (nth_error work i) as [ops|]; [|discriminate]. injection Hp as <-. split; [apply sim_ops|].
    split; try reflexivity.
    + constructor.
    + intros a [].
    + intros a a' o H. destruct a; discriminate.
    + intros x Hx. exists x. split; [exact Hx|]. cbn [empty_trees trees] in Hx. rewrite nth_error_map in Hx.
      destruct (nth_error garbage i); [|discriminate]. injection Hx as <-. split; [exact I|reflexivity].
  - intros i j g g' a _ Hg _ Ha _. unfold ghosts in Hg. rewrite nth_error_map in Hg.
    destruct (nth_error (fill_threads merge dims work) i); [|discriminate]. injection Hg as <-. exact Ha.
Qed.

Lemma fill_correct (garbage : list Z) (work : list (list (map_op V))) :
  length garbage = length work ->
  (forall t ops, nth_error work t = Some ops ->
     Forall (fun o => in_tree_range dims (op_index o)) ops /\ exists m, abs_run merge ops = Ok m) ->
  exists needed : nat -> nat, forall schedule,
  exists s ps, interleave schedule (empty_trees garbage) (fill_threads merge dims work) = Ok (s, ps) /\ length ps = length work /\
    race_free ps /\
    forall t g ops m, nth_error garbage t = Some g -> nth_error work t = Some ops -> abs_run merge ops = Ok m ->
      ((needed t <= given t schedule)%nat -> nth_error ps t = Some (Ret tt)) /\
      (nth_error ps t = Some (Ret tt) ->
         exists h x0 x es, tree_run merge dims g ops = Ok (h, x0) /\ nth_error (trees s) t = Some x /\
           tree_size_ x = tree_size_ x0 /\ tree_traverse dims (mem s) x = Ok es /\
           StronglySorted (fun a b => morton 16 (fst a) < morton 16 (fst b)) es /\
           (forall i v, In (i, v) es <-> in_tree_range dims i /\ m i = Some v) /\
           (forall i, in_tree_range dims i ->
              (let* p := tree_get (mem s) x i in
               match p with None => Ok None | Some d => let* e := data_of (mem s) d in Ok (Some (snd e)) end) = Ok (m i))).
Proof.
  intros L H. set (s0 := empty_trees garbage). set (ps0 := fill_threads merge dims work).
  assert (Run : forall t g ops, nth_error garbage t = Some g -> nth_error work t = Some ops ->
    exists h x m, tree_run merge dims g ops = Ok (h, x) /\ abs_run merge ops = Ok m /\
      alone (p_ops merge dims t ops) s0 = Ok (with_tree s0 t h x, tt) /\
      nth_error (trees (with_tree s0 t h x)) t = Some x /\ mem (with_tree s0 t h x) = h /\
      exists es, tree_traverse dims h x = Ok es /\
           StronglySorted (fun a b => morton 16 (fst a) < morton 16 (fst b)) es /\
           (forall i v, In (i, v) es <-> in_tree_range dims i /\ m i = Some v) /\
           (forall i, in_tree_range dims i ->
              (let* p := tree_get h x i in
               match p with None => Ok None | Some d => let* e := data_of h d in Ok (Some (snd e)) end) = Ok (m i))).
  { intros t g ops Hg Hops. destruct (H t ops Hops) as [HR [m Hm]].
    destruct (octree_traverse_hist merge dims g ops m HR Hm) as [o [es [Ho [He [Hin Hso]]]]].
    pose proof (octree_refines_map merge dims g ops HR) as G. rewrite Hm in G. destruct G as [o' [Ho' G]].
    rewrite Ho in Ho'. injection Ho' as <-.
    assert (KC : forall i, in_tree_range dims i -> key_computable dims i).
    { intros i [Li Fi]. split; [exact Li|]. eapply Forall_impl; [|exact Fi]. cbn. unfold INT_MIN, INT_MAX. lia. }
    pose proof (tree_run_spec merge dims (fun _ => True) ops [] {| root_ := None; tree_size_ := g |} (octree_new g) (conj eq_refl I)) as R.
    rewrite Ho in R. destruct R as [h [x [E HR']]].
    { eapply Forall_impl; [|exact HR]. cbn. intros a Ha. split; [apply KC; exact Ha|exact I]. }
    destruct (holds_observed dims _ h x o HR') as [Z1 [Z2 Z3]].
    exists h, x, m. split; [exact E|]. split; [exact Hm|].
    assert (Ht : nth_error (trees s0) t = Some {| root_ := None; tree_size_ := g |}).
    { cbn [s0 empty_trees trees]. unfold s0, empty_trees. cbn [trees]. rewrite nth_error_map, Hg. reflexivity. }
    split.
    { rewrite (alone_ops merge dims t ops s0 _ Ht). change (mem s0) with (@nil (object V)). rewrite E. reflexivity. }
    split.
    { cbn [with_tree trees]. destruct (upd_some (trees s0) t x) as [l U]; [apply nth_error_Some; congruence|]. rewrite U.
      rewrite (upd_nth_error _ _ _ t _ U), Nat.eqb_refl. reflexivity. }
    split; [reflexivity|]. exists es. split; [congruence|]. split; [exact Hso|]. split; [exact Hin|].
    intros i Hi. rewrite <- (G i Hi). apply Z3. apply KC. exact Hi. }
  exists (fun t => match nth_error ps0 t with Some p => turns p s0 | None => O end). intros schedule.
  destruct (together_run schedule (ghosts s0 ps0) s0 ps0 (together_start garbage work)) as [gs [s [ps [I [T K]]]]].
  { intros i g Hg. unfold ghosts in Hg. rewrite nth_error_map in Hg. unfold ps0 in Hg. rewrite nth_fill in Hg.
    destruct (nth_error work i) as [ops|] eqn:Ew; [|discriminate]. injection Hg as <-. cbn [g_prog g_state fst snd].
    destruct (nth_error garbage i) as [z|] eqn:Ez.
    - destruct (Run i z ops Ez Ew) as [h [x [m [_ [_ [R _]]]]]]. eauto.
    - exfalso. apply nth_error_None in Ez. assert (i < length work)%nat by (apply nth_error_Some; congruence). lia. }
  assert (Lw : length ps0 = length work).
  { unfold ps0, fill_threads. rewrite map_length, combine_length, seq_length. lia. }
  assert (Lp : length ps = length work).
  { rewrite <- Lw. clear - I. clearbody s0 ps0. revert s0 ps0 I. unfold interleave.
    induction schedule as [|j schedule IH]; intros s0 ps0 H; cbn [ofold] in H; [injection H as _ <-; reflexivity|].
    obreak H. destruct a as [s1 ps1]. unfold turn in E. cbn [fst snd] in E. destruct (nth_error ps0 j) as [p|].
    - obreak E. destruct (upd ps0 j (snd a)) as [l|] eqn:U; [|discriminate]. injection E as <- <-.
      rewrite <- (upd_length _ _ _ _ U). eapply IH. exact H.
    - injection E as <- <-. eapply IH. exact H. }
  exists s, ps. split; [exact I|]. split; [exact Lp|]. split; [eapply together_race_free; exact T|].
  intros t g ops m Hg Hops Hm. destruct (Run t g ops Hg Hops) as [h [x [m' [R1 [R2 [R3 [R4 [R5 [es [O1 [O2 [O3 O4]]]]]]]]]]]].
  rewrite Hm in R2. injection R2 as <-.
  assert (Hp0 : nth_error ps0 t = Some (p_ops merge dims t ops)) by (unfold ps0; rewrite nth_fill, Hops; reflexivity).
  destruct (K t (s0, p_ops merge dims t ops, [])) as [g' [Hg' [K1 K2]]].
  { unfold ghosts. rewrite nth_error_map, Hp0. reflexivity. }
  cbn [g_prog g_state fst snd] in K1, K2. rewrite R3 in K1.
  assert (exists p, nth_error ps t = Some p) as [p Hp].
  { destruct (nth_error ps t) as [p|] eqn:Ep; [eauto|]. exfalso. apply nth_error_None in Ep.
    assert (t < length work)%nat by (apply nth_error_Some; congruence). lia. }
  destruct (tg_thread _ _ _ T t g' p Hg' Hp) as [P S]. rewrite Hp0, Hp. split.
  - intros Hn. assert (Z : turns (g_prog g') (g_state g') = O) by lia.
    rewrite (turns_stop _ _ _ _ K1 Z) in P. inversion P; subst. destruct a'. reflexivity.
  - intros Hr. injection Hr as ->. inversion P as [r a a' Ra E1 E2| | | | | | | | | | | |]; subst. destruct a.
    rewrite <- E2 in K1. cbn [alone] in K1. injection K1 as K1. rewrite K1 in S.
    destruct (sr_tree _ _ _ _ S x R4) as [y [Hy _]].
    rewrite <- R5 in O1. destruct (observed_rel t _ _ _ S x y es R4 Hy O1) as [B1 [B2 B3]].
    exists h, x, y, es. split; [exact R1|]. split; [exact Hy|]. split; [exact B1|]. split; [exact B2|]. split; [exact O2|]. split; [exact O3|].
    intros i Hi. apply B3. rewrite R5. apply O4. exact Hi.
Qed.
End Top.

(** ** Queries *)
Section Queries.
Context {D : Type}.
Variable d_new : D.
Variable d_merge : D -> D -> D.
Variable dims : nat.
Local Notation shared := (shared (content D)).

Lemma quiet_slots (b : nat) (ks : list nat) (s : shared) : quiet (p_slots (D := D) b ks) s.
Proof.
  induction ks as [|k ks IH]; cbn [p_slots]; [exact I|].
  intros e _. destruct (snd e) as [l|]; [|exact I]. destruct (nth_error l k) as [[d|]|]; [| |exact I].
  - intros e' _. destruct (snd e'); [exact I|]. apply quiet_bind; [exact IH|]. intros. exact I.
  - apply quiet_bind; [exact IH|]. intros. exact I.
Qed.
Lemma quiet_sample (bi : idx) (s : shared) : quiet (p_sample (D := D) dims bi) s.
Proof.
  apply quiet_bind; [apply quiet_get|]. intros [b|] _; [|exact I].
  apply quiet_bind; [apply quiet_slots|]. intros. exact I.
Qed.
(** The bundles looked up are there. *)
Definition present (s : shared) (q : query) : Prop :=
  match q with LookUp bi _ => exists b, alone (p_get 0 bi) s = Ok (s, Some b) | Sample _ => True end.
Lemma quiet_query (q : query) (s : shared) : present s q -> quiet (p_query d_new d_merge dims q) s.
Proof.
  destruct q as [bi indices|bi]; cbn [p_query present].
  - intros [b Hb]. apply quiet_bind; [|intros; exact I]. apply quiet_bind; [apply quiet_get|].
    intros x Hx. rewrite Hb in Hx. injection Hx as <-. exact I.
  - intros _. apply quiet_bind; [apply quiet_sample|]. intros. exact I.
Qed.
Lemma quiet_queries (l : list query) (s : shared) : Forall (present s) l -> quiet (p_queries d_new d_merge dims l) s.
Proof.
  induction 1 as [|q l Hq _ IH]; cbn [p_queries]; [exact I|].
  apply quiet_bind; [apply quiet_query; exact Hq|]. intros a _. apply quiet_bind; [exact IH|]. intros. exact I.
Qed.

Lemma queries_together (s : shared) (threads : list (list query)) :
  Forall (Forall (present s)) threads ->
  (forall l, In l threads -> exists s' r, alone (p_queries d_new d_merge dims l) s = Ok (s', r)) ->
  exists needed : nat -> nat, forall schedule,
  exists ps, interleave schedule s (map (p_queries d_new d_merge dims) threads) = Ok (s, ps) /\
    length ps = length threads /\ race_free ps /\
    forall t l r s', nth_error threads t = Some l -> alone (p_queries d_new d_merge dims l) s = Ok (s', r) ->
      ((needed t <= given t schedule)%nat -> nth_error ps t = Some (Ret r)) /\
      (forall r', nth_error ps t = Some (Ret r') -> r' = r).
Proof.
  intros HP HA. apply quiet_together. intros l Hl. split; [|apply HA; exact Hl].
  apply quiet_queries. rewrite Forall_forall in HP. auto.
Qed.
End Queries.

(** Traversals. *)
Lemma traversals_together {V : Type} (dims : nat) (s : ShareModel.shared V) (threads : list nat) :
  (forall t, In t threads -> exists x es, nth_error (trees s) t = Some x /\ tree_traverse dims (mem s) x = Ok es) ->
  exists needed : nat -> nat, forall schedule,
  exists ps, interleave schedule s (map (p_traverse dims) threads) = Ok (s, ps) /\
    length ps = length threads /\ race_free ps /\
    forall i t x es, nth_error threads i = Some t -> nth_error (trees s) t = Some x -> tree_traverse dims (mem s) x = Ok es ->
      ((needed i <= given i schedule)%nat -> nth_error ps i = Some (Ret es)) /\
      (forall r', nth_error ps i = Some (Ret r') -> r' = es).
Proof.
  intros H. destruct (quiet_together (p_traverse dims) s threads) as [needed K].
  - intros t Ht. split; [apply quiet_traverse|]. destruct (H t Ht) as [x [es [Hx T]]]. exists s, es.
    rewrite (alone_traverse dims t s x Hx), T. reflexivity.
  - exists needed. intros schedule. destruct (K schedule) as [ps [I [L [F G]]]]. exists ps. split; [exact I|]. split; [exact L|]. split; [exact F|].
    intros i t x es Hi Hx T. apply (G i t es s Hi). rewrite (alone_traverse dims t s x Hx), T. reflexivity.
Qed.

(** Filled by threads, then saved by threads. *)
Lemma saved_correct {V : Type} (merge : V -> V -> V) (dims : nat) (garbage : list Z) (work : list (list (map_op V))) :
  length garbage = length work ->
  (forall t ops, nth_error work t = Some ops ->
     Forall (fun o => in_tree_range dims (op_index o)) ops /\ exists m, abs_run merge ops = Ok m) ->
  forall filling s done,
  interleave filling (empty_trees garbage) (fill_threads merge dims work) = Ok (s, done) ->
  (forall p, In p done -> p = Ret tt) ->
  exists needed : nat -> nat, forall saving,
  exists ps, interleave saving s (map (p_traverse dims) (seq 0 (length work))) = Ok (s, ps) /\
    length ps = length work /\ race_free ps /\
    forall t ops m, nth_error work t = Some ops -> abs_run merge ops = Ok m ->
      exists es, ((needed t <= given t saving)%nat -> nth_error ps t = Some (Ret es)) /\
        (forall r, nth_error ps t = Some (Ret r) -> r = es) /\
        StronglySorted (fun a b => morton 16 (fst a) < morton 16 (fst b)) es /\
        (forall i v, In (i, v) es <-> in_tree_range dims i /\ m i = Some v).
Proof.
  intros HL HW filling s done HF HD. destruct (fill_correct merge dims garbage work HL HW) as [n0 F].
  destruct (F filling) as [s' [ps0 [I0 [L0 [_ K]]]]]. rewrite HF in I0. injection I0 as <- <-.
  assert (G : forall t ops m, nth_error work t = Some ops -> abs_run merge ops = Ok m ->
    exists x es, nth_error (trees s) t = Some x /\ tree_traverse dims (mem s) x = Ok es /\
      StronglySorted (fun a b => morton 16 (fst a) < morton 16 (fst b)) es /\
      (forall i v, In (i, v) es <-> in_tree_range dims i /\ m i = Some v)).
  { intros t ops m Ht Hm. assert (B : (t < length work)%nat) by (apply nth_error_Some; congruence).
    destruct (nth_error garbage t) as [g|] eqn:Eg; [|apply nth_error_None in Eg; lia].
    destruct (nth_error done t) as [p|] eqn:Ep; [|apply nth_error_None in Ep; lia].
    assert (p = Ret tt) by (apply HD; eapply nth_error_In; exact Ep). subst p.
    destruct (K t g ops m Eg Ht Hm) as [_ K2]. destruct (K2 Ep) as [h [x0 [x [es [_ [Hx [_ [T [S [C _]]]]]]]]]].
    exists x, es. auto. }
  destruct (traversals_together dims s (seq 0 (length work))) as [needed H].
  - intros t Ht. apply in_seq in Ht. destruct (nth_error work t) as [ops|] eqn:E; [|apply nth_error_None in E; lia].
    destruct (HW t ops E) as [_ [m Hm]]. destruct (G t ops m E Hm) as [x [es [A [B _]]]]. eauto.
  - exists needed. intros saving. destruct (H saving) as [ps [I [L [R Q]]]]. exists ps. split; [exact I|]. rewrite seq_length in L.
    split; [exact L|]. split; [exact R|]. intros t ops m Ht Hm. destruct (G t ops m Ht Hm) as [x [es [A [B [S C]]]]]. exists es.
    assert (N : nth_error (seq 0 (length work)) t = Some t).
    { assert (T : (t < length work)%nat) by (apply nth_error_Some; congruence).
      rewrite (nth_error_nth' _ 0%nat) by (rewrite seq_length; exact T). rewrite seq_nth by exact T. reflexivity. }
    destruct (Q t t x es N A B) as [Q1 Q2]. auto.
Qed.

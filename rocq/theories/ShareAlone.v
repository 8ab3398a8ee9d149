(** Octrees in one memory used by one thread at a time; lookups of bundles one after another. *)
From Verif Require Import Base IndexModel IndexFacts OctreeModel OctreeSpec OctreeFacts OctreeHist TreeHeapSpec TreeHeapModel
  TreeHeapFacts TreeHeapHist ShareModel ShareFacts ShareSeq.
Open Scope Z_scope.

Local Opaque tree_depth.
Section Forest.
Context {V : Type}.
Variable merge : V -> V -> V.
Variable dims : nat.
Notation good := (key_computable dims).
Notation ranged := (in_tree_range dims).
Notation node := (node V).
Notation shared := (shared V).
Notation memory := (memory V).

(** What octree [t] holds at [i]: where, and the element. *)
Definition at_cell (h : memory) (n : nat) (i : idx) : outcome (option (nat * (idx * V))) :=
  let* p := at_get tree_depth h n i in
  match p with None => Ok None | Some d => let* e := data_of h d in Ok (Some (d, e)) end.
Definition look (s : shared) (t : nat) (i : idx) : outcome (option (nat * (idx * V))) :=
  match nth_error (trees s) t with
  | None => UB
  | Some x => match root_ x with None => Ok None | Some n => at_cell (mem s) n i end
  end.

(** The octrees are well-formed and use different objects. *)
Definition planted (F : nat -> option (node * list nat)) (s : shared) : Prop :=
  (forall t x, nth_error (trees s) t = Some x ->
     match root_ x, F t with
     | None, None => True
     | Some n, Some (nd, fp) => repr tree_depth (mem s) n nd fp /\ NoDup fp /\ wf dims tree_depth ranged nd
     | _, _ => False
     end) /\
  (forall t u nd fp nd' fp' a, t <> u -> F t = Some (nd, fp) -> F u = Some (nd', fp') -> In a fp -> In a fp' -> False) /\
  (forall t, (length (trees s) <= t)%nat -> F t = None).
Definition forest (s : shared) : Prop := exists F, planted F s.

Lemma ranged_good (i : idx) : ranged i -> good i.
Proof. apply in_range_computable. Qed.

Lemma cell_spec (h : memory) (n : nat) (nd : node) (fp : list nat) (i : idx) :
  repr tree_depth h n nd fp -> NoDup fp -> wf dims tree_depth ranged nd -> ranged i ->
  match find tree_depth nd i with
  | None => at_cell h n i = Ok None
  | Some e => exists d, at_get tree_depth h n i = Ok (Some d) /\ data_of h d = Ok e /\ In d fp /\ at_cell h n i = Ok (Some (d, e)) /\ fst e = i
  end.
Proof.
  intros R N W Hi. pose proof (get_spec dims tree_depth _ h n nd fp i R N W (ranged_good i Hi)) as G. unfold at_cell.
  destruct (find tree_depth nd i) as [[j v]|] eqn:E; [|rewrite G; reflexivity].
  destruct G as [d [G1 [G2 G3]]]. exists d. rewrite G1. cbn [obind]. rewrite G2. cbn [obind]. repeat split; auto.
  destruct (find_wf dims _ _ _ _ _ _ W E) as [_ [Hj Hp]]. rewrite (range_path dims) in Hp by assumption.
  cbn [fst]. symmetry. destruct (idx_eqb_spec i j); [assumption|discriminate].
Qed.

(** Cells with the same content are at the same place if the memory only grew. *)
Lemma cell_same (h h' : memory) (n : nat) (nd nd' : node) (fp fp' : list nat) (i : idx) :
  repr tree_depth h n nd fp -> NoDup fp -> wf dims tree_depth ranged nd ->
  repr tree_depth h' n nd' fp' -> NoDup fp' -> wf dims tree_depth ranged nd' ->
  grows h h' -> ranged i -> find tree_depth nd' i = find tree_depth nd i -> at_cell h' n i = at_cell h n i.
Proof.
  intros R N W R' N' W' G Hi E. pose proof (cell_spec h n nd fp i R N W Hi) as A. pose proof (cell_spec h' n nd' fp' i R' N' W' Hi) as B.
  rewrite E in B. destruct (find tree_depth nd i) as [e|]; [|congruence].
  destruct A as [d [A1 [_ [_ [A2 _]]]]]. destruct B as [d' [B1 [_ [_ [B2 _]]]]].
  rewrite (grows_get _ _ _ _ _ _ G A1) in B1. congruence.
Qed.

Lemma look_ok (s : shared) (t : nat) (i : idx) : forest s -> (t < length (trees s))%nat -> ranged i -> exists r, look s t i = Ok r.
Proof.
  intros [F [HF _]] Ht Hi. unfold look. destruct (nth_error (trees s) t) as [x|] eqn:E; [|apply nth_error_None in E; lia].
  specialize (HF t x E). destruct (root_ x) as [n|]; [|eauto]. destruct (F t) as [[nd fp]|]; [|contradiction].
  destruct HF as [R [N W]]. pose proof (cell_spec _ _ _ _ i R N W Hi) as G.
  destruct (find tree_depth nd i); [destruct G as [d [_ [_ [_ [G _]]]]]|]; eauto.
Qed.

Lemma look_inv (F : nat -> option (node * list nat)) (s : shared) (t : nat) (i : idx) (d : nat) (e : idx * V) :
  planted F s -> ranged i -> look s t i = Ok (Some (d, e)) ->
  exists x n nd fp, nth_error (trees s) t = Some x /\ root_ x = Some n /\ F t = Some (nd, fp) /\
    repr tree_depth (mem s) n nd fp /\ NoDup fp /\ wf dims tree_depth ranged nd /\
    find tree_depth nd i = Some e /\ at_get tree_depth (mem s) n i = Ok (Some d) /\ data_of (mem s) d = Ok e /\ In d fp /\ fst e = i.
Proof.
  intros [HF _] Hi. unfold look. destruct (nth_error (trees s) t) as [x|] eqn:E; [|discriminate].
  specialize (HF t x E). destruct (root_ x) as [n|] eqn:Er; [|discriminate]. destruct (F t) as [[nd fp]|] eqn:Ef; [|contradiction].
  destruct HF as [R [N W]]. pose proof (cell_spec _ _ _ _ i R N W Hi) as G. intros H.
  destruct (find tree_depth nd i) as [e'|] eqn:Efi; [|congruence]. destruct G as [d' [G1 [G2 [G3 [G4 G5]]]]].
  rewrite G4 in H. injection H as -> ->. exists x, n, nd, fp. repeat split; assumption.
Qed.

Lemma look_data (s : shared) (t : nat) (i : idx) (d : nat) (e : idx * V) :
  forest s -> ranged i -> look s t i = Ok (Some (d, e)) -> data_of (mem s) d = Ok e /\ fst e = i.
Proof.
  intros [F HF] Hi H. destruct (look_inv F s t i d e HF Hi H) as [x [n [nd [fp [_ [_ [_ [_ [_ [_ [_ [_ [A [_ B]]]]]]]]]]]]]]. auto.
Qed.
Lemma look_get (s : shared) (t : nat) (i : idx) (r : option (nat * (idx * V))) : look s t i = Ok r ->
  alone (p_get t i) s = Ok (s, option_map fst r).
Proof.
  unfold look. destruct (nth_error (trees s) t) as [x|] eqn:E; [|discriminate]. intros H.
  rewrite (alone_get t i s x E). unfold tree_get. destruct (root_ x) as [n|]; [|injection H as <-; reflexivity].
  unfold at_cell in H. obreak H. rewrite E0. cbn [obind]. destruct a as [d|]; [|injection H as <-; reflexivity].
  obreak H. injection H as <-. reflexivity.
Qed.
(** Different cells are at different places. *)
Lemma look_injective (s : shared) (t u : nat) (i j : idx) (d : nat) (e e' : idx * V) :
  forest s -> ranged i -> ranged j -> look s t i = Ok (Some (d, e)) -> look s u j = Ok (Some (d, e')) -> t = u /\ i = j.
Proof.
  intros [F HF] Hi Hj H H'.
  destruct (look_inv F s t i d e HF Hi H) as [x [n [nd [fp [_ [_ [Ef [_ [_ [_ [_ [_ [A [I1 B]]]]]]]]]]]]]].
  destruct (look_inv F s u j d e' HF Hj H') as [x' [n' [nd' [fp' [_ [_ [Ef' [_ [_ [_ [_ [_ [A' [I2 B']]]]]]]]]]]]]].
  split; [|congruence]. destruct (Nat.eq_dec t u) as [->|N]; [reflexivity|]. exfalso.
  destruct HF as [_ [HD _]]. exact (HD t u _ _ _ _ d N Ef Ef' I1 I2).
Qed.

Definition same_cell (t u : nat) (i j : idx) : bool := (Nat.eqb t u && idx_eqb i j)%bool.

(** One octree changes. *)
Lemma planted_step (F : nat -> option (node * list nat)) (s : shared) (t n : nat) (x x' : tree) (h' : memory) (nd' : node) (fp fp' : list nat) :
  planted F s -> nth_error (trees s) t = Some x -> root_ x' = Some n ->
  fp = match F t with Some (_, f) => f | None => [] end ->
  repr tree_depth h' n nd' fp' -> NoDup fp' -> wf dims tree_depth ranged nd' -> evolves (mem s) fp h' fp' -> grows (mem s) h' ->
  let s' := with_tree s t h' x' in
  planted (fun u => if Nat.eqb t u then Some (nd', fp') else F u) s' /\ length (trees s') = length (trees s) /\
  forall u j, u <> t -> ranged j -> look s' u j = look s u j.
Proof.
  intros HP Hx Hr' Hfp R' N' W' [EV1 [EV2 [EV3 EV4]]] G s'. pose proof HP as [HF [HD HO]].
  assert (Ht : (t < length (trees s))%nat) by (apply nth_error_Some; congruence).
  destruct (upd_some (trees s) t x' Ht) as [l U].
  assert (El : trees s' = l) by (unfold s', with_tree; rewrite U; reflexivity).
  assert (Nl : forall u, nth_error l u = if Nat.eqb t u then Some x' else nth_error (trees s) u) by (intros u; apply (upd_nth_error _ _ _ _ _ U)).
  assert (Ll : length l = length (trees s)) by apply (upd_length _ _ _ _ U).
  assert (Hlt : forall u nd f a, F u = Some (nd, f) -> In a f -> (a < length (mem s))%nat).
  { intros u nd f a Ef Ha. destruct (nth_error (trees s) u) as [y|] eqn:Ey.
    - specialize (HF u y Ey). rewrite Ef in HF. destruct (root_ y); [|contradiction]. eapply repr_lt; [apply HF|exact Ha].
    - apply nth_error_None in Ey. rewrite (HO u Ey) in Ef. discriminate. }
  assert (Hframe : forall u nd f a, u <> t -> F u = Some (nd, f) -> In a f -> nth_error h' a = nth_error (mem s) a).
  { intros u nd f a Hu Ef Ha. apply EV4; [eapply Hlt; eassumption|]. intros Hin. rewrite Hfp in Hin.
    destruct (F t) as [[nd0 f0]|] eqn:Et; [|destruct Hin]. exact (HD u t _ _ _ _ a Hu Ef Et Ha Hin). }
  split; [split; [|split]|split].
  - intros u y Hy. rewrite El, Nl in Hy. change (mem s') with h'. destruct (Nat.eqb_spec t u) as [<-|Hu].
    + injection Hy as <-. rewrite Hr'. auto.
    + specialize (HF u y Hy). destruct (root_ y) as [m|]; [|exact HF]. destruct (F u) as [[nd f]|] eqn:Ef; [|exact HF].
      destruct HF as [R [N W]]. split; [|auto]. eapply repr_frame; [|exact R]. intros a Ha. eapply Hframe; [|exact Ef|exact Ha]. congruence.
  - assert (Z : forall u nd f a, u <> t -> F u = Some (nd, f) -> In a f -> In a fp' -> False).
    { intros u nd f a Hu Ef Ha Hin. destruct (EV3 a Hin) as [Hin'|L]; [|specialize (Hlt u nd f a Ef Ha); lia].
      rewrite Hfp in Hin'. destruct (F t) as [[nd0 f0]|] eqn:Et; [|destruct Hin']. exact (HD u t _ _ _ _ a Hu Ef Et Ha Hin'). }
    intros u v nd f md g a Huv Eu Ev Ha Hb. destruct (Nat.eqb_spec t u) as [<-|Hu], (Nat.eqb_spec t v) as [<-|Hv].
    + congruence.
    + injection Eu as <- <-. exact (Z v md g a ltac:(congruence) Ev Hb Ha).
    + injection Ev as <- <-. exact (Z u nd f a ltac:(congruence) Eu Ha Hb).
    + exact (HD u v _ _ _ _ a Huv Eu Ev Ha Hb).
  - intros u Hu. rewrite El, Ll in Hu. destruct (Nat.eqb_spec t u); [lia|]. apply HO. exact Hu.
  - rewrite El. exact Ll.
  - intros u j Hu Hj. unfold look. rewrite El, Nl. destruct (Nat.eqb_spec t u) as [E|_]; [congruence|].
    destruct (nth_error (trees s) u) as [y|] eqn:Ey; [|reflexivity]. specialize (HF u y Ey).
    destruct (root_ y) as [m|]; [|reflexivity]. destruct (F u) as [[nd f]|] eqn:Ef; [|contradiction].
    destruct HF as [R [N W]]. change (mem s') with h'.
    assert (R2 : repr tree_depth h' m nd f) by (eapply repr_frame; [|exact R]; intros a Ha; eapply Hframe; eassumption).
    exact (cell_same (mem s) h' m nd nd f f j R N W R2 N W G Hj eq_refl).
Qed.

Lemma insert_absent (s : shared) (t : nat) (i : idx) (v : V) :
  forest s -> ranged i -> look s t i = Ok None ->
  exists s' d, alone (p_insert merge dims t i v) s = Ok (s', d) /\ forest s' /\ length (trees s') = length (trees s) /\
    forall u j, ranged j -> look s' u j = if same_cell t u i j then Ok (Some (d, (i, v))) else look s u j.
Proof.
  intros [F HP] Hi H. unfold look in H. destruct (nth_error (trees s) t) as [x|] eqn:Ex; [|discriminate].
  pose proof HP as [HF _]. specialize (HF t x Ex). rewrite (alone_insert merge dims t i v s x Ex).
  destruct (root_ x) as [n|] eqn:Er.
  - destruct (F t) as [[nd fp]|] eqn:Ef; [|contradiction]. destruct HF as [R [N W]].
    destruct (tree_insert_old merge dims ranged (mem s) x n nd fp i v Er R N W (ranged_good i Hi) Hi)
      as [h' [d [nd' [z [fp' [A [_ [R' [N' [W' [EV [G [Q Fi]]]]]]]]]]]]].
    rewrite A. cbn [obind fst snd].
    destruct (planted_step F s t n x {| root_ := Some n; tree_size_ := tree_size_ x + z |} h' nd' fp fp' HP Ex eq_refl) as [P' [L' Lo]]; auto.
    { rewrite Ef. reflexivity. }
    do 2 eexists. split; [reflexivity|]. split; [eexists; exact P'|]. split; [exact L'|].
    assert (Efi : find tree_depth nd i = None).
    { pose proof (cell_spec _ _ _ _ i R N W Hi) as G0. destruct (find tree_depth nd i) as [e|]; [|reflexivity].
      destruct G0 as [d0 [_ [_ [_ [G0 _]]]]]. congruence. }
    intros u j Hj. unfold same_cell. destruct (Nat.eqb_spec t u) as [<-|Hu]; cbn [andb]; [|apply Lo; [congruence|exact Hj]].
    assert (Ht : (t < length (trees s))%nat) by (apply nth_error_Some; congruence).
    destruct (upd_some (trees s) t {| root_ := Some n; tree_size_ := tree_size_ x + z |} Ht) as [l U].
    unfold look, with_tree. cbn [trees mem]. rewrite U, (upd_nth_error _ _ _ t _ U), Nat.eqb_refl, Ex. cbn [root_]. rewrite Er.
    specialize (Fi j (ranged_good j Hj)). rewrite (range_path dims) in Fi by assumption.
    destruct (idx_eqb_spec i j) as [Eij|Hij]; [subst j|].
    + rewrite Efi in Fi. cbn [ins_result] in Fi. pose proof (cell_spec _ _ _ _ i R' N' W' Hi) as G0. rewrite Fi in G0.
      destruct G0 as [d0 [G1 [_ [_ [G2 _]]]]]. rewrite Q in G1. injection G1 as <-. exact G2.
    + exact (cell_same (mem s) h' n nd nd' fp fp' j R N W R' N' W' G Hj Fi).
  - destruct (F t) as [[nd fp]|] eqn:Ef; [contradiction|].
    destruct (tree_insert_new merge dims ranged (mem s) x i v Er (ranged_good i Hi) Hi)
      as [h' [d [nd' [z [fp' [A [_ [R' [N' [W' [EV [G [Q Fi]]]]]]]]]]]]].
    rewrite A. cbn [obind fst snd].
    destruct (planted_step F s t (length (mem s)) x {| root_ := Some (length (mem s)); tree_size_ := tree_size_ x + 1 + z |} h' nd' [] fp' HP Ex eq_refl) as [P' [L' Lo]]; auto.
    { rewrite Ef. reflexivity. }
    do 2 eexists. split; [reflexivity|]. split; [eexists; exact P'|]. split; [exact L'|].
    intros u j Hj. unfold same_cell. destruct (Nat.eqb_spec t u) as [<-|Hu]; cbn [andb]; [|apply Lo; [congruence|exact Hj]].
    assert (Ht : (t < length (trees s))%nat) by (apply nth_error_Some; congruence).
    destruct (upd_some (trees s) t {| root_ := Some (length (mem s)); tree_size_ := tree_size_ x + 1 + z |} Ht) as [l U].
    unfold look, with_tree. cbn [trees mem]. rewrite U, (upd_nth_error _ _ _ t _ U), Nat.eqb_refl, Ex. cbn [root_]. rewrite Er.
    specialize (Fi j (ranged_good j Hj)). rewrite (range_path dims) in Fi by assumption.
    pose proof (cell_spec _ _ _ _ j R' N' W' Hj) as G0. rewrite Fi in G0.
    destruct (idx_eqb_spec i j) as [Eij|Hij]; [subst j|]; [|exact G0].
    destruct G0 as [d0 [G1 [_ [_ [G2 _]]]]]. rewrite Q in G1. injection G1 as <-. exact G2.
Qed.

Lemma with_same (s : shared) (t : nat) (x : tree) (h : memory) : nth_error (trees s) t = Some x -> with_tree s t h x = set_mem s h.
Proof. intros H. unfold with_tree. rewrite (upd_same _ _ _ H). reflexivity. Qed.

Lemma update_present {A : Type} (s : shared) (t : nat) (i : idx) (d : nat) (v : V) (f : V -> V) (q : prog V A) :
  forest s -> ranged i -> look s t i = Ok (Some (d, (i, v))) ->
  exists s', alone (UpdateData d f q) s = alone q s' /\ forest s' /\ length (trees s') = length (trees s) /\
    forall u j, ranged j -> look s' u j = if same_cell t u i j then Ok (Some (d, (i, f v))) else look s u j.
Proof.
  intros [F HP] Hi H. destruct (look_inv F s t i d (i, v) HP Hi H) as [x [n [nd [fp [Ex [Er [Ef [R [N [W [Efi [G1 [G2 [G3 _]]]]]]]]]]]]]].
  destruct (node_modify_spec dims tree_depth ranged nd i f _ W (ranged_good i Hi) Efi) as [nd' [M [W' Fi]]].
  destruct (write_spec tree_depth (mem s) n nd nd' fp i d f R N G1 M) as [h' [A0 [R' [EV G]]]].
  destruct (planted_step F s t n x x h' nd' fp fp HP Ex Er) as [P' [L' Lo]]; auto.
  { rewrite Ef. reflexivity. }
  exists (with_tree s t h' x). split; [|split; [eexists; exact P'|split; [exact L'|]]].
  - cbn [alone]. unfold write in A0. rewrite G2 in *. cbn [obind fst snd] in *. rewrite A0. cbn [obind]. rewrite (with_same _ _ _ _ Ex). reflexivity.
  - intros u j Hj. unfold same_cell. destruct (Nat.eqb_spec t u) as [<-|Hu]; cbn [andb]; [|apply Lo; [congruence|exact Hj]].
    rewrite (with_same _ _ _ _ Ex). unfold look, set_mem. cbn [trees mem]. rewrite Ex, Er.
    specialize (Fi j). rewrite (range_path dims) in Fi by assumption. destruct (idx_eqb_spec i j) as [Eij|Hij]; [subst j|].
    + pose proof (cell_spec _ _ _ _ i R' N W' Hi) as G0. rewrite Fi in G0. cbn [fst snd] in G0.
      destruct G0 as [d0 [G5 [_ [_ [G6 _]]]]]. rewrite (grows_get _ _ _ _ _ _ G G1) in G5. injection G5 as <-. exact G6.
    + exact (cell_same (mem s) h' n nd nd' fp fp j R N W R' N W' G Hj Fi).
Qed.

Lemma forest_empty (garbage : list Z) : forest (empty_trees garbage).
Proof.
  exists (fun _ => None). split; [|split; [intros; discriminate|reflexivity]].
  intros t x H. cbn [empty_trees trees] in H. rewrite nth_error_map in H. destruct (nth_error garbage t); [|discriminate].
  injection H as <-. exact I.
Qed.
Lemma look_empty (garbage : list Z) (t : nat) (i : idx) : (t < length garbage)%nat -> look (empty_trees (V:=V) garbage) t i = Ok None.
Proof.
  intros H. unfold look. cbn [empty_trees trees]. rewrite nth_error_map. destruct (nth_error garbage t) eqn:E; [reflexivity|].
  apply nth_error_None in E. lia.
Qed.
End Forest.

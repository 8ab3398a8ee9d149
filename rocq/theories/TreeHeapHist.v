(** Histories of octrees in memory. *)
From Coq Require Import Sorted.
From Verif Require Import Base OctreeModel OctreeSpec OctreeFacts OctreeHist TreeHeapSpec TreeHeapModel TreeHeapFacts.
Open Scope Z_scope.

Local Opaque tree_depth.
Section Hist.
Context {V : Type}.
Variable merge : V -> V -> V.
Variable dims : nat.
Notation good := (key_computable dims).
Notation ranged := (in_tree_range dims).
Notation node := (node V).
Notation memory := (memory V).

(** ** One octree *)
Definition holds (P : idx -> Prop) (h : memory) (x : tree) (t : octree V) : Prop :=
  tree_size_ x = tree_size t /\
  match root_ x, root t with
  | None, None => True
  | Some n, Some nd => exists fp, repr tree_depth h n nd fp /\ NoDup fp /\ wf dims tree_depth P nd
  | _, _ => False
  end.

Lemma evolves_new (h : memory) (o : object V) : evolves h [] (h ++ [o]) [length h].
Proof.
  split; [rewrite app_length; lia|]. split; [intros x []|]. split; [intros x [<-|[]]; right; lia|].
  intros a L _. apply nth_error_app1. exact L.
Qed.
Lemma repr_new (h : memory) (r : nat) : repr r (h ++ [ONode WNull]) (length h) NNull [length h].
Proof. destruct r; cbn [repr]; (split; [reflexivity|]); rewrite nth_new, Nat.eqb_refl; reflexivity. Qed.

Lemma tree_insert_new (P : idx -> Prop) (h : memory) (x : tree) (i : idx) (v : V) :
  root_ x = None -> good i -> P i ->
  exists h' d nd z fp, tree_insert merge dims h x i v = Ok (h', d, {| root_ := Some (length h); tree_size_ := tree_size_ x + 1 + z |}) /\
    node_insert merge dims tree_depth NNull true i v = Ok (nd, z) /\
    repr tree_depth h' (length h) nd fp /\ NoDup fp /\ wf dims tree_depth P nd /\ evolves h [] h' fp /\ grows h h' /\
    at_get tree_depth h' (length h) i = Ok (Some d) /\
    (forall j, good j -> find tree_depth nd j = if path_eqb tree_depth i j then Some (i, v) else None).
Proof.
  intros E Hi HP.
  destruct (node_insert_spec merge dims tree_depth P NNull true i v (or_introl (conj eq_refl eq_refl)) Hi HP) as [nd [z [N [W F]]]].
  destruct (insert_spec merge dims tree_depth (h ++ [ONode WNull]) (length h) NNull nd [length h] true i v z
              (repr_new h _) ltac:(repeat constructor; auto) (fun _ => eq_refl) N) as [h' [d [fp [A [R [ND [EV [G Q]]]]]]]].
  exists h', d, nd, z, fp. unfold tree_insert. rewrite E. cbn [new_object]. rewrite A. cbn [obind fst snd].
  split; [reflexivity|]. split; [exact N|]. split; [exact R|]. split; [exact ND|]. split; [exact W|].
  split; [eapply evolves_trans; [apply evolves_new|exact EV]|].
  split; [eapply grows_trans; [apply grows_new|exact G]|]. split; [exact Q|].
  intros j Hj. rewrite (F j Hj). reflexivity.
Qed.

Lemma tree_insert_old (P : idx -> Prop) (h : memory) (x : tree) (n : nat) (nd : node) (fp : list nat) (i : idx) (v : V) :
  root_ x = Some n -> repr tree_depth h n nd fp -> NoDup fp -> wf dims tree_depth P nd -> good i -> P i ->
  exists h' d nd' z fp', tree_insert merge dims h x i v = Ok (h', d, {| root_ := Some n; tree_size_ := tree_size_ x + z |}) /\
    node_insert merge dims tree_depth nd false i v = Ok (nd', z) /\
    repr tree_depth h' n nd' fp' /\ NoDup fp' /\ wf dims tree_depth P nd' /\ evolves h fp h' fp' /\ grows h h' /\
    at_get tree_depth h' n i = Ok (Some d) /\
    (forall j, good j -> find tree_depth nd' j =
       if path_eqb tree_depth i j then Some (ins_result merge (find tree_depth nd i) i v) else find tree_depth nd j).
Proof.
  intros E R0 N0 W0 Hi HP.
  destruct (node_insert_spec merge dims tree_depth P nd false i v (or_intror (conj eq_refl W0)) Hi HP) as [nd' [z [N [W F]]]].
  destruct (insert_spec merge dims tree_depth h n nd nd' fp false i v z R0 N0 ltac:(discriminate) N) as [h' [d [fp' [A [R [ND [EV [G Q]]]]]]]].
  exists h', d, nd', z, fp'. unfold tree_insert. rewrite E, A. cbn [obind fst snd]. auto 10.
Qed.

Lemma tree_step_spec (P : idx -> Prop) (h : memory) (x : tree) (t : octree V) (o : map_op V) :
  holds P h x t -> good (op_index o) -> P (op_index o) ->
  match octree_step merge dims t o with
  | Ok t' => exists h' x', tree_step merge dims (h, x) o = Ok (h', x') /\ holds P h' x' t'
  | UB => tree_step merge dims (h, x) o = UB
  | Throw => False
  end.
Proof.
  intros [Hz Hr] Hi HP. destruct o as [i v|i f]; cbn [op_index octree_step tree_step fst snd] in *.
  - unfold octree_insert. destruct (root_ x) as [n|] eqn:Ex, (root t) as [nd|] eqn:Et; try contradiction.
    + destruct Hr as [fp [R [ND W]]].
      destruct (tree_insert_old P h x n nd fp i v Ex R ND W Hi HP) as [h' [d [nd' [z [fp' [A [N [R' [ND' [W' [EV [G [Q F]]]]]]]]]]]]].
      rewrite N, A. cbn [obind fst snd]. do 2 eexists. split; [reflexivity|]. split; cbn [tree_size_ tree_size root_ root]; [lia|].
      exists fp'. auto.
    + destruct (tree_insert_new P h x i v Ex Hi HP) as [h' [d [nd' [z [fp' [A [N [R' [ND' [W' [EV [G [Q F]]]]]]]]]]]]].
      rewrite N, A. cbn [obind fst snd]. do 2 eexists. split; [reflexivity|]. split; cbn [tree_size_ tree_size root_ root]; [lia|].
      exists fp'. auto.
  - unfold octree_modify, tree_get. destruct (root_ x) as [n|] eqn:Ex, (root t) as [nd|] eqn:Et; try contradiction; [|reflexivity].
    destruct Hr as [fp [R [ND W]]]. pose proof (get_spec dims tree_depth P h n nd fp i R ND W Hi) as G.
    destruct (find tree_depth nd i) as [e|] eqn:Ef.
    + destruct G as [d [G1 _]]. rewrite G1. cbn [obind].
      destruct (node_modify_spec dims tree_depth P nd i f e W Hi Ef) as [nd' [M [W' _]]]. rewrite M. cbn [obind].
      destruct (write_spec tree_depth h n nd nd' fp i d f R ND G1 M) as [h' [A [R' _]]]. rewrite A. cbn [obind].
      exists h', x. split; [reflexivity|]. split; [exact Hz|]. rewrite Ex. cbn [root]. exists fp. auto.
    + rewrite G. cbn [obind]. rewrite (node_modify_none dims _ _ _ _ _ W Hi Ef). reflexivity.
Qed.

Lemma tree_run_spec (P : idx -> Prop) (ops : list (map_op V)) (h : memory) (x : tree) (t : octree V) :
  holds P h x t -> Forall (fun o => good (op_index o) /\ P (op_index o)) ops ->
  match octree_run merge dims ops t with
  | Ok t' => exists h' x', ofold (tree_step merge dims) ops (h, x) = Ok (h', x') /\ holds P h' x' t'
  | UB => ofold (tree_step merge dims) ops (h, x) = UB
  | Throw => False
  end.
Proof.
  unfold octree_run. revert h x t; induction ops as [|o ops IH]; intros h x t HR Hops; cbn [ofold].
  - eauto.
  - inversion Hops as [|? ? [Hk HP] Hops']; subst. pose proof (tree_step_spec P h x t o HR Hk HP) as S.
    destruct (octree_step merge dims t o) as [t'| |]; cbn [obind]; [|rewrite S; reflexivity|contradiction].
    destruct S as [h' [x' [E HR']]]. rewrite E. cbn [obind]. apply IH; assumption.
Qed.

Lemma holds_observed (P : idx -> Prop) (h : memory) (x : tree) (t : octree V) :
  holds P h x t ->
  tree_size_ x = octree_size t /\ tree_traverse dims h x = octree_traverse t /\
  (forall i, good i ->
     (let* p := tree_get h x i in
      match p with None => Ok None | Some d => let* e := data_of h d in Ok (Some (snd e)) end) = octree_get t i).
Proof.
  intros [Hz Hr]. split; [exact Hz|]. unfold tree_traverse, octree_traverse, tree_get, octree_get.
  destruct (root_ x) as [n|] eqn:Ex, (root t) as [nd|] eqn:Et; try contradiction; [|split; reflexivity].
  destruct Hr as [fp [R [ND W]]]. split; [eapply traverse_spec; eassumption|].
  intros i Hi. rewrite (node_get_find dims _ _ _ _ W Hi).
  pose proof (get_spec dims tree_depth P h n nd fp i R ND W Hi) as G.
  destruct (find tree_depth nd i) as [e|]; [|rewrite G; reflexivity].
  destruct G as [d [G1 [G2 _]]]. rewrite G1. cbn [obind]. rewrite G2. reflexivity.
Qed.

(** ** Several octrees *)
Notation cell := (nat * node * list nat)%type.
Definition cells_ok (h : memory) (cells : list cell) : Prop :=
  NoDup (concat (map snd cells)) /\
  forall c a nd fp, nth_error cells c = Some (a, nd, fp) -> repr tree_depth h a nd fp /\ wf dims tree_depth ranged nd.

Lemma nth_map_snd (cells : list cell) (c : nat) (f : list nat) :
  nth_error (map snd cells) c = Some f -> exists a nd, nth_error cells c = Some (a, nd, f).
Proof.
  rewrite nth_error_map. destruct (nth_error cells c) as [[[a nd] g]|]; [|discriminate]. cbn. intros H; injection H as ->. eauto.
Qed.
Lemma map_snd_nth (cells : list cell) (c a : nat) (nd : node) (f : list nat) :
  nth_error cells c = Some (a, nd, f) -> nth_error (map snd cells) c = Some f.
Proof. intros H. rewrite nth_error_map, H. reflexivity. Qed.

Lemma cell_nodup (h : memory) (cells : list cell) (c a : nat) (nd : node) (f : list nat) :
  cells_ok h cells -> nth_error cells c = Some (a, nd, f) -> NoDup f.
Proof. intros [N _] H. apply (proj1 (proj1 (nodup_concat _) N) c). eapply map_snd_nth; exact H. Qed.

Lemma cells_update (h h' : memory) (cells : list cell) (c a : nat) (nd nd' : node) (fp fp' : list nat) :
  cells_ok h cells -> nth_error cells c = Some (a, nd, fp) ->
  repr tree_depth h' a nd' fp' -> NoDup fp' -> wf dims tree_depth ranged nd' -> evolves h fp h' fp' ->
  exists cells', upd cells c (a, nd', fp') = Some cells' /\ cells_ok h' cells'.
Proof.
  intros [N C] Hc R' N' W' [L' [I' [F' Fr]]]. pose proof (proj1 (nodup_concat _) N) as [C1 C2].
  destruct (upd_some cells c (a, nd', fp')) as [cells' Hu]; [apply nth_error_Some; congruence|].
  exists cells'. split; [exact Hu|].
  assert (Nth : forall q b md g, nth_error cells' q = Some (b, md, g) ->
      (q = c /\ b = a /\ md = nd' /\ g = fp') \/ (q <> c /\ nth_error cells q = Some (b, md, g))).
  { intros q b md g Hq. rewrite (upd_nth_error _ _ _ _ _ Hu) in Hq. destruct (Nat.eqb_spec c q) as [E|E].
    - injection Hq as <- <- <-. left. auto.
    - right. auto. }
  split.
  - apply nodup_concat. split.
    + intros q g Hq. apply nth_map_snd in Hq. destruct Hq as [b [md Hq]].
      destruct (Nth _ _ _ _ Hq) as [[-> [-> [-> ->]]]|[E Hq']]; [exact N'|].
      apply (C1 q). eapply map_snd_nth; exact Hq'.
    + intros q1 q2 g1 g2 x H1 H2 X1 X2. apply nth_map_snd in H1. destruct H1 as [b1 [m1 H1]].
      apply nth_map_snd in H2. destruct H2 as [b2 [m2 H2]].
      destruct (Nth _ _ _ _ H1) as [[-> [-> [-> ->]]]|[E1 H1']], (Nth _ _ _ _ H2) as [[-> [-> [-> ->]]]|[E2 H2']]; [reflexivity| | |].
      * destruct (F' x X1) as [Y|Y]; [apply (C2 c q2 fp g2 x); try assumption; eapply map_snd_nth; eassumption|].
        pose proof (repr_lt _ _ _ _ _ x (proj1 (C _ _ _ _ H2')) X2). lia.
      * destruct (F' x X2) as [Y|Y]; [apply (C2 q1 c g1 fp x); try assumption; eapply map_snd_nth; eassumption|].
        pose proof (repr_lt _ _ _ _ _ x (proj1 (C _ _ _ _ H1')) X1). lia.
      * apply (C2 q1 q2 g1 g2 x); try assumption; eapply map_snd_nth; eassumption.
  - intros q b md g Hq. destruct (Nth _ _ _ _ Hq) as [[-> [-> [-> ->]]]|[E Hq']]; [auto|].
    destruct (C _ _ _ _ Hq') as [Rq Wq]. split; [|exact Wq].
    apply (repr_frame tree_depth h); [|exact Rq]. intros x Hx. apply Fr; [exact (repr_lt _ _ _ _ _ x Rq Hx)|].
    intros Hy. apply E. apply (C2 q c g fp x); try assumption; eapply map_snd_nth; eassumption.
Qed.

Lemma cells_add (h h' : memory) (cells : list cell) (a : nat) (nd : node) (fp : list nat) :
  cells_ok h cells -> repr tree_depth h' a nd fp -> NoDup fp -> wf dims tree_depth ranged nd -> evolves h [] h' fp ->
  cells_ok h' (cells ++ [(a, nd, fp)]).
Proof.
  intros [N C] R' N' W' [L' [I' [F' Fr]]]. pose proof (proj1 (nodup_concat _) N) as [C1 C2].
  assert (Nth : forall q b md g, nth_error (cells ++ [(a, nd, fp)]) q = Some (b, md, g) ->
      (q = length cells /\ b = a /\ md = nd /\ g = fp) \/ (nth_error cells q = Some (b, md, g))).
  { intros q b md g Hq. destruct (Nat.lt_ge_cases q (length cells)) as [L|L].
    - right. rewrite nth_error_app1 in Hq by exact L. exact Hq.
    - left. rewrite nth_error_app2 in Hq by exact L. destruct (q - length cells)%nat as [|m] eqn:E; cbn in Hq.
      + injection Hq as <- <- <-. split; [lia|auto].
      + destruct m; discriminate. }
  split.
  - apply nodup_concat. split.
    + intros q g Hq. apply nth_map_snd in Hq. destruct Hq as [b [md Hq]].
      destruct (Nth _ _ _ _ Hq) as [[-> [-> [-> ->]]]|Hq']; [exact N'|].
      apply (C1 q). eapply map_snd_nth; exact Hq'.
    + intros q1 q2 g1 g2 x H1 H2 X1 X2. apply nth_map_snd in H1. destruct H1 as [b1 [m1 H1]].
      apply nth_map_snd in H2. destruct H2 as [b2 [m2 H2]].
      destruct (Nth _ _ _ _ H1) as [[-> [-> [-> ->]]]|H1'], (Nth _ _ _ _ H2) as [[-> [-> [-> ->]]]|H2']; [reflexivity| | |].
      * destruct (F' x X1) as [[]|Y]. pose proof (repr_lt _ _ _ _ _ x (proj1 (C _ _ _ _ H2')) X2). lia.
      * destruct (F' x X2) as [[]|Y]. pose proof (repr_lt _ _ _ _ _ x (proj1 (C _ _ _ _ H1')) X1). lia.
      * apply (C2 q1 q2 g1 g2 x); try assumption; eapply map_snd_nth; eassumption.
  - intros q b md g Hq. destruct (Nth _ _ _ _ Hq) as [[-> [-> [-> ->]]]|Hq']; [auto|].
    destruct (C _ _ _ _ Hq') as [Rq Wq]. split; [|exact Wq].
    apply (repr_frame tree_depth h); [|exact Rq]. intros x Hx. apply Fr; [exact (repr_lt _ _ _ _ _ x Rq Hx)|].
    intros [].
Qed.

Definition contents_rel (cells : list cell) (ms : list (abs_map V)) : Prop :=
  forall c, match nth_error cells c, nth_error ms c with
    | Some (a, nd, fp), Some m => forall i, ranged i -> option_map snd (find tree_depth nd i) = m i
    | None, None => True
    | _, _ => False
    end.
Definition uses_rel (cells : list cell) (xs : list (option tree)) (us : list (option (option nat))) : Prop :=
  forall t, match nth_error xs t, nth_error us t with
    | Some (Some x), Some (Some u) =>
        match root_ x, u with
        | Some a, Some c => exists nd fp, nth_error cells c = Some (a, nd, fp)
        | None, None => True
        | _, _ => False
        end
    | Some None, Some None => True
    | None, None => True
    | _, _ => False
    end.
Definition denotes_rel (h : memory) (cells : list cell) (ps : list (option nat)) (ds : list (option (nat * idx))) : Prop :=
  forall k, match nth_error ps k, nth_error ds k with
    | Some (Some d), Some (Some (c, i)) =>
        ranged i /\ exists a nd fp, nth_error cells c = Some (a, nd, fp) /\ at_get tree_depth h a i = Ok (Some d)
    | Some None, Some None => True
    | None, None => True
    | _, _ => False
    end.
Definition inv (s : client V) (w : elements V) : Prop :=
  exists cells, cells_ok (objects s) cells /\ contents_rel cells (contents w) /\
    uses_rel cells (octrees s) (uses w) /\ denotes_rel (objects s) cells (pointers s) (denotes w).

Lemma rel_snoc {A B : Type} (R : A -> B -> Prop) (la : list A) (lb : list B) (a : A) (b : B) :
  (forall k, match nth_error la k, nth_error lb k with Some x, Some y => R x y | None, None => True | _, _ => False end) ->
  R a b ->
  (forall k, match nth_error (la ++ [a]) k, nth_error (lb ++ [b]) k with Some x, Some y => R x y | None, None => True | _, _ => False end).
Proof.
  revert lb; induction la as [|x la IH]; intros [|y lb] H Hab k.
  - destruct k as [|[|k]]; cbn; auto.
  - specialize (H O). cbn in H. contradiction.
  - specialize (H O). cbn in H. contradiction.
  - destruct k as [|k]; [exact (H O)|]. cbn [app nth_error]. apply IH; [|exact Hab]. intros j. exact (H (S j)).
Qed.
Lemma rel_length {A B : Type} (R : A -> B -> Prop) (la : list A) (lb : list B) :
  (forall k, match nth_error la k, nth_error lb k with Some x, Some y => R x y | None, None => True | _, _ => False end) ->
  length la = length lb.
Proof.
  revert lb; induction la as [|x la IH]; intros [|y lb] H; [reflexivity|specialize (H O); cbn in H; contradiction|specialize (H O); cbn in H; contradiction|].
  cbn [length]. f_equal. apply IH. intros k. exact (H (S k)).
Qed.

Definition content_ok (x : cell) (m : abs_map V) : Prop :=
  forall i, ranged i -> option_map snd (find tree_depth (snd (fst x)) i) = m i.
Definition use_ok (cells : list cell) (x : option tree) (u : option (option nat)) : Prop :=
  match x, u with
  | Some x, Some u => match root_ x, u with
        | Some a, Some c => exists nd fp, nth_error cells c = Some (a, nd, fp)
        | None, None => True
        | _, _ => False
        end
  | None, None => True
  | _, _ => False
  end.
Definition pointer_ok (h : memory) (cells : list cell) (p : option nat) (d : option (nat * idx)) : Prop :=
  match p, d with
  | Some p, Some (c, i) => ranged i /\ exists a nd fp, nth_error cells c = Some (a, nd, fp) /\ at_get tree_depth h a i = Ok (Some p)
  | None, None => True
  | _, _ => False
  end.
Lemma contents_iff (cells : list cell) (ms : list (abs_map V)) :
  contents_rel cells ms <->
  forall k, match nth_error cells k, nth_error ms k with Some x, Some y => content_ok x y | None, None => True | _, _ => False end.
Proof.
  unfold contents_rel, content_ok. split; intros H k; specialize (H k);
    destruct (nth_error cells k) as [[[a nd] fp]|], (nth_error ms k); auto.
Qed.
Lemma uses_iff (cells : list cell) (xs : list (option tree)) (us : list (option (option nat))) :
  uses_rel cells xs us <->
  forall k, match nth_error xs k, nth_error us k with Some x, Some y => use_ok cells x y | None, None => True | _, _ => False end.
Proof.
  unfold uses_rel, use_ok. split; intros H k; specialize (H k);
    destruct (nth_error xs k) as [[x|]|], (nth_error us k) as [[u|]|]; auto.
Qed.
Lemma denotes_iff (h : memory) (cells : list cell) (ps : list (option nat)) (ds : list (option (nat * idx))) :
  denotes_rel h cells ps ds <->
  forall k, match nth_error ps k, nth_error ds k with Some x, Some y => pointer_ok h cells x y | None, None => True | _, _ => False end.
Proof.
  unfold denotes_rel, pointer_ok. split; intros H k; specialize (H k);
    destruct (nth_error ps k) as [[x|]|], (nth_error ds k) as [[[c i]|]|]; auto.
Qed.

(** Cells keep their roots. *)
Definition kept (cells cells' : list cell) : Prop :=
  forall c a nd fp, nth_error cells c = Some (a, nd, fp) -> exists nd' fp', nth_error cells' c = Some (a, nd', fp').
Lemma use_kept (cells cells' : list cell) (x : option tree) (u : option (option nat)) :
  kept cells cells' -> use_ok cells x u -> use_ok cells' x u.
Proof.
  intros K. unfold use_ok. destruct x as [x|], u as [u|]; [|intros []|intros []|intros _; exact I].
  destruct (root_ x), u; [|intros []|intros []|intros _; exact I].
  intros [nd [fp H]]. eapply K; exact H.
Qed.
Lemma pointer_kept (h h' : memory) (cells cells' : list cell) (p : option nat) (d : option (nat * idx)) :
  kept cells cells' -> grows h h' -> pointer_ok h cells p d -> pointer_ok h' cells' p d.
Proof.
  intros K G. unfold pointer_ok. destruct p as [p|], d as [[c i]|]; [|intros []|intros []|intros _; exact I].
  intros [Hi [a [nd [fp [H1 H2]]]]]. split; [exact Hi|]. destruct (K _ _ _ _ H1) as [nd' [fp' H3]].
  exists a, nd', fp'. split; [exact H3|eapply grows_get; eassumption].
Qed.
Lemma upd_kept (cells cells' : list cell) (c a : nat) (nd nd' : node) (fp fp' : list nat) :
  nth_error cells c = Some (a, nd, fp) -> upd cells c (a, nd', fp') = Some cells' -> kept cells cells'.
Proof.
  intros Hc Hu q b md g Hq. rewrite (upd_nth_error _ _ _ _ _ Hu).
  destruct (Nat.eqb_spec c q) as [E|E]; [|eauto]. subst q. rewrite Hc in Hq. injection Hq as <- <- <-. eauto.
Qed.
Lemma snoc_kept (cells : list cell) (x : cell) : kept cells (cells ++ [x]).
Proof.
  intros q b md g Hq. exists md, g. rewrite nth_error_app1; [exact Hq|]. apply nth_error_Some. congruence.
Qed.

Lemma range_path (i j : idx) : ranged i -> ranged j -> path_eqb tree_depth i j = idx_eqb i j.
Proof.
  intros Hi Hj. rewrite (path_wrap dims i j (proj1 Hi) (proj1 Hj)), (wrap16_id dims i Hi), (wrap16_id dims j Hj). reflexivity.
Qed.

Definition step_ok (s : client V) (w : elements V) (o : tree_op V) : Prop :=
  match elements_step merge w o with
  | Ok w' => exists s', client_step merge dims s o = Ok s' /\ inv s' w'
  | UB => client_step merge dims s o = UB
  | Throw => False
  end.

Lemma inv_step (s : client V) (w : elements V) (o : tree_op V) : inv s w -> op_in_range dims o -> step_ok s w o.
Proof.
  intros [cells [CO [CR [UR DR]]]] Ho. unfold step_ok.
  rewrite contents_iff in CR. rewrite uses_iff in UR. rewrite denotes_iff in DR.
  assert (INV : forall s' w' cells', cells_ok (objects s') cells' ->
     (forall k, match nth_error cells' k, nth_error (contents w') k with Some x, Some y => content_ok x y | None, None => True | _, _ => False end) ->
     (forall k, match nth_error (octrees s') k, nth_error (uses w') k with Some x, Some y => use_ok cells' x y | None, None => True | _, _ => False end) ->
     (forall k, match nth_error (pointers s') k, nth_error (denotes w') k with Some x, Some y => pointer_ok (objects s') cells' x y | None, None => True | _, _ => False end) ->
     inv s' w').
  { intros s' w' cells' A B C D. exists cells'. rewrite contents_iff, uses_iff, denotes_iff. auto. }
  destruct o as [g|t|t|t i v|t i|k f]; cbn [elements_step client_step op_in_range] in *; unfold alive.
  - (* construction *)
    eexists; split; [reflexivity|]. apply (INV _ _ cells); [exact CO|exact CR| |]; cbn [octrees uses pointers denotes objects]; [|exact DR].
    apply rel_snoc; [exact UR|exact I].
  - (* copy *)
    pose proof (UR t) as Ut. destruct (nth_error (octrees s) t) as [[x|]|] eqn:Ex, (nth_error (uses w) t) as [[u|]|] eqn:Eu; cbn [use_ok] in Ut; try contradiction; try reflexivity.
    cbn [obind]. eexists; split; [reflexivity|].
    apply (INV _ _ cells); [exact CO|exact CR| |]; cbn [octrees uses pointers denotes objects]; [|exact DR]. apply rel_snoc; [exact UR|exact Ut].
  - (* destruction *)
    pose proof (UR t) as Ut. destruct (nth_error (octrees s) t) as [[x|]|] eqn:Ex, (nth_error (uses w) t) as [[u|]|] eqn:Eu; cbn [use_ok] in Ut; try contradiction; try reflexivity.
    cbn [obind]. unfold set_octree, set_use.
    destruct (upd_some (octrees s) t None) as [l1 H1]; [apply nth_error_Some; congruence|].
    destruct (upd_some (uses w) t None) as [l2 H2]; [apply nth_error_Some; congruence|]. rewrite H1, H2.
    eexists; split; [reflexivity|]. apply (INV _ _ cells); [exact CO|exact CR| |]; cbn [octrees uses pointers denotes objects]; [|exact DR].
    intros k. rewrite (upd_nth_error _ _ _ _ _ H1), (upd_nth_error _ _ _ _ _ H2). destruct (Nat.eqb t k); [exact I|apply UR].
  - (* insertion *)
    pose proof (in_range_computable dims i Ho) as Hg.
    pose proof (UR t) as Ut. destruct (nth_error (octrees s) t) as [[x|]|] eqn:Ex, (nth_error (uses w) t) as [[u|]|] eqn:Eu; cbn [use_ok] in Ut; try contradiction; try reflexivity.
    cbn [obind]. destruct (root_ x) as [a|] eqn:Er, u as [c|]; try contradiction.
    + destruct Ut as [nd [fp Hc]]. destruct (proj2 CO _ _ _ _ Hc) as [R W].
      destruct (tree_insert_old ranged (objects s) x a nd fp i v Er R (cell_nodup _ _ _ _ _ _ CO Hc) W Hg Ho)
        as [h' [d [nd' [z [fp' [A [N [R' [ND' [W' [EV [G [Q F]]]]]]]]]]]]].
      rewrite A. cbn [obind fst snd]. unfold set_octree. cbn [octrees objects pointers].
      destruct (upd_some (octrees s) t (Some {| root_ := Some a; tree_size_ := tree_size_ x + z |})) as [l1 H1]; [apply nth_error_Some; congruence|].
      rewrite H1. eexists; split; [reflexivity|].
      destruct (cells_update _ h' cells c a nd nd' fp fp' CO Hc R' ND' W' EV) as [cells' [Hu CO']].
      pose proof (upd_kept _ _ _ _ _ _ _ _ Hc Hu) as K.
      pose proof (CR c) as Cc. rewrite Hc in Cc. unfold value, set_value, returned. cbn [fst snd].
      destruct (nth_error (contents w) c) as [m|] eqn:Em; [|contradiction].
      destruct (upd_some (contents w) c (abs_set m i match m i with Some x0 => merge x0 v | None => v end)) as [l2 H2]; [apply nth_error_Some; congruence|].
      rewrite H2. apply (INV _ _ cells'); [exact CO'| | |]; cbn [octrees uses pointers denotes objects contents].
      * intros q. rewrite (upd_nth_error _ _ _ _ _ Hu), (upd_nth_error _ _ _ _ _ H2).
        destruct (Nat.eqb c q); [|apply CR]. intros j Hj. cbn [fst snd]. rewrite (F j (in_range_computable dims j Hj)).
        unfold abs_set. rewrite (range_path i j Ho Hj). destruct (idx_eqb i j); [|apply Cc; exact Hj].
        rewrite <- (Cc i Ho). cbn [fst snd]. destruct (find tree_depth nd i) as [[j0 y]|]; reflexivity.
      * intros q. rewrite (upd_nth_error _ _ _ _ _ H1). destruct (Nat.eqb_spec t q) as [E|E].
        -- subst q. rewrite Eu. cbn [use_ok root_]. eapply K; exact Hc.
        -- specialize (UR q). destruct (nth_error (octrees s) q), (nth_error (uses w) q); try contradiction; try exact I. eapply use_kept; eassumption.
      * apply rel_snoc.
        -- intros q. specialize (DR q). destruct (nth_error (pointers s) q), (nth_error (denotes w) q); try contradiction; try exact I. eapply pointer_kept; eassumption.
        -- cbn [pointer_ok]. split; [exact Ho|]. exists a, nd', fp'. split; [|exact Q].
           rewrite (upd_nth_error _ _ _ _ _ Hu), Nat.eqb_refl. reflexivity.
    + destruct (tree_insert_new ranged (objects s) x i v Er Hg Ho)
        as [h' [d [nd' [z [fp' [A [N [R' [ND' [W' [EV [G [Q F]]]]]]]]]]]]].
      rewrite A. cbn [obind fst snd]. unfold set_octree. cbn [octrees objects pointers].
      destruct (upd_some (octrees s) t (Some {| root_ := Some (length (objects s)); tree_size_ := tree_size_ x + 1 + z |})) as [l1 H1]; [apply nth_error_Some; congruence|].
      rewrite H1. eexists; split; [reflexivity|].
      pose proof (cells_add _ h' cells (length (objects s)) nd' fp' CO R' ND' W' EV) as CO'.
      pose proof (snoc_kept cells (length (objects s), nd', fp')) as K.
      pose proof (rel_length _ _ _ CR) as HL.
      assert (Hn : nth_error (cells ++ [(length (objects s), nd', fp')]) (length (contents w)) = Some (length (objects s), nd', fp')).
      { rewrite <- HL, nth_error_app2, Nat.sub_diag by lia. reflexivity. }
      unfold set_use, returned. cbn [uses contents denotes].
      destruct (upd_some (uses w) t (Some (Some (length (contents w))))) as [l2 H2]; [apply nth_error_Some; congruence|]. rewrite H2.
      eapply INV; [exact CO'| | |]; cbn [octrees uses pointers denotes objects contents].
      * apply rel_snoc; [exact CR|]. intros j Hj. cbn [fst snd]. rewrite (F j (in_range_computable dims j Hj)).
        unfold abs_set. rewrite (range_path i j Ho Hj). destruct (idx_eqb i j); reflexivity.
      * intros q. rewrite (upd_nth_error _ _ _ _ _ H1), (upd_nth_error _ _ _ _ _ H2). destruct (Nat.eqb_spec t q) as [E|E].
        -- cbn [use_ok root_]. eauto.
        -- specialize (UR q). destruct (nth_error (octrees s) q), (nth_error (uses w) q); try contradiction; try exact I. eapply use_kept; eassumption.
      * apply rel_snoc.
        -- intros q. specialize (DR q). destruct (nth_error (pointers s) q), (nth_error (denotes w) q); try contradiction; try exact I. eapply pointer_kept; eassumption.
        -- cbn [pointer_ok]. split; [exact Ho|]. eauto 6.
  - (* lookup *)
    pose proof (in_range_computable dims i Ho) as Hg.
    pose proof (UR t) as Ut. destruct (nth_error (octrees s) t) as [[x|]|] eqn:Ex, (nth_error (uses w) t) as [[u|]|] eqn:Eu; cbn [use_ok] in Ut; try contradiction; try reflexivity.
    cbn [obind]. unfold tree_get. destruct (root_ x) as [a|] eqn:Er, u as [c|]; try contradiction.
    + destruct Ut as [nd [fp Hc]]. destruct (proj2 CO _ _ _ _ Hc) as [R W].
      pose proof (get_spec dims tree_depth ranged _ a nd fp i R (cell_nodup _ _ _ _ _ _ CO Hc) W Hg) as G.
      pose proof (CR c) as Cc. rewrite Hc in Cc. unfold value. cbn [fst snd].
      destruct (nth_error (contents w) c) as [m|] eqn:Em; [|contradiction].
      rewrite <- (Cc i Ho). cbn [fst snd]. destruct (find tree_depth nd i) as [e|]; cbn [option_map].
      * destruct G as [d [G1 _]]. rewrite G1. cbn [obind]. eexists; split; [reflexivity|].
        apply (INV _ _ cells); [exact CO|exact CR|exact UR|]; cbn [octrees uses pointers denotes objects]. apply rel_snoc; [exact DR|].
        cbn [pointer_ok]. split; [exact Ho|]. eauto 6.
      * rewrite G. cbn [obind]. eexists; split; [reflexivity|].
        apply (INV _ _ cells); [exact CO|exact CR|exact UR|]; cbn [octrees uses pointers denotes objects]. apply rel_snoc; [exact DR|exact I].
    + cbn [obind]. eexists; split; [reflexivity|].
      apply (INV _ _ cells); [exact CO|exact CR|exact UR|]; cbn [octrees uses pointers denotes objects]. apply rel_snoc; [exact DR|exact I].
  - (* write *)
    pose proof (DR k) as Dk. destruct (nth_error (pointers s) k) as [[d|]|] eqn:Ep, (nth_error (denotes w) k) as [[[c i]|]|] eqn:Ed; cbn [pointer_ok] in Dk; try contradiction; try reflexivity.
    destruct Dk as [Hi [a [nd [fp [Hc G]]]]]. destruct (proj2 CO _ _ _ _ Hc) as [R W].
    pose proof (in_range_computable dims i Hi) as Hg. pose proof (cell_nodup _ _ _ _ _ _ CO Hc) as ND.
    pose proof (get_spec dims tree_depth ranged _ a nd fp i R ND W Hg) as S.
    pose proof (CR c) as Cc. rewrite Hc in Cc. unfold value, set_value. cbn [fst snd].
    destruct (nth_error (contents w) c) as [m|] eqn:Em; [|contradiction].
    rewrite <- (Cc i Hi). cbn [fst snd]. destruct (find tree_depth nd i) as [e|] eqn:Ef; cbn [option_map]; [|rewrite S in G; discriminate].
    destruct (node_modify_spec dims tree_depth ranged nd i f e W Hg Ef) as [nd' [M [W' F]]].
    destruct (write_spec tree_depth _ a nd nd' fp i d f R ND G M) as [h' [A [R' [EV Gr]]]].
    rewrite A. cbn [obind]. eexists; split; [reflexivity|].
    destruct (cells_update _ h' cells c a nd nd' fp fp CO Hc R' ND W' EV) as [cells' [Hu CO']].
    pose proof (upd_kept _ _ _ _ _ _ _ _ Hc Hu) as K.
    destruct (upd_some (contents w) c (abs_set m i (f (snd e)))) as [l2 H2]; [apply nth_error_Some; congruence|]. rewrite H2.
    apply (INV _ _ cells'); [exact CO'| | |]; cbn [octrees uses pointers denotes objects contents].
    + intros q. rewrite (upd_nth_error _ _ _ _ _ Hu), (upd_nth_error _ _ _ _ _ H2).
      destruct (Nat.eqb c q); [|apply CR]. intros j Hj. cbn [fst snd]. rewrite (F j).
      unfold abs_set. rewrite (range_path i j Hi Hj). destruct (idx_eqb i j); [reflexivity|apply Cc; exact Hj].
    + intros q. specialize (UR q). destruct (nth_error (octrees s) q), (nth_error (uses w) q); try contradiction; try exact I. eapply use_kept; eassumption.
    + intros q. specialize (DR q). destruct (nth_error (pointers s) q), (nth_error (denotes w) q); try contradiction; try exact I. eapply pointer_kept; eassumption.
Qed.

Lemma inv_run (ops : list (tree_op V)) (s : client V) (w : elements V) :
  inv s w -> Forall (op_in_range dims) ops ->
  match ofold (elements_step merge) ops w with
  | Ok w' => exists s', ofold (client_step merge dims) ops s = Ok s' /\ inv s' w'
  | UB => ofold (client_step merge dims) ops s = UB
  | Throw => False
  end.
Proof.
  revert s w; induction ops as [|o ops IH]; intros s w HI Hops; cbn [ofold].
  - eauto.
  - inversion Hops as [|? ? Ho Hops']; subst. pose proof (inv_step s w o HI Ho) as S. unfold step_ok in S.
    destruct (elements_step merge w o) as [w'| |]; cbn [obind]; [|rewrite S; reflexivity|contradiction].
    destruct S as [s' [E HI']]. rewrite E. cbn [obind]. apply IH; assumption.
Qed.

Lemma inv_new : inv client_new no_elements.
Proof.
  exists []. split; [split; [constructor|intros [|c]; discriminate]|].
  split; [intros [|c]; exact I|]. split; intros [|k]; exact I.
Qed.

(** ** What the client observes *)
Definition observed (s : client V) (w : elements V) : Prop :=
  length (pointers s) = length (denotes w) /\
  (forall k, nth_error (pointers s) k = Some None <-> nth_error (denotes w) k = Some None) /\
  (forall k d, nth_error (pointers s) k = Some (Some d) ->
     exists e v, nth_error (denotes w) k = Some (Some e) /\ value w e = Some v /\ data_of (objects s) d = Ok (snd e, v)) /\
  (forall k l d1 d2 e1 e2,
     nth_error (pointers s) k = Some (Some d1) -> nth_error (denotes w) k = Some (Some e1) ->
     nth_error (pointers s) l = Some (Some d2) -> nth_error (denotes w) l = Some (Some e2) -> (d1 = d2 <-> e1 = e2)) /\
  (forall t x, nth_error (octrees s) t = Some (Some x) ->
     exists u es, nth_error (uses w) t = Some (Some u) /\ tree_traverse dims (objects s) x = Ok es /\
       StronglySorted (fun a b => morton 16 (fst a) < morton 16 (fst b)) es /\
       forall i v, In (i, v) es <-> ranged i /\ exists c, u = Some c /\ value w (c, i) = Some v).

Lemma inv_observed (s : client V) (w : elements V) : inv s w -> observed s w.
Proof.
  intros [cells [CO [CR [UR DR]]]].
  rewrite contents_iff in CR. rewrite uses_iff in UR. rewrite denotes_iff in DR.
  assert (PT : forall k d c i, nth_error (pointers s) k = Some (Some d) -> nth_error (denotes w) k = Some (Some (c, i)) ->
    ranged i /\ exists a nd fp v, nth_error cells c = Some (a, nd, fp) /\ at_get tree_depth (objects s) a i = Ok (Some d) /\
      In d fp /\ value w (c, i) = Some v /\ data_of (objects s) d = Ok (i, v)).
  { intros k d c i Hp Hd. pose proof (DR k) as Dk. rewrite Hp, Hd in Dk. cbn [pointer_ok] in Dk.
    destruct Dk as [Hi [a [nd [fp [Hc G]]]]]. split; [exact Hi|]. destruct (proj2 CO _ _ _ _ Hc) as [R W].
    pose proof (in_range_computable dims i Hi) as Hg.
    pose proof (get_spec dims tree_depth ranged _ a nd fp i R (cell_nodup _ _ _ _ _ _ CO Hc) W Hg) as S.
    destruct (find tree_depth nd i) as [[j v]|] eqn:Ef; [|congruence].
    destruct S as [d' [S1 [S2 S3]]]. assert (d' = d) by congruence. subst d'.
    destruct (find_wf dims _ _ _ _ _ _ W Ef) as [_ [Hj Hp']]. rewrite (range_path i j Hi Hj) in Hp'.
    destruct (idx_eqb_spec i j); [|discriminate]. subst j.
    pose proof (CR c) as Cc. rewrite Hc in Cc. unfold value. cbn [fst snd].
    destruct (nth_error (contents w) c) as [m|]; [|contradiction].
    exists a, nd, fp, v. split; [exact Hc|]. split; [exact G|]. split; [exact S3|]. split; [|exact S2].
    rewrite <- (Cc i Hi). cbn [fst snd]. rewrite Ef. reflexivity. }
  split; [exact (rel_length _ _ _ DR)|]. split; [|split; [|split]].
  - intros k. specialize (DR k). unfold pointer_ok in DR.
    destruct (nth_error (pointers s) k) as [[d|]|], (nth_error (denotes w) k) as [[[c i]|]|]; try contradiction; split; congruence.
  - intros k d Hp. pose proof (DR k) as Dk. rewrite Hp in Dk.
    destruct (nth_error (denotes w) k) as [[[c i]|]|] eqn:Ed; cbn [pointer_ok] in Dk; try contradiction.
    destruct (PT k d c i Hp Ed) as [_ [a [nd [fp [v [_ [_ [_ [H1 H2]]]]]]]]]. exists (c, i), v. auto.
  - intros k l d1 d2 [c1 i1] [c2 i2] P1 D1 P2 D2.
    destruct (PT _ _ _ _ P1 D1) as [R1 [a1 [n1 [f1 [v1 [C1 [G1 [I1 _]]]]]]]].
    destruct (PT _ _ _ _ P2 D2) as [R2 [a2 [n2 [f2 [v2 [C2 [G2 [I2 _]]]]]]]]. split.
    + intros <-. assert (c1 = c2).
      { apply (proj2 (proj1 (nodup_concat _) (proj1 CO)) c1 c2 f1 f2 d1); try assumption; eapply map_snd_nth; eassumption. }
      subst c2. rewrite C1 in C2. injection C2 as <- <- <-. f_equal.
      destruct (proj2 CO _ _ _ _ C1) as [R W].
      pose proof (get_injective dims tree_depth ranged _ a1 n1 f1 i1 i2 d1 R (cell_nodup _ _ _ _ _ _ CO C1) W
        (in_range_computable dims i1 R1) (in_range_computable dims i2 R2) G1 G2) as E.
      rewrite (range_path i1 i2 R1 R2) in E. destruct (idx_eqb_spec i1 i2); [assumption|discriminate].
    + intros E. injection E as <- <-. rewrite C1 in C2. injection C2 as <- <- <-. congruence.
  - intros t x Ht. pose proof (UR t) as Ut. rewrite Ht in Ut. destruct (nth_error (uses w) t) as [[u|]|] eqn:Eu; cbn [use_ok] in Ut; try contradiction.
    exists u. unfold tree_traverse. destruct (root_ x) as [a|], u as [c|]; try contradiction.
    + destruct Ut as [nd [fp Hc]]. destruct (proj2 CO _ _ _ _ Hc) as [R W].
      rewrite (traverse_spec dims tree_depth ranged _ a nd fp R (cell_nodup _ _ _ _ _ _ CO Hc) W).
      destruct (node_traverse_spec dims tree_depth ranged nd W) as [es [E [T1 [T2 T3]]]].
      exists es. split; [reflexivity|]. split; [exact E|]. split; [exact T3|].
      pose proof (CR c) as Cc. rewrite Hc in Cc. unfold value. cbn [fst snd].
      destruct (nth_error (contents w) c) as [m|] eqn:Em; [|contradiction].
      intros i v. rewrite T1. split.
      * intros Hf. destruct (find_wf dims _ _ _ _ _ _ W Hf) as [_ [Hi _]]. split; [exact Hi|]. exists c. split; [reflexivity|].
        rewrite Em. rewrite <- (Cc i Hi). cbn [fst snd]. rewrite Hf. reflexivity.
      * intros [Hi [c' [Ec Hv]]]. injection Ec as <-. rewrite Em in Hv. rewrite <- (Cc i Hi) in Hv. cbn [fst snd] in Hv.
        destruct (find tree_depth nd i) as [[j v']|] eqn:Ef; [|discriminate]. cbn in Hv. injection Hv as ->.
        destruct (find_wf dims _ _ _ _ _ _ W Ef) as [_ [Hj Hp]]. rewrite (range_path i j Hi Hj) in Hp.
        destruct (idx_eqb_spec i j); [|discriminate]. subst j. reflexivity.
    + exists []. split; [reflexivity|]. split; [reflexivity|]. split; [constructor|].
      intros i v. split; [intros []|]. intros [_ [c [E _]]]. discriminate.
Qed.

End Hist.

(** ** Copies *)
Section Copies.
Context {V : Type}.
Variable merge : V -> V -> V.
Variable dims : nat.

Lemma set_octree_ok (s s' : client V) (t : nat) (x : option tree) :
  set_octree s t x = Ok s' -> objects s' = objects s /\ pointers s' = pointers s /\ upd (octrees s) t x = Some (octrees s').
Proof. unfold set_octree. destruct (upd (octrees s) t x) as [l|]; [|discriminate]. intros H; injection H as <-. auto. Qed.
Lemma alive_ok (s : client V) (t : nat) (x : tree) : alive s t = Ok x -> nth_error (octrees s) t = Some (Some x).
Proof. unfold alive. destruct (nth_error (octrees s) t) as [[y|]|]; congruence. Qed.

(** The octree object number [t] is destroyed, or has the root [a]. *)
Definition rooted (s : client V) (t : nat) (a : nat) : Prop :=
  match nth_error (octrees s) t with Some (Some x) => root_ x = Some a | Some None => True | None => False end.
Lemma rooted_step (s s' : client V) (o : tree_op V) (t a : nat) :
  client_step merge dims s o = Ok s' -> rooted s t a -> rooted s' t a.
Proof.
  unfold rooted. intros H R.
  assert (L : (t < length (octrees s))%nat) by (apply nth_error_Some; destruct (nth_error (octrees s) t); [congruence|contradiction]).
  destruct o as [g|u|u|u i v|u i|k f]; cbn [client_step] in H.
  - injection H as <-. cbn [octrees]. rewrite nth_error_app1 by exact L. exact R.
  - repeat obreak H. injection H as <-. cbn [octrees]. rewrite nth_error_app1 by exact L. exact R.
  - repeat obreak H. apply set_octree_ok in H. destruct H as [_ [_ H]]. rewrite (upd_nth_error _ _ _ _ _ H).
    destruct (Nat.eqb u t); [exact I|exact R].
  - repeat obreak H. apply set_octree_ok in H. destruct H as [_ [_ H]]. cbn [octrees] in H. rewrite (upd_nth_error _ _ _ _ _ H).
    destruct (Nat.eqb_spec u t) as [E1|E1]; [|exact R]. subst u. apply alive_ok in E. rewrite E in R.
    unfold tree_insert in E0. rewrite R in E0. repeat obreak E0. injection E0 as <-. reflexivity.
  - repeat obreak H. injection H as <-. exact R.
  - destruct (nth_error (pointers s) k) as [[d|]|]; try discriminate. repeat obreak H. injection H as <-. exact R.
Qed.
Lemma rooted_run (ops : list (tree_op V)) (s s' : client V) (t a : nat) :
  ofold (client_step merge dims) ops s = Ok s' -> rooted s t a -> rooted s' t a.
Proof.
  revert s; induction ops as [|o ops IH]; intros s H R; cbn [ofold] in H; [injection H as <-; exact R|].
  repeat obreak H. eapply IH; [exact H|]. eapply rooted_step; eassumption.
Qed.

(** Two octree objects that do not use a common content. *)
Definition apart (w : elements V) (t u : nat) : Prop :=
  t <> u /\ (t < length (uses w))%nat /\ (u < length (uses w))%nat /\
  (forall k c, nth_error (uses w) k = Some (Some (Some c)) -> (c < length (contents w))%nat) /\
  (forall c, nth_error (uses w) t = Some (Some (Some c)) -> nth_error (uses w) u <> Some (Some (Some c))).
Lemma bounded_step (w w' : elements V) (o : tree_op V) :
  elements_step merge w o = Ok w' ->
  (forall k c, nth_error (uses w) k = Some (Some (Some c)) -> (c < length (contents w))%nat) ->
  (forall k c, nth_error (uses w') k = Some (Some (Some c)) -> (c < length (contents w'))%nat) /\
  (length (contents w) <= length (contents w'))%nat /\ (length (uses w) <= length (uses w'))%nat /\
  (forall t, (t < length (uses w))%nat ->
     nth_error (uses w') t = nth_error (uses w) t \/ nth_error (uses w') t = Some None \/
     nth_error (uses w') t = Some (Some (Some (length (contents w)))) /\
       forall u, u <> t -> nth_error (uses w') u = nth_error (uses w) u).
Proof.
  intros H B.
  assert (SV : forall e v x, value w e = Some x -> length (contents (set_value w e v)) = length (contents w)).
  { intros e v x Hx. unfold value in Hx. unfold set_value. cbn [contents].
    destruct (nth_error (contents w) (fst e)) as [m|] eqn:E; [|discriminate].
    destruct (upd_some (contents w) (fst e) (abs_set m (snd e) v)) as [l Hl]; [apply nth_error_Some; congruence|].
    rewrite Hl. apply (upd_length _ _ _ _ Hl). }
  destruct o as [g|t|t|t i v|t i|k f]; cbn [elements_step] in H.
  - injection H as <-. cbn [uses contents]. split; [|split; [lia|split; [rewrite app_length; lia|]]].
    + intros k c Hk. destruct (Nat.lt_ge_cases k (length (uses w))) as [L|L].
      * rewrite nth_error_app1 in Hk by exact L. eapply B; exact Hk.
      * rewrite nth_error_app2 in Hk by exact L. destruct (k - length (uses w))%nat as [|[|m]]; discriminate.
    + intros t L. left. apply nth_error_app1. exact L.
  - destruct (nth_error (uses w) t) as [[u|]|] eqn:Et; try discriminate. injection H as <-. cbn [uses contents].
    split; [|split; [lia|split; [rewrite app_length; lia|]]].
    + intros k c Hk. destruct (Nat.lt_ge_cases k (length (uses w))) as [L|L].
      * rewrite nth_error_app1 in Hk by exact L. eapply B; exact Hk.
      * rewrite nth_error_app2 in Hk by exact L. destruct (k - length (uses w))%nat as [|[|m]]; try discriminate.
        cbn in Hk. injection Hk as ->. eapply B; exact Et.
    + intros q L. left. apply nth_error_app1. exact L.
  - destruct (nth_error (uses w) t) as [[u|]|] eqn:Et; try discriminate. injection H as <-. unfold set_use. cbn [uses contents].
    destruct (upd_some (uses w) t None) as [l Hl]; [apply nth_error_Some; congruence|]. rewrite Hl.
    split; [|split; [lia|split; [rewrite (upd_length _ _ _ _ Hl); lia|]]].
    + intros k c Hk. rewrite (upd_nth_error _ _ _ _ _ Hl) in Hk. destruct (Nat.eqb t k); [discriminate|]. eapply B; exact Hk.
    + intros q L. rewrite (upd_nth_error _ _ _ _ _ Hl). destruct (Nat.eqb t q); auto.
  - destruct (nth_error (uses w) t) as [[[c|]|]|] eqn:Et; try discriminate; injection H as <-.
    + unfold returned. cbn [uses contents].
      assert (E : length (contents (set_value w (c, i) match value w (c, i) with Some x => merge x v | None => v end)) = length (contents w)).
      { unfold set_value. cbn [contents fst snd]. pose proof (B _ _ Et) as L.
        destruct (nth_error_in_range (contents w) c L) as [m Hm]. rewrite Hm.
        destruct (upd_some (contents w) c (abs_set m i match value w (c, i) with Some x => merge x v | None => v end) L) as [l Hl]. rewrite Hl.
        apply (upd_length _ _ _ _ Hl). }
      rewrite E. cbn [set_value uses]. split; [exact B|]. auto.
    + unfold returned, set_use. cbn [uses contents].
      destruct (upd_some (uses w) t (Some (Some (length (contents w))))) as [l Hl]; [apply nth_error_Some; congruence|]. rewrite Hl.
      rewrite app_length. cbn [length]. split; [|split; [lia|split; [rewrite (upd_length _ _ _ _ Hl); lia|]]].
      * intros k c Hk. rewrite (upd_nth_error _ _ _ _ _ Hl) in Hk. destruct (Nat.eqb t k); [injection Hk as <-; lia|].
        specialize (B k c Hk). lia.
      * intros q L. destruct (Nat.eqb_spec t q) as [E|E].
        -- subst q. right; right. split; [rewrite (upd_nth_error _ _ _ _ _ Hl), Nat.eqb_refl; reflexivity|].
           intros u Nu. rewrite (upd_nth_error _ _ _ _ _ Hl). destruct (Nat.eqb_spec t u); [congruence|reflexivity].
        -- left. rewrite (upd_nth_error _ _ _ _ _ Hl). destruct (Nat.eqb_spec t q); [contradiction|reflexivity].
  - destruct (nth_error (uses w) t) as [[[c|]|]|] eqn:Et; try discriminate; injection H as <-; unfold returned; cbn [uses contents]; auto 6.
  - destruct (nth_error (denotes w) k) as [[e|]|]; try discriminate. destruct (value w e) as [x|] eqn:Ev; [|discriminate].
    injection H as <-. rewrite (SV e (f x) x Ev). cbn [set_value uses]. auto 6.
Qed.
Lemma apart_step (w w' : elements V) (o : tree_op V) (t u : nat) :
  elements_step merge w o = Ok w' -> apart w t u -> apart w' t u.
Proof.
  intros H [N [Lt [Lu [B A]]]]. destruct (bounded_step w w' o H B) as [B' [LC [LU K]]].
  split; [exact N|]. split; [lia|]. split; [lia|]. split; [exact B'|].
  intros c Ht Hu. destruct (K t Lt) as [Et|[Et|[Et Ft]]]; [|congruence|].
  - destruct (K u Lu) as [Eu|[Eu|[Eu Fu]]]; [|congruence|].
    + apply (A c); congruence.
    + rewrite Et in Ht. specialize (B t c Ht). assert (c = length (contents w)) by congruence. lia.
  - rewrite (Ft u) in Hu by congruence. specialize (B u c Hu). assert (c = length (contents w)) by congruence. lia.
Qed.
Lemma bounded_run (ops : list (tree_op V)) (w w' : elements V) :
  ofold (elements_step merge) ops w = Ok w' ->
  (forall k c, nth_error (uses w) k = Some (Some (Some c)) -> (c < length (contents w))%nat) ->
  (forall k c, nth_error (uses w') k = Some (Some (Some c)) -> (c < length (contents w'))%nat).
Proof.
  revert w; induction ops as [|o ops IH]; intros w H B; cbn [ofold] in H; [injection H as <-; exact B|].
  repeat obreak H. eapply IH; [exact H|]. eapply bounded_step; eassumption.
Qed.
Lemma apart_run (ops : list (tree_op V)) (w w' : elements V) (t u : nat) :
  ofold (elements_step merge) ops w = Ok w' -> apart w t u -> apart w' t u.
Proof.
  revert w; induction ops as [|o ops IH]; intros w H B; cbn [ofold] in H; [injection H as <-; exact B|].
  repeat obreak H. eapply IH; [exact H|]. eapply apart_step; eassumption.
Qed.

(** ** Memory *)
Lemma store_grows (h h' : memory V) (a : nat) (o : object V) : store h a o = Ok h' -> (length h <= length h')%nat.
Proof. intros H. rewrite (store_length _ _ _ _ H). lia. Qed.
Lemma create_length (h h' : memory V) (n p : nat) : createChild dims h n p = Ok h' -> (length h <= length h')%nat.
Proof.
  unfold createChild, allocateChildren, new_object. intros H. repeat obreak H.
  assert (L : (length h <= length a0)%nat).
  { destruct a as [k|]; [injection E0 as <-; lia|]. apply store_length in E0. rewrite E0, app_length. lia. }
  destruct a1 as [k|]; [|discriminate]. repeat obreak H. destruct (upd a1 p (Some (length a0))); [|discriminate].
  apply store_length in H. rewrite H, app_length. lia.
Qed.
Lemma insert_length (r : nat) (h h' : memory V) (n : nat) (b : bool) (i : idx) (v : V) (d : nat) (z : Z) :
  at_insert merge dims r h n b i v = Ok (h', d, z) -> (length h <= length h')%nat.
Proof.
  revert h n b h' d z; induction r as [|r IH]; intros h n b h' d z H; cbn [at_insert] in H.
  - repeat obreak H. destruct a as [h1 d1]. injection H as -> -> <-. unfold data_insert, new_object in E. destruct b.
    + repeat obreak E. injection E as <- <-. apply store_length in E0. rewrite E0, app_length. lia.
    + repeat obreak E. destruct a as [k|]; [|discriminate]. repeat obreak E. injection E as <- <-. apply store_length in E2. lia.
  - repeat obreak H. destruct a3 as [[h1 d1] z1]. cbn [fst snd] in H. injection H as -> -> <-. apply IH in E3.
    assert (L : (length h <= length a1)%nat) by (destruct a0; [injection E1 as <-; lia|eapply create_length; exact E1]). lia.
Qed.
Lemma step_length (s s' : client V) (o : tree_op V) :
  client_step merge dims s o = Ok s' -> (length (objects s) <= length (objects s'))%nat.
Proof.
  destruct o as [g|u|u|u i v|u i|k f]; cbn [client_step]; intros H.
  - injection H as <-. cbn; lia.
  - repeat obreak H. injection H as <-. cbn; lia.
  - repeat obreak H. apply set_octree_ok in H. destruct H as [-> _]. lia.
  - repeat obreak H. apply set_octree_ok in H. destruct H as [-> _]. cbn [objects]. destruct a0 as [[h' d] x'].
    unfold tree_insert, new_object in E0. cbn [fst]. destruct (root_ a) as [n|].
    + repeat obreak E0. destruct a0 as [[h1 d1] z]. injection E0 as -> -> <-. eapply insert_length; exact E1.
    + repeat obreak E0. destruct a0 as [[h1 d1] z]. injection E0 as -> -> <-. apply insert_length in E1. rewrite app_length in E1. lia.
  - repeat obreak H. injection H as <-. cbn; lia.
  - destruct (nth_error (pointers s) k) as [[d|]|]; try discriminate. repeat obreak H. injection H as <-. cbn [objects].
    unfold write in E. repeat obreak E. apply store_length in E. lia.
Qed.
Lemma run_length (ops : list (tree_op V)) (s s' : client V) :
  ofold (client_step merge dims) ops s = Ok s' -> (length (objects s) <= length (objects s'))%nat.
Proof.
  revert s; induction ops as [|o ops IH]; intros s H; cbn [ofold] in H; [injection H as <-; lia|].
  repeat obreak H. specialize (IH _ H). apply step_length in E. lia.
Qed.

Lemma apart_pointers (s : client V) (w : elements V) (t u : nat) (x y : tree) (i j : idx) (d : nat) :
  inv dims s w -> apart w t u ->
  nth_error (octrees s) t = Some (Some x) -> nth_error (octrees s) u = Some (Some y) ->
  in_tree_range dims i -> in_tree_range dims j ->
  tree_get (objects s) x i = Ok (Some d) -> tree_get (objects s) y j = Ok (Some d) -> False.
Proof.
  intros [cells [CO [CR [UR DR]]]] [N [_ [_ [_ A]]]] Hx Hy Hi Hj Gx Gy. unfold tree_get in Gx, Gy.
  pose proof (UR t) as Ut. rewrite Hx in Ut. pose proof (UR u) as Uu. rewrite Hy in Uu.
  destruct (nth_error (uses w) t) as [[ut|]|] eqn:Et; try contradiction.
  destruct (nth_error (uses w) u) as [[uu|]|] eqn:Eu; try contradiction.
  destruct (root_ x) as [a|]; [|discriminate]. destruct (root_ y) as [b|]; [|discriminate].
  destruct ut as [c|]; [|contradiction]. destruct uu as [c'|]; [|contradiction].
  destruct Ut as [nd [fp Hc]]. destruct Uu as [nd' [fp' Hc']].
  destruct (proj2 CO _ _ _ _ Hc) as [R W]. destruct (proj2 CO _ _ _ _ Hc') as [R' W'].
  pose proof (get_spec dims tree_depth _ _ a nd fp i R (cell_nodup _ _ _ _ _ _ _ CO Hc) W (in_range_computable dims i Hi)) as S.
  pose proof (get_spec dims tree_depth _ _ b nd' fp' j R' (cell_nodup _ _ _ _ _ _ _ CO Hc') W' (in_range_computable dims j Hj)) as S'.
  destruct (find tree_depth nd i); [|congruence]. destruct S as [d1 [S1 [_ I1]]].
  destruct (find tree_depth nd' j); [|congruence]. destruct S' as [d2 [S2 [_ I2]]].
  assert (d1 = d) by congruence. assert (d2 = d) by congruence. subst d1 d2.
  assert (c = c').
  { apply (proj2 (proj1 (nodup_concat _) (proj1 CO)) c c' fp fp' d); try assumption; eapply map_snd_nth; eassumption. }
  subst c'. exact (A c eq_refl eq_refl).
Qed.

Lemma copy_partial (ops ops' : list (tree_op V)) (t : nat) (s1 s : client V) (x y y' : tree) :
  Forall (op_in_range dims) (ops ++ CopyTree t :: ops') ->
  client_run merge dims ops = Ok s1 -> nth_error (octrees s1) t = Some (Some x) ->
  client_run merge dims (ops ++ CopyTree t :: ops') = Ok s ->
  nth_error (octrees s) t = Some (Some y) -> nth_error (octrees s) (length (octrees s1)) = Some (Some y') ->
  (root_ x <> None -> root_ y = root_ y') /\
  (root_ x = None -> forall i j d, in_tree_range dims i -> in_tree_range dims j ->
     tree_get (objects s) y i = Ok (Some d) -> tree_get (objects s) y' j = Ok (Some d) -> False).
Proof.
  intros Hr H1 Hx H Hy Hy'. apply Forall_app in Hr. destruct Hr as [Hr1 Hr2]. inversion Hr2 as [|? ? _ Hr3]; subst.
  unfold client_run in *. rewrite ofold_app, H1 in H. cbn [obind ofold] in H.
  set (s2 := {| objects := objects s1; octrees := octrees s1 ++ [Some x]; pointers := pointers s1 |}).
  assert (E2 : client_step merge dims s1 (CopyTree t) = Ok s2) by (cbn [client_step]; unfold alive; rewrite Hx; reflexivity).
  rewrite E2 in H. cbn [obind] in H.
  assert (Lt : (t < length (octrees s1))%nat) by (apply nth_error_Some; congruence). split.
  - intros Hn. destruct (root_ x) as [a|] eqn:Er; [|congruence].
    assert (R1 : rooted s2 t a) by (unfold rooted, s2; cbn [octrees]; rewrite nth_error_app1, Hx by exact Lt; exact Er).
    assert (R2 : rooted s2 (length (octrees s1)) a).
    { unfold rooted, s2; cbn [octrees]. rewrite nth_error_app2, Nat.sub_diag by lia. exact Er. }
    pose proof (rooted_run _ _ _ _ _ H R1) as Q1. pose proof (rooted_run _ _ _ _ _ H R2) as Q2.
    unfold rooted in Q1, Q2. rewrite Hy in Q1. rewrite Hy' in Q2. congruence.
  - intros Hn i j d Hi Hj G G'.
    pose proof (inv_run merge dims ops client_new no_elements (inv_new dims) Hr1) as R.
    destruct (ofold (elements_step merge) ops no_elements) as [w1| |] eqn:Ew; [|congruence|contradiction].
    destruct R as [s1' [E1 I1]]. assert (s1' = s1) by congruence. subst s1'.
    pose proof (inv_step merge dims s1 w1 (CopyTree t) I1 I) as S. unfold step_ok in S.
    assert (HL : length (octrees s1) = length (uses w1)).
    { destruct I1 as [cells [_ [_ [UR _]]]]. exact (rel_length _ _ _ (proj1 (uses_iff cells _ _) UR)). }
    assert (Hu : nth_error (uses w1) t = Some (Some None)).
    { destruct I1 as [cells [_ [_ [UR _]]]]. specialize (UR t). rewrite Hx, Hn in UR.
      destruct (nth_error (uses w1) t) as [[[c|]|]|]; try contradiction. reflexivity. }
    cbn [elements_step] in S. rewrite Hu in S. destruct S as [s2' [E2' I2]]. rewrite E2 in E2'. injection E2' as <-.
    match type of I2 with inv _ _ ?w => set (w2 := w) in I2 end.
    assert (A2 : apart w2 t (length (octrees s1))).
    { unfold apart, w2. cbn [uses contents]. rewrite HL, app_length. cbn [length].
      split; [lia|]. split; [lia|]. split; [lia|]. split.
      - intros k c Hk. destruct (Nat.lt_ge_cases k (length (uses w1))) as [L|L].
        + rewrite nth_error_app1 in Hk by exact L. eapply (bounded_run ops no_elements w1); [exact Ew| |exact Hk].
          intros [|k'] c'; discriminate.
        + rewrite nth_error_app2 in Hk by exact L. destruct (k - length (uses w1))%nat as [|[|m]]; discriminate.
      - intros c Hc. rewrite nth_error_app1 in Hc by lia. congruence. }
    pose proof (inv_run merge dims ops' s2 w2 I2 Hr3) as R.
    destruct (ofold (elements_step merge) ops' w2) as [w| |] eqn:Ew'; [|congruence|contradiction].
    destruct R as [s' [E' I']]. assert (s' = s) by congruence. subst s'.
    exact (apart_pointers s w t _ y y' i j d I' (apart_run _ _ _ _ _ Ew' A2) Hy Hy' Hi Hj G G').
Qed.
End Copies.

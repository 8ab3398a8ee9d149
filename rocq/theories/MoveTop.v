(** Moves of maps of a configuration. *)
From Verif Require Import Base SeqModel SeqFacts IndexModel IndexFacts OctreeSpec OctreeModel OctreeFacts MapModel BackendModel SysModel SysSpec.
From Verif Require Import MapFacts MapHist BackendFacts SysFacts CopyModel CopySpec CopyFacts PtrMapFacts MoveModel MoveSpec MoveFacts MoveHist.
Open Scope Z_scope.
Local Opaque tree_depth.

Lemma kill_nth {A : Type} (l : list (option A)) (ids : list nat) (a : nat) : ~ In a ids -> nth_error (kill l ids) a = nth_error l a.
Proof.
  revert l. induction ids as [|i ids IH]; intros l H; [reflexivity|]. cbn [kill]. rewrite IH by (intros X; apply H; right; exact X).
  destruct (upd l i None) as [l'|] eqn:E; [|reflexivity]. rewrite (upd_nth_error _ _ _ a _ E).
  destruct (Nat.eqb_spec i a) as [->|]; [exfalso; apply H; left; reflexivity|reflexivity].
Qed.
Lemma kill_None {A : Type} (l : list (option A)) (ids : list nat) (a : nat) : nth_error l a = Some None -> nth_error (kill l ids) a = Some None.
Proof.
  revert l. induction ids as [|i ids IH]; intros l H; [exact H|]. cbn [kill]. apply IH. destruct (upd l i None) as [l'|] eqn:E; [|exact H].
  rewrite (upd_nth_error _ _ _ a _ E). destruct (Nat.eqb i a); [reflexivity|exact H].
Qed.
Lemma kill_dead {A : Type} (l : list (option A)) (ids : list nat) (a : nat) : In a ids -> nth_error (kill l ids) a = Some None \/ nth_error (kill l ids) a = None.
Proof.
  revert l. induction ids as [|i ids IH]; intros l H; [contradiction|]. cbn [kill]. destruct H as [->|H]; [|apply IH; exact H].
  destruct (upd l a None) as [l'|] eqn:E.
  - left. apply kill_None. rewrite (upd_nth_error _ _ _ a _ E), Nat.eqb_refl. reflexivity.
  - right. assert (N : nth_error l a = None).
    { destruct (nth_error l a) as [x|] eqn:Ex; [|reflexivity]. exfalso. assert (a < length l)%nat by (apply nth_error_Some; congruence).
      destruct (upd_some l a None) as [l' El]; [assumption|]. congruence. }
    clear E IH. revert l N. induction ids as [|i ids IH]; intros l N; [exact N|]. cbn [kill]. apply IH.
    destruct (upd l i None) as [l'|] eqn:E; [|exact N]. apply nth_error_None in N. apply nth_error_None. rewrite (upd_length _ _ _ _ E). exact N.
Qed.

Lemma forall2_len {A B : Type} (R : A -> B -> Prop) (l : list A) (k : list B) : Forall2 R l k -> length l = length k.
Proof. induction 1; cbn; congruence. Qed.

Lemma trel_void (ids : list nat) (bs : octree pbundle) (u : octree bundle) : root u = None -> trel (bund ids) bs u ->
  octree_copy bs <> None /\ forall ids', trel (bund ids') bs u.
Proof.
  intros HB [H1 H2]. rewrite HB in H2. unfold octree_copy. destruct (root bs) eqn:Er; cbn [srel] in H2; [contradiction|].
  split; [discriminate|]. intros ids'. split; [exact H1|]. rewrite HB, Er. exact I.
Qed.
Lemma trel_rooted (ids : list nat) (bs : octree pbundle) (u : octree bundle) : rooted u -> trel (bund ids) bs u -> octree_copy bs = None.
Proof.
  unfold rooted. intros HB [H1 H2]. unfold octree_copy. destruct (root bs); [reflexivity|]. cbn [srel] in H2.
  destruct (root u); [contradiction|exfalso; apply HB; reflexivity].
Qed.

Lemma filled_shared {P : Type} (mergeP : P -> P -> P) (dim : nat) (m : @ndmap P (octree_backend mergeP dim) (octree_backend merge_bundle dim)) :
  length (stores m) = bin_count dim -> (forall i, (i < bin_count dim)%nat -> grown mergeP dim m i) ->
  Forall (fun s => octree_copy s = None) (stores m).
Proof.
  intros HL HS. apply Forall_forall. intros s Hs. apply In_nth_error in Hs as [i Hi].
  assert (Hlt : (i < bin_count dim)%nat) by (rewrite <- HL; apply nth_error_Some; intros X; assert (Y : Some s = None) by (etransitivity; [symmetry; exact Hi|exact X]); discriminate).
  destruct (HS i Hlt) as [s' [Hs' Hr]]. assert (Z : Some s' = Some s) by (etransitivity; [symmetry; exact Hs'|exact Hi]). injection Z as ->. unfold octree_copy. unfold rooted in Hr.
  destruct (root s); [reflexivity|exfalso; apply Hr; reflexivity].
Qed.

Section Moves.
Context {P : Type}.
Variable c : config P.
Notation rdd := (rd_d (bdc c) (pbbc c)).
Notation rdb := (rd_b (bdc c) (pbbc c)).
Notation nb := (bin_count (dimc c)).
Notation copyd := (backend_copy (mergec c) (dimc c) (kindc c)).
Notation copyb := (backend_copy pmerge_bundle (dimc c) (kindc c)).
Notation rel := (prel (bdc c) (dimc c) (kindc c)).
Notation brel ids := (brl ids (dimc c) (kindc c)).

(** Pointer map [wo] is the map [m]. *)
Definition is_map (wo : cworld c * mapobj) (m : cmap c) : Prop :=
  exists ids bid, NoDup ids /\ length ids = nb /\ rel ids bid wo m.

Lemma new_is_map : is_map (cw_new c) (new_map c).
Proof.
  exists (seq 0 nb), 0%nat. split; [apply seq_NoDup|]. split; [apply seq_length|]. split.
  - constructor.
    + cbn [cw_new fst].
      assert (E : stores (new_map c) = map (empty_dstore c) (seq 0 nb)).
      { unfold new_map, empty_dstore, cmap, bdc, bbc. destruct (kindc c); reflexivity. }
      refine (eq_ind_r (fun x => Forall2 _ (seq 0 nb) x) _ E).
      assert (G : forall (l : list nat), (forall a, In a l -> (a < nb)%nat) ->
        Forall2 (fun a s => rdd (Build_world (bdc c) (pbbc c) (map (fun i => Some (empty_dstore c i)) (seq 0 nb)) [Some (empty_bstore c)]) a = Ok s)
          l (map (empty_dstore c) l)).
      { induction l as [|a l IH]; intros Hl; constructor; [|apply IH; intros x Hx; apply Hl; right; exact Hx].
        unfold rd_d. cbn [dstores]. rewrite nth_error_map.
        assert (Ha : (a < nb)%nat) by (apply Hl; left; reflexivity).
        rewrite (nth_error_nth' (seq 0 nb) 0%nat) by (rewrite seq_length; exact Ha). rewrite seq_nth by exact Ha. reflexivity. }
      apply G. intros a Ha. apply in_seq in Ha. lia.
    + exists (empty_bstore c). split; [reflexivity|]. unfold new_map, empty_bstore, brl, pbbc, bbc, cmap, bdc. destruct (kindc c); cbn.
      * split; [reflexivity|]. split; [reflexivity|constructor].
      * split; [reflexivity|exact I].
  - constructor; cbn [cw_new snd m_stores m_bundles m_min m_max]; [reflexivity|reflexivity| |];
    unfold new_map, cmap, bdc, bbc; destruct (kindc c); reflexivity.
Qed.

Lemma act_is_map (wo : cworld c * mapobj) (m : cmap c) (a : map_action (P:=P)) : is_map wo m ->
  osim is_map (cw_act c wo a) (cact c m a).
Proof.
  intros [ids [bid [N [L R]]]]. unfold cw_act, cact.
  eapply osim_weaken; [apply (act_sim (defaultc c) (bdc c) (dimc c) (kindc c) (aminc c) (amaxc c) (expandc c) (offsetsc c) ids bid N L wo m a R)|].
  intros wo' m' R'. exists ids, bid. auto.
Qed.
Lemma run_is_map (l : list (map_action (P:=P))) (wo : cworld c * mapobj) (m : cmap c) : is_map wo m ->
  osim is_map (cw_act_all c l wo) (cact_all c l m).
Proof.
  intros H. unfold cw_act_all, cact_all, act_all. apply (osim_fold _ (fun x y => x = y)); [| |exact H].
  - intros wo' m' x y H' <-. apply act_is_map. exact H'.
  - induction l; constructor; auto.
Qed.

(** Two pointer maps of the same map look the same. *)
Lemma maps_look_same (w w' : cworld c) (o o' : mapobj) (m : cmap c) : is_map (w, o) m -> is_map (w', o') m -> look_same c w o w' o'.
Proof.
  intros [ids [bid [N [L R]]]] [ids' [bid' [N' [L' R']]]]. unfold look_same, cw_stored, cw_shown.
  split; [|split; [|split]].
  - intros i j. rewrite (stored_sim (bdc c) (dimc c) (kindc c) ids bid (w, o) m i j R : pstored (bdc c) (pbbc c) w o i j = _).
    exact (stored_sim (bdc c) (dimc c) (kindc c) ids' bid' (w', o') m i j R').
  - intros bi. rewrite (shown_sim (bdc c) (dimc c) (kindc c) ids bid L (w, o) m bi R : pshown (bdc c) (pbbc c) w o bi = _).
    exact (shown_sim (bdc c) (dimc c) (kindc c) ids' bid' L' (w', o') m bi R').
  - destruct R as [_ R], R' as [_ R']. etransitivity; [exact (o_min _ _ _ _ _ _ _ R')|symmetry; exact (o_min _ _ _ _ _ _ _ R)].
  - destruct R as [_ R], R' as [_ R']. etransitivity; [exact (o_max _ _ _ _ _ _ _ R')|symmetry; exact (o_max _ _ _ _ _ _ _ R)].
Qed.

(** ** Copying the storages *)
Lemma copy_new_stores (l : list nat) (ss : list (st (bdc c))) (w : cworld c) (ids0 : list nat) :
  Forall2 (fun a s => rdd w a = Ok s) l ss -> Forall (fun s => copyd s <> None) ss ->
  ofold (copy_dstore (bdc c) (pbbc c) copyd) l (w, ids0) =
  Ok (Build_world (bdc c) (pbbc c) (dstores w ++ map Some ss) (bstores w), ids0 ++ seq (length (dstores w)) (length ss)).
Proof.
  revert w ids0 ss. induction l as [|a l IH]; intros w ids0 ss F HC; inversion F as [|? s ? ss' R F']; subst.
  - cbn. rewrite !app_nil_r. destruct w; reflexivity.
  - inversion HC as [|? ? C1 C2]; subst. cbn [ofold copy_dstore]. rewrite R. cbn [obind].
    destruct (copyd s) as [s'|] eqn:E; [|contradiction]. pose proof (copy_same_d c _ _ E) as ->. cbn [obind].
    rewrite (IH _ _ ss'); [| |exact C2].
    + cbn [dstores bstores length seq map]. rewrite app_length. cbn [length]. rewrite Nat.add_1_r, <- !app_assoc. reflexivity.
    + clear - F'. induction F' as [|x y l ss H F IH]; constructor; [|exact IH]. apply (rdd_app c w _ [Some s]); [reflexivity|exact H].
Qed.
Lemma copy_same_stores (l : list nat) (ss : list (st (bdc c))) (w : cworld c) (ids0 : list nat) :
  Forall2 (fun a s => rdd w a = Ok s) l ss -> Forall (fun s => copyd s = None) ss ->
  ofold (copy_dstore (bdc c) (pbbc c) copyd) l (w, ids0) = Ok (w, ids0 ++ l).
Proof.
  intros F. revert ids0. induction F as [|a s l ss R F IH]; intros ids0 HC; [cbn; rewrite app_nil_r; reflexivity|].
  inversion HC as [|? ? C1 C2]; subst. cbn [ofold copy_dstore]. rewrite R. cbn [obind]. rewrite C1. cbn [obind].
  refine (eq_trans (IH (ids0 ++ [a]) C2) _). rewrite <- app_assoc. reflexivity.
Qed.

Lemma rdd_bound (w : cworld c) (a : nat) (s : st (bdc c)) : rdd w a = Ok s -> (a < length (dstores w))%nat.
Proof. unfold rd_d. intros H. apply nth_error_Some. destruct (nth_error (dstores w) a); congruence. Qed.
Lemma rdb_bound (w : cworld c) (a : nat) (s : st (pbbc c)) : rdb w a = Ok s -> (a < length (bstores w))%nat.
Proof. unfold rd_b. intros H. apply nth_error_Some. destruct (nth_error (bstores w) a); congruence. Qed.

Lemma release_cases (w : cworld c) (o : mapobj) : cw_release c w o = w \/ cw_release c w o = cw_destroy c w o.
Proof. unfold cw_release. destruct (kindc c); auto. Qed.
Lemma release_d (w : cworld c) (o : mapobj) (a : nat) : ~ In a (m_stores o) -> rdd (cw_release c w o) a = rdd w a.
Proof.
  intros H. destruct (release_cases w o) as [->| ->]; [reflexivity|]. unfold rd_d, cw_destroy, destroy. cbn [dstores].
  rewrite kill_nth; [reflexivity|exact H].
Qed.
Lemma release_b (w : cworld c) (o : mapobj) (a : nat) : a <> m_bundles o -> rdb (cw_release c w o) a = rdb w a.
Proof.
  intros H. destruct (release_cases w o) as [->| ->]; [reflexivity|]. unfold rd_b, cw_destroy, destroy. cbn [bstores].
  rewrite kill_nth; [reflexivity|]. intros [X|[]]. congruence.
Qed.

(** All storages are new, and no bundle points anywhere: the copy is the same map, also without the source. *)
Lemma new_move (w : cworld c) (o : mapobj) (m : cmap c) : is_map (w, o) m ->
  Forall (fun s => copyd s <> None) (stores m) ->
  (forall ids bs, brel ids bs (bundles m) -> copyb bs <> None /\ forall ids', brel ids' bs (bundles m)) ->
  exists w1 o1, cw_move c w o = Ok (w1, o1) /\ is_map (w1, o1) m.
Proof.
  intros [ids [bid [N [L [H [Hi Hb E1 E2]]]]]] HC HB. cbn [fst snd] in *. destruct H as [FD [bs [RB BR]]].
  destruct (HB ids bs BR) as [HB1 HB2]. unfold cw_move, cw_copy, copy_map. rewrite Hi, Hb.
  match goal with |- context [ofold ?f ids ?x] => set (y := ofold f ids x) end.
  assert (EC : y = _) by exact (copy_new_stores ids (stores m) w [] FD HC). rewrite EC. clear y EC. cbn [obind app].
  assert (RB' : rdb (Build_world (bdc c) (pbbc c) (dstores w ++ map Some (stores m)) (bstores w)) bid = Ok bs) by exact RB.
  rewrite RB'. cbn [obind]. destruct (copyb bs) as [bs'|] eqn:EB; [|contradiction]. pose proof (copy_same_b c _ _ EB) as ->. cbn [obind].
  eexists. eexists. split; [reflexivity|].
  assert (LS : length (stores m) = nb) by (rewrite <- L; symmetry; exact (forall2_len _ _ _ FD)).
  assert (Hlow : forall a, In a ids -> (a < length (dstores w))%nat).
  { clear -FD. induction FD as [|a s l ss R F IH]; intros x; [contradiction|]. intros [<-|Hx]; [exact (rdd_bound w a s R)|exact (IH x Hx)]. }
  exists (seq (length (dstores w)) (length (stores m))), (length (bstores w)).
  split; [apply seq_NoDup|]. split; [rewrite seq_length; exact LS|]. split; [|constructor; cbn; assumption || reflexivity].
  assert (RD : forall a, (length (dstores w) <= a)%nat ->
    rdd (cw_release c (Build_world (bdc c) (pbbc c) (dstores w ++ map Some (stores m)) (bstores w ++ [Some bs])) o) a
    = rdd (Build_world (bdc c) (pbbc c) (dstores w ++ map Some (stores m)) (bstores w ++ [Some bs])) a).
  { intros a Ha. apply release_d. rewrite Hi. intros X. specialize (Hlow a X). lia. }
  constructor; cbn [fst].
  - assert (G : forall (ss : list (st (bdc c))) (pre : list (st (bdc c))), stores m = pre ++ ss ->
      Forall2 (fun a s => rdd (cw_release c (Build_world (bdc c) (pbbc c) (dstores w ++ map Some (stores m)) (bstores w ++ [Some bs])) o) a = Ok s)
        (seq (length (dstores w) + length pre) (length ss)) ss).
    { induction ss as [|s ss IH]; intros pre Hp; cbn [length seq]; constructor.
      - rewrite RD by lia. unfold rd_d. cbn [dstores]. rewrite nth_error_app2 by lia. replace (length (dstores w) + length pre - length (dstores w))%nat with (length pre) by lia. rewrite Hp, map_app, nth_error_app2 by (rewrite map_length; lia).
        rewrite map_length, Nat.sub_diag. reflexivity.
      - specialize (IH (pre ++ [s])). rewrite app_length in IH. cbn [length] in IH. rewrite Nat.add_1_r, Nat.add_succ_r in IH. apply IH. rewrite <- app_assoc. exact Hp. }
    specialize (G (stores m) [] eq_refl). cbn [length] in G. rewrite Nat.add_0_r in G. exact G.
  - exists bs. split; [|apply HB2].
    assert (X : rdb (Build_world (bdc c) (pbbc c) (dstores w ++ map Some (stores m)) (bstores w ++ [Some bs])) (length (bstores w)) = Ok bs)
      by (unfold rd_b; cbn [bstores]; rewrite nth_error_app2, Nat.sub_diag by lia; reflexivity).
    refine (eq_trans (release_b _ _ _ _) X). rewrite Hb. pose proof (rdb_bound w bid bs RB). lia.
Qed.

(** Dynamic maps. *)
Lemma shared_move (w : cworld c) (o : mapobj) (m : cmap c) : kindc c = Dynamic -> is_map (w, o) m ->
  Forall (fun s => copyd s = None) (stores m) ->
  (forall ids bs, brel ids bs (bundles m) -> copyb bs = None) ->
  exists w1 o1, cw_move c w o = Ok (w1, o1) /\ is_map (w1, o1) m.
Proof.
  intros Hk [ids [bid [N [L [H [Hi Hb E1 E2]]]]]] HC HB. cbn [fst snd] in *. destruct H as [FD [bs [RB BR]]].
  unfold cw_move, cw_copy, copy_map. rewrite Hi, Hb.
  match goal with |- context [ofold ?f ids ?x] => set (y := ofold f ids x) end.
  assert (EC : y = _) by exact (copy_same_stores ids (stores m) w [] FD HC). rewrite EC. clear y EC. cbn [obind app].
  assert (RB0 : rdb w bid = Ok bs) by exact RB. rewrite RB0. cbn [obind].
  rewrite (HB ids bs BR). cbn [obind]. eexists. eexists. split; [reflexivity|]. unfold cw_release. rewrite Hk.
  exists ids, bid. split; [exact N|]. split; [exact L|]. split; constructor; cbn; try assumption; try reflexivity. exists bs. auto.
Qed.

Definition csettled (m : cmap c) : Prop :=
  match kindc c as k return ndmap (dist_backend (mergec c) (dimc c) k) (bundle_backend (dimc c) k) -> Prop with
  | Dynamic => settled (mergec c) (dimc c)
  | Static => fun _ => True
  end m.
Lemma new_csettled : csettled (new_map c).
Proof.
  unfold csettled, new_map, cmap, bdc, bbc. destruct (kindc c); [exact I|]. split; [exact I|]. split.
  - cbn. rewrite map_length, seq_length. reflexivity.
  - left. split; [reflexivity|]. cbn. apply Forall_forall. intros s Hs. apply in_map_iff in Hs as [k [<- _]]. reflexivity.
Qed.
Lemma act_csettled (m m' : cmap c) (a : map_action (P:=P)) : csettled m -> cact c m a = Ok m' -> csettled m'.
Proof.
  revert m m'. unfold csettled, cact, cmap, bdc, bbc. destruct (kindc c); [auto|]. intros m m' H E.
  exact (act_settled (defaultc c) (mergec c) (dimc c) (aminc c) (amaxc c) (expandc c) (offsetsc c) m m' a H E).
Qed.
Lemma csettled_cases (m : cmap c) : kindc c = Dynamic -> csettled m ->
  (Forall (fun s => copyd s <> None) (stores m) /\
   forall ids bs, brel ids bs (bundles m) -> copyb bs <> None /\ forall ids', brel ids' bs (bundles m)) \/
  (Forall (fun s => copyd s = None) (stores m) /\ forall ids bs, brel ids bs (bundles m) -> copyb bs = None).
Proof.
  revert m. unfold csettled, cmap, bdc, bbc, brl. destruct (kindc c); [discriminate|]. intros m _ [_ [HL [[HB HS]|[HB HS]]]]; [left|right]; split.
  - eapply Forall_impl; [|exact HS]. intros s Hs. unfold backend_copy, octree_copy. cbn in Hs. rewrite Hs. discriminate.
  - intros ids bs H. exact (trel_void ids bs _ HB H).
  - exact (filled_shared (mergec c) (dimc c) m HL HS).
  - intros ids bs H. exact (trel_rooted ids bs _ HB H).
Qed.

Lemma dynamic_move (w : cworld c) (o : mapobj) (m : cmap c) : kindc c = Dynamic -> csettled m -> is_map (w, o) m ->
  exists w1 o1, cw_move c w o = Ok (w1, o1) /\ is_map (w1, o1) m.
Proof.
  intros Hk HS HM. destruct (csettled_cases m Hk HS) as [[H1 H2]|[H1 H2]].
  - exact (new_move w o m HM H1 H2).
  - exact (shared_move w o m Hk HM H1 H2).
Qed.

(** Whatever is moved when, the outcome is that of the map of MapModel.v without moves. *)
Lemma dynamic_run (l : list (move_step (P:=P))) (wo : cworld c * mapobj) (m : cmap c) :
  kindc c = Dynamic -> is_map wo m -> csettled m ->
  osim (fun x y => is_map x y /\ csettled y) (move_run c l wo) (cact_all c (without_moves l) m).
Proof.
  intros Hk. revert wo m. induction l as [|[a|] l IH]; intros wo m HM HS.
  - cbn. auto.
  - unfold move_run, without_moves, cact_all, act_all. cbn [ofold flat_map app move_one].
    pose proof (act_is_map wo m a HM) as HA. unfold cact in HA.
    destruct (cw_act c wo a) as [wo'| |] eqn:E1; 
      destruct (act (defaultc c) (bdc c) (bbc c) (dimc c) (kindc c) (aminc c) (amaxc c) (expandc c) (offsetsc c) m a) as [m'| |] eqn:E2;
      cbn in HA |- *; try contradiction; try exact I. apply IH; [exact HA|exact (act_csettled m m' a HS E2)].
  - unfold move_run. cbn [ofold move_one without_moves flat_map app]. destruct wo as [w o]. cbn [fst snd].
    destruct (dynamic_move w o m Hk HS HM) as [w1 [o1 [E HM1]]]. rewrite E. cbn [obind]. apply IH; assumption.
Qed.

Lemma dynamic_moves (l : list (move_step (P:=P))) : kindc c = Dynamic ->
  osim (fun x y => look_same c (fst y) (snd y) (fst x) (snd x)) (move_run c l (cw_new c)) (cw_act_all c (without_moves l) (cw_new c)).
Proof.
  intros Hk. pose proof (dynamic_run l _ _ Hk new_is_map new_csettled) as H1.
  pose proof (run_is_map (without_moves l) _ _ new_is_map) as H2.
  destruct (move_run c l (cw_new c)) as [[w1 o1]| |], (cact_all c (without_moves l) (new_map c)) as [m| |]; cbn in H1; try contradiction;
  destruct (cw_act_all c (without_moves l) (cw_new c)) as [[w2 o2]| |]; cbn in H2 |- *; try contradiction; try exact I.
  exact (maps_look_same w2 w1 o2 o1 m H2 (proj1 H1)).
Qed.

(** Static maps: moved before anything is stored in them. *)
Lemma empty_static_move (w : cworld c) (o : mapobj) : kindc c = Static -> is_map (w, o) (new_map c) ->
  exists w1 o1, cw_move c w o = Ok (w1, o1) /\ is_map (w1, o1) (new_map c).
Proof.
  intros Hk HM. apply new_move; [exact HM| |].
  - apply Forall_forall. intros s _. apply static_copyd. exact Hk.
  - intros ids bs H. split; [apply static_copyb; exact Hk|]. intros ids'. revert bs H.
    unfold brl, new_map, cmap, bdc, bbc. destruct (kindc c); [|discriminate]. cbn. intros bs [H1 [H2 H3]]. split; [exact H1|]. split; [exact H2|].
    destruct bs as [x y z]. cbn in H3 |- *. inversion H3. constructor.
Qed.
Lemma static_fresh_moves (n : nat) (l : list (map_action (P:=P))) : kindc c = Static ->
  osim (fun x y => look_same c (fst y) (snd y) (fst x) (snd x))
    (move_run c (repeat Move n ++ map Do l) (cw_new c)) (cw_act_all c l (cw_new c)).
Proof.
  intros Hk.
  assert (G : forall n wo, is_map wo (new_map c) -> osim is_map (move_run c (repeat Move n ++ map Do l) wo) (cact_all c l (new_map c))).
  { clear n. induction n as [|n IH]; intros wo HM.
    - cbn [repeat app].
      assert (E : forall l wo, move_run c (map Do l) wo = cw_act_all c l wo).
      { clear. unfold move_run, cw_act_all. induction l as [|a l IH]; intros wo; [reflexivity|]. cbn [map ofold move_one]. destruct (cw_act c wo a); [apply IH|reflexivity|reflexivity]. }
      rewrite E. apply run_is_map. exact HM.
    - unfold move_run. cbn [repeat app ofold move_one]. destruct wo as [w o]. cbn [fst snd].
      destruct (empty_static_move w o Hk HM) as [w1 [o1 [E HM1]]]. rewrite E. cbn [obind]. apply IH. exact HM1. }
  pose proof (G n _ new_is_map) as H1. pose proof (run_is_map l _ _ new_is_map) as H2.
  destruct (move_run c (repeat Move n ++ map Do l) (cw_new c)) as [[w1 o1]| |], (cact_all c l (new_map c)) as [m| |]; cbn in H1; try contradiction;
  destruct (cw_act_all c l (cw_new c)) as [[w2 o2]| |]; cbn in H2 |- *; try contradiction; try exact I.
  exact (maps_look_same w2 w1 o2 o1 m H2 H1).
Qed.

(** Static maps: the bundles of the source point into arrays that are gone. *)
Lemma static_move (l : list (map_action (P:=P))) (w : cworld c) (o : mapobj) : kindc c = Static ->
  cw_act_all c l (cw_new c) = Ok (w, o) ->
  exists w1 o1, cw_move c w o = Ok (w1, o1) /\ m_min o1 = m_min o /\ m_max o1 = m_max o /\
    (forall i j, cw_stored c w1 o1 i j = cw_stored c w o i j) /\
    (forall bi, cw_shown c w o bi = Ok None -> cw_shown c w1 o1 bi = Ok None) /\
    (forall bi b, cw_shown c w o bi = Ok (Some b) -> cw_shown c w1 o1 bi = UB).
Proof.
  intros Hk H. pose proof (run_is_map l _ _ new_is_map) as HM. rewrite H in HM.
  destruct (cact_all c l (new_map c)) as [m| |]; cbn in HM; try contradiction.
  destruct HM as [ids [bid [N [L [[FD [bs [RB BR]]] [Hi Hb E1 E2]]]]]]. cbn [fst snd] in *.
  assert (HC : Forall (fun s => copyd s <> None) (stores m)) by (apply Forall_forall; intros s _; apply static_copyd; exact Hk).
  assert (EC : exists w1 o1, cw_copy c w o = Ok (w1, o1)).
  { unfold cw_copy, copy_map. rewrite Hi, Hb. match goal with |- context [ofold ?f ids ?x] => set (y := ofold f ids x) end.
    assert (EC : y = _) by exact (copy_new_stores ids (stores m) w [] FD HC). rewrite EC. clear y EC. cbn [obind app].
    assert (RB' : rdb (Build_world (bdc c) (pbbc c) (dstores w ++ map Some (stores m)) (bstores w)) bid = Ok bs) by exact RB.
    rewrite RB'. cbn [obind]. destruct (copyb bs); eexists; eexists; reflexivity. }
  destruct EC as [w1 [o1 EC]].
  assert (Hr : reached c w o) by exact (run_reached c l w o H).
  destruct (copy_shows c w w1 o o1 Hr EC) as [S1 [S2 _]].
  pose proof (copy_spec c w w1 o o1 (reached_ids c w o Hr) EC) as CP.
  destruct (static_fresh c w w1 o o1 Hk CP) as [F1 F2].
  unfold cw_move. rewrite EC. cbn [obind]. exists (cw_release c w1 o), o1. split; [reflexivity|].
  assert (Hlow : forall a, In a (m_stores o) -> (a < length (dstores w))%nat).
  { pose proof (reached_ids c w o Hr) as G. rewrite Forall_forall in G. exact G. }
  assert (MM : m_min o1 = m_min o /\ m_max o1 = m_max o).
  { revert EC. unfold cw_copy, copy_map. intros EC. obreak EC. destruct a as [w2 ids2]. obreak EC. destruct (copyb a); injection EC as <- <-; auto. }
  split; [apply MM|]. split; [apply MM|].
  assert (ST : forall i j, cw_stored c (cw_release c w1 o) o1 i j = cw_stored c w1 o1 i j).
  { intros i j. unfold cw_stored, pstored. destruct (nth_error (m_stores o1) i) as [a|] eqn:Ea; [|reflexivity].
    rewrite release_d; [reflexivity|]. intros X. specialize (Hlow a X). rewrite Forall_forall in F1. specialize (F1 a (nth_error_In _ _ Ea)). cbn in F1. lia. }
  split; [intros i j; rewrite ST; apply S1|].
  destruct CP as [_ _ _ [bs1 [Rb [Rb1 _]]]].
  assert (bs1 = bs) as ->. { rewrite Hb in Rb. assert (X : rdb w bid = Ok bs) by exact RB. congruence. }
  assert (RR : rdb (cw_release c w1 o) (m_bundles o1) = Ok bs).
  { rewrite release_b; [exact Rb1|]. rewrite F2, Hb. pose proof (rdb_bound w bid bs RB). lia. }
  rewrite Hb in Rb.
  split.
  - intros bi. unfold cw_shown, pshown. rewrite Hb, Rb, RR. cbn [obind]. destruct (bget (pbbc c) bs bi) as [[b|]| |]; cbn [obind]; auto.
    intros X. obreak X. discriminate.
  - intros bi v. unfold cw_shown, pshown. rewrite Hb, Rb, RR. cbn [obind]. destruct (bget (pbbc c) bs bi) as [[b|]| |] eqn:Eg; cbn [obind]; try discriminate.
    intros _. pose proof (brl_get ids (dimc c) (kindc c) _ _ bi BR) as G. unfold pbbc in Eg. rewrite Eg in G.
    match type of G with osim _ _ ?x => destruct x as [[u|]| |] end; cbn in G; try contradiction.
    destruct G as [G1 [G2 _]]. rewrite G2.
    assert (Hn : (0 < nb)%nat) by (unfold bin_count; rewrite two_pow_spec; apply Nat.neq_0_lt_0, Nat.pow_nonzero; discriminate).
    destruct ids as [|a ids]; [cbn in L; lia|]. destruct (slots u) as [|[j|] sl]; [cbn in G1; lia| |reflexivity].
    cbn [pair_slots combine map fst snd option_map pread_all]. unfold pread. cbn [fst].
    assert (D : rdd (cw_release c w1 o) a = UB).
    { unfold cw_release. rewrite Hk. unfold rd_d, cw_destroy, destroy. cbn [dstores].
      destruct (kill_dead (dstores w1) (m_stores o) a) as [->| ->]; [rewrite Hi; left; reflexivity|reflexivity|reflexivity]. }
    rewrite D. reflexivity.
Qed.


(** What the bundles show through their pointers. *)
Lemma read_full (m : cmap c) (bi : idx) (v : nat -> P) (n k : nat) :
  (forall i, (k <= i < k + n)%nat -> cstored c m i (generate_index bi i) = Ok (Some (v i))) ->
  read_slots (bdc c) (dimc c) (kindc c) m k (map (fun i => Some (generate_index bi i)) (seq k n)) = Ok (map v (seq k n)).
Proof.
  revert k. induction n as [|n IH]; intros k H; [reflexivity|]. cbn [seq map read_slots].
  assert (E : slot_value (bdc c) (bbc c) m k (Some (generate_index bi k)) = Ok (Some (v k))).
  { specialize (H k ltac:(lia)). unfold cstored, stored in H. unfold slot_value. obreak H. rewrite E. cbn [obind]. rewrite H. reflexivity. }
  assert (E' : slot_value (bdc c) (bundle_backend (dimc c) (kindc c)) m k (Some (generate_index bi k)) = Ok (Some (v k))) by exact E.
  rewrite E'. cbn [obind]. rewrite IH; [reflexivity|]. intros i Hi. apply H. lia.
Qed.

Lemma shown_exact (l : list (map_action (P:=P))) (m : cmap c) (wo : cworld c * mapobj) (bi : idx) :
  config_ok c -> fits c l -> cact_all c l (new_map c) = Ok m -> is_map wo m -> usable c 0 bi ->
  cw_shown c (fst wo) (snd wo) bi = Ok (match cbget c m bi with None => None | Some _ => Some (bundle_values c l bi) end).
Proof.
  intros Hok Hf Hm [ids [bid [N [L R]]]] Hu. destruct (run_spec c Hok l Hf) as [m0 [E [HI [_ [HC _]]]]].
  assert (m0 = m) as -> by congruence. clear E.
  unfold cw_shown. rewrite (shown_sim (bdc c) (dimc c) (kindc c) ids bid L wo m bi R : pshown (bdc c) (pbbc c) (fst wo) (snd wo) bi = _).
  unfold mshown.
  pose proof HI as [[[Hwf HI0] [HD _]] [Hsh Hv]].
  assert (HB : cbdom c (cshape c (new_map c)) bi) by (apply (usable_bdom c Hok 0); [lia|exact Hu]).
  match goal with |- context [bget ?x ?y bi] => assert (EB : bget x y bi = Ok (cbget c m bi)) end.
  { apply (bundle_at _ _ _ _ _ _ _ m bi Hwf). change (cbdom c (cshape c m) bi). rewrite Hsh. exact HB. }
  rewrite EB. cbn [obind]. destruct (cbget c m bi) as [b|] eqn:Eb; [|reflexivity].
  destruct (HI0 bi b) as [_ [Hs Hex]]; [fold (cshape c m); rewrite Hsh; exact HB|exact Eb|].
  rewrite Hs. unfold full_slots. rewrite read_full with (v := fun i => apply_changes (changes l i (generate_index bi i)) (defaultc c)); [reflexivity|].
  intros i Hi. assert (Hc : cell_exists c i (generate_index bi i)) by (apply bundle_cell; [exact Hu|unfold bin_count in Hi; rewrite two_pow_spec in Hi; lia]).
  rewrite (cstored_spec c Hok m i _ HI Hc). destruct (Hex i ltac:(lia)) as [d Hd]. unfold cdget. rewrite Hd.
  rewrite <- (HC i (generate_index bi i)) by (apply cell_ddom; assumption). unfold ccontent, content. rewrite Hd. reflexivity.
Qed.

Lemma do_only (l : list (map_action (P:=P))) (n : nat) : without_moves (repeat Move n ++ map Do l) = l.
Proof. unfold without_moves. induction n as [|n IH]; cbn; [|exact IH]. induction l as [|a l IH]; cbn; congruence. Qed.
Lemma safe_moves (l : list (move_step (P:=P))) : kindc c = Dynamic \/ moves_early l ->
  same_end c (move_run c l (cw_new c)) (cw_act_all c (without_moves l) (cw_new c)).
Proof.
  intros H. assert (S : osim (fun x y => look_same c (fst y) (snd y) (fst x) (snd x)) (move_run c l (cw_new c)) (cw_act_all c (without_moves l) (cw_new c))).
  { destruct (kind_cases (kindc c)) as [Hk|Hk]; [|exact (dynamic_moves l Hk)].
    destruct H as [H|[n [l' ->]]]; [congruence|]. rewrite do_only. exact (static_fresh_moves n l' Hk). }
  unfold same_end. destruct (move_run c l (cw_new c)) as [[w' o']| |], (cw_act_all c (without_moves l) (cw_new c)) as [[w o]| |]; cbn in S |- *; auto.
Qed.

Lemma safe_shown (l : list (move_step (P:=P))) : config_ok c -> kindc c = Dynamic \/ moves_early l -> fits c (without_moves l) ->
  exists w o m, move_run c l (cw_new c) = Ok (w, o) /\ cact_all c (without_moves l) (new_map c) = Ok m /\
    m_min o = min_bi m /\ m_max o = max_bi m /\ (forall i j, cw_stored c w o i j = cstored c m i j) /\
    (forall bi, usable c 0 bi -> exists ob, cbundle c m bi = Ok ob /\
       cw_shown c w o bi = Ok (option_map (fun _ => bundle_values c (without_moves l) bi) ob)) /\
    (forall bi f, In (Do (Modify bi f)) l -> cw_shown c w o bi = Ok (Some (bundle_values c (without_moves l) bi))) /\
    (forall bi, usable c 0 bi -> ~ In (Do ExpandAll) l -> (forall f, ~ In (Do (Modify bi f)) l) -> ~ In (Do (Touch bi)) l ->
       cw_shown c w o bi = Ok None).
Proof.
  intros Hok HS Hf. destruct (run_spec c Hok _ Hf) as [m [E [HI [HR [HC [Hn Ho]]]]]].
  pose proof (safe_moves l HS) as SE. pose proof (run_is_map (without_moves l) _ _ new_is_map) as HM.
  rewrite E in HM. destruct (cw_act_all c (without_moves l) (cw_new c)) as [[w0 o0]| |]; cbn in HM; try contradiction.
  unfold same_end in SE. destruct (move_run c l (cw_new c)) as [[w o]| |]; try contradiction. exists w, o, m. split; [reflexivity|]. split; [exact E|].
  destruct SE as [SS [SE [Smin Smax]]]. pose proof HM as [ids [bid [_ [_ R]]]].
  split; [rewrite Smin; exact (o_min _ _ _ _ _ _ _ (proj2 R))|]. split; [rewrite Smax; exact (o_max _ _ _ _ _ _ _ (proj2 R))|].
  split; [intros i j; rewrite SS; exact (stored_sim (bdc c) (dimc c) (kindc c) ids bid (w0, o0) m i j R)|].
  assert (G : forall bi, usable c 0 bi -> cw_shown c w o bi = Ok (match cbget c m bi with None => None | Some _ => Some (bundle_values c (without_moves l) bi) end)).
  { intros bi Hu. rewrite SE. exact (shown_exact (without_moves l) m (w0, o0) bi Hok Hf E HM Hu). }
  assert (HIn : forall a, In (Do a) l <-> In a (without_moves l)).
  { intros a. unfold without_moves. rewrite in_flat_map. split.
    - intros X. exists (Do a). split; [exact X|left; reflexivity].
    - intros [[b|] [X Y]]; [|contradiction]. destruct Y as [<-|[]]. exact X. }
  split; [intros bi Hu; exists (cbget c m bi); split; [exact (cbundle_spec c Hok m bi HI Hu)|rewrite (G bi Hu); destruct (cbget c m bi); reflexivity]|]. split.
  - intros bi f X. apply HIn in X. pose proof Hf as Hf'. unfold fits in Hf'. rewrite Forall_forall in Hf'. pose proof (Hf' _ X) as Hu. cbn in Hu.
    assert (Hx : 0 <= expansions (without_moves l)) by (clear; induction (without_moves l) as [|[] l' IH]; cbn [expansions]; lia).
    assert (Hu0 : usable c 0 bi).
    { clear R. destruct Hu as [HL Hu]. split; [exact HL|]. clear - Hu Hx. destruct (kindc c); [exact Hu|]. revert Hu. apply Forall_impl. intros z Hz. lia. }
    rewrite (G bi Hu0). assert (Hb : cbget c m bi <> None).
    { apply (Hn bi _ X); [apply (usable_bdom c Hok 0); [lia|exact Hu0]|reflexivity]. }
    destruct (cbget c m bi); [reflexivity|contradiction].
  - intros bi Hu HE HMd HT. rewrite (G bi Hu). destruct (cbget c m bi) as [b|] eqn:Eb; [|reflexivity]. exfalso.
    destruct (Ho bi) as [a [Ha Hna]].
    + apply (usable_bdom c Hok 0); [lia|exact Hu].
    + intros X. apply HIn in X. exact (HE X).
    + rewrite Eb. discriminate.
    + apply HIn in Ha. destruct a as [b' f|b'|]; cbn in Hna; [subst b'; exact (HMd f Ha)|destruct Hna as [<- _]; exact (HT Ha)|contradiction].
Qed.
End Moves.

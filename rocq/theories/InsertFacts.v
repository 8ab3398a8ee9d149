(** Proofs about insertion of point clouds. *)
From Coq Require Import Sorted.
From Verif Require Import Base SeqModel SeqFacts IndexModel IndexFacts OctreeSpec OctreeModel OctreeFacts
  MapModel MapFacts MapHist BackendModel BackendFacts SysModel SysSpec SysFacts InsertModel InsertSpec.
Open Scope Z_scope.

(** ** The lexicographic order *)
Lemma lex_irrefl (a : idx) : lex_ltb a a = false.
Proof. induction a as [|x a IH]; cbn [lex_ltb]; [reflexivity|]. rewrite Z.ltb_irrefl, Z.eqb_refl, IH. reflexivity. Qed.

Lemma lex_total (a b : idx) : lex_ltb a b = false -> lex_ltb b a = false -> a = b.
Proof.
  revert b; induction a as [|x a IH]; intros [|y b]; cbn [lex_ltb]; try congruence.
  intros H1 H2. apply orb_false_iff in H1, H2. destruct H1 as [H1 H1'], H2 as [H2 H2'].
  assert (x = y) by lia. subst y. rewrite Z.eqb_refl in *. cbn [andb] in *. f_equal. apply IH; assumption.
Qed.

Lemma lex_trans (a b d : idx) : lex_ltb a b = true -> lex_ltb b d = true -> lex_ltb a d = true.
Proof.
  revert b d; induction a as [|x a IH]; intros [|y b] [|z d]; cbn [lex_ltb]; try congruence.
  rewrite !orb_true_iff, !andb_true_iff, !Z.ltb_lt, !Z.eqb_eq.
  intros [H1|[H1 H1']] [H2|[H2 H2']]; try (left; lia). right. split; [lia|]. eapply IH; eassumption.
Qed.

Definition lex_lt (a b : idx) : Prop := lex_ltb a b = true.

Lemma lex_lt_ne (a b : idx) : lex_lt a b -> a <> b.
Proof. intros H ->. unfold lex_lt in H. rewrite lex_irrefl in H. discriminate. Qed.

(** ** Keys *)
Lemma key_insert_in (b x : idx) (l : list idx) : In x (key_insert b l) <-> x = b \/ In x l.
Proof.
  induction l as [|j l IH]; cbn [key_insert]; [cbn; intuition congruence|].
  destruct (lex_ltb j b) eqn:E1; [cbn [In]; rewrite IH; intuition congruence|].
  destruct (lex_ltb b j) eqn:E2; [cbn [In]; intuition congruence|].
  pose proof (lex_total _ _ E1 E2). subst j. cbn [In]. intuition congruence.
Qed.

Lemma key_insert_sorted (b : idx) (l : list idx) : StronglySorted lex_lt l -> StronglySorted lex_lt (key_insert b l).
Proof.
  induction l as [|j l IH]; cbn [key_insert]; intros H; [repeat constructor|].
  inversion H as [|? ? Hs Hf]; subst.
  destruct (lex_ltb j b) eqn:E1.
  - constructor; [apply IH; exact Hs|]. apply Forall_forall. intros x Hx. apply key_insert_in in Hx.
    destruct Hx as [->|Hx]; [exact E1|]. rewrite Forall_forall in Hf. apply Hf; exact Hx.
  - destruct (lex_ltb b j) eqn:E2; [|constructor; assumption].
    constructor; [constructor; assumption|]. constructor; [exact E2|].
    rewrite Forall_forall in *. intros x Hx. eapply lex_trans; [exact E2|apply Hf; exact Hx].
Qed.

Section Keys.
Context {Pt : Type}.

Lemma keys_snoc (l : list (idx * Pt)) (b : idx) (p : Pt) : keys (l ++ [(b, p)]) = key_insert b (keys l).
Proof. unfold keys. rewrite fold_left_app. reflexivity. Qed.

Lemma keys_in (l : list (idx * Pt)) (b : idx) : In b (keys l) <-> exists p, In (b, p) l.
Proof.
  induction l as [|[b' p'] l IH] using rev_ind; [split; [intros []|intros [p []]]|].
  rewrite keys_snoc, key_insert_in, IH. split.
  - intros [->|[p Hp]]; [exists p'|exists p]; apply in_app_iff; [right; left; reflexivity|left; exact Hp].
  - intros [p Hp]. apply in_app_iff in Hp. destruct Hp as [Hp|[Hp|[]]]; [right; exists p; exact Hp|].
    left; congruence.
Qed.

Lemma keys_sorted (l : list (idx * Pt)) : StronglySorted lex_lt (keys l).
Proof.
  induction l as [|[b p] l IH] using rev_ind; [constructor|]. rewrite keys_snoc. apply key_insert_sorted; exact IH.
Qed.

Lemma sorted_nodup (l : list idx) : StronglySorted lex_lt l -> NoDup l.
Proof.
  induction 1 as [|a l Hs IH Hf]; constructor; [|exact IH].
  intros Hin. rewrite Forall_forall in Hf. exact (lex_lt_ne _ _ (Hf a Hin) eq_refl).
Qed.

Lemma points_in_snoc (l : list (idx * Pt)) (b b' : idx) (p : Pt) :
  points_in b' (l ++ [(b, p)]) = if idx_eqb b b' then points_in b' l ++ [p] else points_in b' l.
Proof.
  unfold points_in. rewrite filter_app, map_app. cbn [filter fst].
  destruct (idx_eqb b b'); cbn [map]; [reflexivity|apply app_nil_r].
Qed.

Lemma points_in_nil (l : list (idx * Pt)) (b : idx) : points_in b l = [] <-> ~ In b (keys l).
Proof.
  rewrite keys_in. unfold points_in. split.
  - intros H [p Hp].
    assert (Hin : In p (map snd (filter (fun e => idx_eqb (fst e) b) l))).
    { apply in_map_iff. exists (b, p). split; [reflexivity|]. apply filter_In.
      split; [exact Hp|apply idx_eqb_refl]. }
    rewrite H in Hin. exact Hin.
  - intros H. destruct (filter _ l) as [|[b' p] l'] eqn:E; [reflexivity|].
    exfalso. assert (Hin : In (b', p) (filter (fun e => idx_eqb (fst e) b) l)) by (rewrite E; left; reflexivity).
    apply filter_In in Hin. destruct Hin as [Hin Hb]. cbn [fst] in Hb.
    destruct (idx_eqb_spec b' b) as [->|]; [|discriminate]. apply H. exists p; exact Hin.
Qed.

Lemma groups_in (l : list (idx * Pt)) (b : idx) (ps : list Pt) :
  In (b, ps) (groups l) <-> ps = points_in b l /\ ps <> [].
Proof.
  unfold groups. rewrite in_map_iff. split.
  - intros [b' [He Hb]]. injection He as -> <-. split; [reflexivity|].
    intros E. apply points_in_nil in E. contradiction.
  - intros [-> Hn]. exists b. split; [reflexivity|].
    destruct (in_dec (list_eq_dec Z.eq_dec) b (keys l)) as [Hi|Hi]; [exact Hi|].
    exfalso; apply Hn. apply points_in_nil; exact Hi.
Qed.

Lemma groups_keys (l : list (idx * Pt)) : map fst (groups l) = keys l.
Proof. unfold groups. rewrite map_map. cbn [fst]. apply map_id. Qed.

End Keys.

(** ** Collecting a cloud *)
Section Collect.
Context {Pose X W Pt S P : Type}.
Variable geo : geometry Pose X W Pt.
Variable sta : statistics Pt S.
Variable c : config P.
Hypothesis Hc : config_ok c.

Definition stat_of (ps : list Pt) : S := fold_left (s_add sta) ps (s_empty sta).
Definition stat_groups (l : list (idx * Pt)) : list (idx * S) :=
  map (fun g => (fst g, stat_of (snd g))) (groups l).

Lemma map_add_gen (ks : list idx) (f : idx -> S) (b : idx) (p : Pt) :
  StronglySorted lex_lt ks -> (~ In b ks -> f b = s_empty sta) ->
  map_add sta (map (fun k => (k, f k)) ks) b p =
  map (fun k => (k, if idx_eqb b k then s_add sta (f k) p else f k)) (key_insert b ks).
Proof.
  intros Hs. induction Hs as [|j ks Hs IH Hf]; intros Hn; cbn [map map_add key_insert].
  - rewrite idx_eqb_refl, Hn by (intros []). reflexivity.
  - destruct (lex_ltb j b) eqn:E1.
    + cbn [map]. destruct (idx_eqb_spec b j) as [->|_]; [rewrite lex_irrefl in E1; discriminate|].
      rewrite IH; [reflexivity|]. intros H. apply Hn. intros [->|Hi]; [rewrite lex_irrefl in E1; discriminate|].
      contradiction.
    + assert (Htail : b = j \/ lex_ltb b j = true -> map (fun k => (k, f k)) ks =
              map (fun k => (k, if idx_eqb b k then s_add sta (f k) p else f k)) ks).
      { intros Hb. apply map_ext_in. intros k Hk. rewrite Forall_forall in Hf. specialize (Hf k Hk).
        destruct (idx_eqb_spec b k) as [<-|]; [|reflexivity]. exfalso.
        destruct Hb as [->|Hb]; [exact (lex_lt_ne _ _ Hf eq_refl)|].
        exact (lex_lt_ne _ _ (lex_trans _ _ _ Hf Hb) eq_refl). }
      destruct (lex_ltb b j) eqn:E2.
      * cbn [map]. rewrite idx_eqb_refl. destruct (idx_eqb_spec b j) as [->|_]; [rewrite lex_irrefl in E2; discriminate|].
        rewrite Hn; [rewrite Htail by auto; reflexivity|].
        intros [->|Hi]; [rewrite lex_irrefl in E2; discriminate|].
        rewrite Forall_forall in Hf. exact (lex_lt_ne _ _ (lex_trans _ _ _ (Hf b Hi) E2) eq_refl).
      * pose proof (lex_total _ _ E1 E2). subst j. cbn [map]. rewrite idx_eqb_refl. rewrite Htail by auto. reflexivity.
Qed.

Lemma map_add_groups (l : list (idx * Pt)) (b : idx) (p : Pt) :
  map_add sta (stat_groups l) b p = stat_groups (l ++ [(b, p)]).
Proof.
  unfold stat_groups, groups. rewrite !map_map. cbn [fst snd]. rewrite keys_snoc.
  rewrite (map_add_gen (keys l) (fun k => stat_of (points_in k l)) b p (keys_sorted l)).
  - apply map_ext. intros k. rewrite points_in_snoc. destruct (idx_eqb b k); [|reflexivity].
    unfold stat_of. rewrite fold_left_app. reflexivity.
  - intros H. apply points_in_nil in H. rewrite H. reflexivity.
Qed.

Lemma takes_valid (bi : idx) : length bi = dimc c -> cvalid c (new_map c) bi = takes c bi.
Proof.
  intros HL. apply eq_true_iff_eq. rewrite new_valid by assumption. unfold takes, usable.
  destruct (kindc c); [|split; [reflexivity|discriminate]].
  rewrite forallb_forall. split.
  - intros H d Hd. apply in_seq in Hd. destruct (H eq_refl) as [_ H']. specialize (H' d ltac:(lia)). lia.
  - intros H _. split; [exact HL|]. intros d Hd. specialize (H d ltac:(apply in_seq; lia)). lia.
Qed.

Lemma collect_spec (check : bool) (u : idx -> Prop) (m : cmap c) (o : Pose) (xs : list X) :
  (forall x, cvalid c m x = cvalid c (new_map c) x) ->
  cloud_fits geo c check u o xs -> forall l0,
  ofold (collect geo sta c check m o) xs (stat_groups l0) = Ok (stat_groups (l0 ++ accepted geo c check o xs)).
Proof.
  intros Hv. induction xs as [|x xs IH]; intros Hf l0; cbn [ofold accepted]; [rewrite app_nil_r; reflexivity|].
  assert (Hf' : cloud_fits geo c check u o xs) by (intros y Hy; apply Hf; right; exact Hy).
  specialize (Hf x (or_introl eq_refl)). unfold collect at 1, accept.
  destruct (negb check || normal_in geo x); cbn [andb obind] in *; [|apply IH; exact Hf'].
  destruct (normal_world geo (transform geo o x)); cbn [obind]; [|apply IH; exact Hf'].
  destruct (Hf eq_refl) as [bi [Hl [HL _]]]. rewrite Hl. cbn [obind].
  rewrite Hv, takes_valid by exact HL. destruct (takes c bi); [|apply IH; exact Hf'].
  rewrite map_add_groups, IH by exact Hf'. rewrite <- app_assoc. reflexivity.
Qed.

Lemma collect_all_spec (check : bool) (u : idx -> Prop) (m : cmap c) (o : Pose) (xs : list X) :
  (forall x, cvalid c m x = cvalid c (new_map c) x) -> cloud_fits geo c check u o xs ->
  collect_all geo sta c check m o xs = Ok (stat_groups (accepted geo c check o xs)).
Proof. intros Hv Hf. exact (collect_spec check u m o xs Hv Hf []). Qed.

(** Accepted points are in bundles the map can hold. *)
Lemma accepted_usable (check : bool) (k : Z) (o : Pose) (xs : list X) (b : idx) (p : Pt) :
  cloud_fits geo c check (usable c k) o xs -> In (b, p) (accepted geo c check o xs) -> usable c k b.
Proof.
  induction xs as [|x xs IH]; intros Hf; cbn [accepted]; [intros []|].
  assert (Hf' : cloud_fits geo c check (usable c k) o xs) by (intros y Hy; apply Hf; right; exact Hy).
  specialize (Hf x (or_introl eq_refl)). unfold accept.
  destruct ((negb check || normal_in geo x) && normal_world geo (transform geo o x)); [|apply IH; exact Hf'].
  destruct (Hf eq_refl) as [bi [Hl [HL Hd]]]. rewrite Hl.
  destruct (takes c bi) eqn:Et; [|apply IH; exact Hf'].
  intros [He|Hin]; [|apply IH; assumption]. injection He as <- _.
  destruct (kind_cases (kindc c)) as [E|E]; [|apply Hd; exact E].
  rewrite <- takes_valid, new_valid in Et by assumption. specialize (Et E).
  unfold usable in *. rewrite E in *. exact Et.
Qed.

End Collect.

(** ** Gridmap histories *)
Section Grid.
Context {Pose X W Pt S P : Type}.
Variable geo : geometry Pose X W Pt.
Variable sta : statistics Pt S.
Variable c : config P.
Hypothesis Hc : config_ok c.
Variable upd_d : P -> S -> P.

Notation stat_of := (stat_of sta).
Definition update_groups (gs : list (list Pt)) (d : P) : P :=
  fold_left (fun d ps => upd_d d (stat_of ps)) gs d.

Definition op_actions (op : grid_op (Pose:=Pose) (X:=X)) : list (map_action (P:=P)) :=
  match op with
  | GInsert o xs => map (fun g => Modify (fst g) (fun d => upd_d d (stat_of (snd g)))) (groups (accepted geo c false o xs))
  | GTouch bi => [Touch bi]
  | GExpand => [ExpandAll]
  end.

Lemma ofold_map {A B E : Type} (f : B -> E -> outcome B) (g : A -> E) (l : list A) : forall b,
  ofold f (map g l) b = ofold (fun b a => f b (g a)) l b.
Proof. induction l as [|a l IH]; intros b; cbn [map ofold]; [reflexivity|]. destruct (f b (g a)); cbn [obind]; auto. Qed.

Lemma grid_step_actions (u : idx -> Prop) (m : cmap c) (op : grid_op) :
  (forall x, cvalid c m x = cvalid c (new_map c) x) ->
  match op with GInsert o xs => cloud_fits geo c false u o xs | _ => True end ->
  grid_step geo sta c upd_d m op = cact_all c (op_actions op) m.
Proof.
  intros Hv Hf. destruct op as [o xs|bi|]; cbn [grid_step op_actions].
  - unfold grid_insert. rewrite (collect_all_spec geo sta c Hc false u m o xs Hv Hf). cbn [obind].
    unfold stat_groups, cact_all, act_all. rewrite !ofold_map. reflexivity.
  - unfold cact_all, act_all. cbn [ofold]. fold (cact c m (Touch bi)). destruct (cact c m (Touch bi)); reflexivity.
  - unfold cact_all, act_all. cbn [ofold]. fold (cact c m ExpandAll). destruct (cact c m ExpandAll); reflexivity.
Qed.

Lemma insert_no_expand (gs : list (idx * list Pt)) :
  expansions (map (fun g => Modify (fst g) (fun d => upd_d d (stat_of (snd g)))) gs) = 0.
Proof. induction gs as [|g gs IH]; cbn [map expansions]; [reflexivity|exact IH]. Qed.

Lemma actions_expansions (ops : list (grid_op (Pose:=Pose) (X:=X))) :
  expansions (flat_map op_actions ops) = expand_calls ops.
Proof.
  induction ops as [|[o xs|bi|] ops IH]; cbn [flat_map op_actions expand_calls app]; [reflexivity| | |].
  - rewrite expansions_app, insert_no_expand, IH. lia.
  - cbn [expansions]. exact IH.
  - cbn [expansions]. rewrite IH. reflexivity.
Qed.

Definition op_fits (k : Z) (op : grid_op (Pose:=Pose) (X:=X)) : Prop :=
  match op with
  | GInsert o xs => cloud_fits geo c false (usable c k) o xs
  | GTouch bi => length bi = dimc c /\ (kindc c = Dynamic -> usable c k bi)
  | GExpand => True
  end.

Lemma op_actions_fit (k : Z) (op : grid_op (Pose:=Pose) (X:=X)) :
  op_fits k op -> Forall (act_fits c k) (op_actions op).
Proof.
  destruct op as [o xs|bi|]; cbn [op_fits op_actions]; intros H.
  - apply Forall_forall. intros a Ha. apply in_map_iff in Ha. destruct Ha as [[b ps] [<- Hin]].
    cbn [act_fits fst]. apply groups_in in Hin. destruct Hin as [-> Hne].
    destruct (in_dec (list_eq_dec Z.eq_dec) b (keys (accepted geo c false o xs))) as [Hi|Hi].
    + apply keys_in in Hi. destruct Hi as [p Hp]. eapply (accepted_usable geo c Hc); eassumption.
    + apply points_in_nil in Hi. contradiction.
  - constructor; [exact H|constructor].
  - constructor; [exact I|constructor].
Qed.

Lemma grid_run_actions (ops : list (grid_op (Pose:=Pose) (X:=X))) : forall (k : Z) (m : cmap c),
  cInv c m -> 0 <= k - expand_calls ops -> region c k m -> Forall (op_fits k) ops ->
  grid_run geo sta c upd_d ops m = cact_all c (flat_map op_actions ops) m.
Proof.
  induction ops as [|op ops IH]; intros k m HI Hk HR HF; [reflexivity|].
  inversion HF as [|? ? Hf HF']; subst.
  assert (He : expand_calls (op :: ops) = expansions (op_actions op) + expand_calls ops).
  { pose proof (actions_expansions [op]) as H. cbn [flat_map] in H. rewrite app_nil_r in H. rewrite H.
    destruct op; cbn [expand_calls]; lia. }
  assert (H0 : 0 <= expand_calls ops) by (rewrite <- actions_expansions; apply expansions_nonneg).
  assert (H1 : 0 <= expansions (op_actions op)) by apply expansions_nonneg.
  unfold grid_run. cbn [ofold flat_map].
  rewrite cact_all_app.
  rewrite (grid_step_actions (usable c k) m op).
  2: { apply HI. }
  2: { destruct op; [exact Hf|exact I|exact I]. }
  destruct (hist_spec c Hc (op_actions op) k m HI ltac:(lia) HR (op_actions_fit k op Hf)) as [m1 [E1 [HI1 [HR1 _]]]].
  rewrite E1. cbn [obind].
  apply (IH (k - expansions (op_actions op)) m1 HI1 ltac:(lia) HR1).
  revert HF'. apply Forall_impl. intros [o xs|bi|]; cbn [op_fits]; intros H.
  - intros x Hx Hn. destruct (H x Hx Hn) as [b [A [B C]]]. exists b. split; [exact A|]. split; [exact B|].
    intros D. eapply usable_le; [|apply C; exact D]. lia.
  - destruct H as [A B]. split; [exact A|]. intros D. eapply usable_le; [|apply B; exact D]. lia.
  - exact I.
Qed.

Lemma changes_insert (gs : list (idx * list Pt)) (i : nat) (j : idx) :
  changes (map (fun g => Modify (fst g) (fun d => upd_d d (stat_of (snd g)))) gs) i j =
  map (fun ps => fun d => upd_d d (stat_of ps)) (map snd (filter (fun g => idx_eqb (generate_index (fst g) i) j) gs)).
Proof.
  induction gs as [|g gs IH]; cbn [map changes filter]; [reflexivity|].
  destruct (idx_eqb (generate_index (fst g) i) j); cbn [map]; rewrite IH; reflexivity.
Qed.

Lemma changes_grid (ops : list (grid_op (Pose:=Pose) (X:=X))) (i : nat) (j : idx) :
  changes (flat_map op_actions ops) i j =
  map (fun ps => fun d => upd_d d (stat_of ps)) (history_groups geo c ops i j).
Proof.
  induction ops as [|[o xs|bi|] ops IH]; cbn [flat_map op_actions history_groups app]; [reflexivity| | |].
  - rewrite changes_app, changes_insert, IH, map_app. reflexivity.
  - cbn [changes]. exact IH.
  - cbn [changes]. exact IH.
Qed.

Lemma apply_changes_groups (gs : list (list Pt)) (d : P) :
  apply_changes (map (fun ps => fun d => upd_d d (stat_of ps)) gs) d = update_groups gs d.
Proof.
  unfold apply_changes, update_groups. revert d; induction gs as [|g gs IH]; intros d; cbn [map fold_left]; [reflexivity|].
  apply IH.
Qed.

Lemma grid_bundles_of (ops : list (grid_op (Pose:=Pose) (X:=X))) (a : map_action) (bi : idx) :
  In a (flat_map op_actions ops) -> names c a bi ->
  (exists p, In (bi, p) (history_points geo c ops)) \/ In (GTouch bi) ops.
Proof.
  intros Hin Hna. apply in_flat_map in Hin. destruct Hin as [op [Hop Ha]].
  destruct op as [o xs|b|]; cbn [op_actions] in Ha.
  - apply in_map_iff in Ha. destruct Ha as [[b ps] [<- Hg]]. cbn [names fst] in Hna. subst b. left.
    apply groups_in in Hg. destruct Hg as [-> Hne].
    destruct (points_in bi (accepted geo c false o xs)) as [|p ps] eqn:E; [congruence|].
    assert (Hk : In bi (keys (accepted geo c false o xs))).
    { destruct (in_dec (list_eq_dec Z.eq_dec) bi (keys (accepted geo c false o xs))) as [Hi|Hi]; [exact Hi|].
      apply points_in_nil in Hi. congruence. }
    apply keys_in in Hk. destruct Hk as [q Hq]. exists q.
    clear - Hop Hq. induction ops as [|op ops IH]; [destruct Hop|].
    destruct Hop as [->|Hop]; cbn [history_points]; [apply in_app_iff; left; exact Hq|].
    destruct op; [apply in_app_iff; right|..]; apply IH; exact Hop.
  - destruct Ha as [<-|[]]. cbn [names] in Hna. destruct Hna as [-> _]. right; exact Hop.
  - destruct Ha as [<-|[]]. destruct Hna.
Qed.

Lemma history_points_named (ops : list (grid_op (Pose:=Pose) (X:=X))) (bi : idx) (p : Pt) :
  In (bi, p) (history_points geo c ops) ->
  exists f, In (Modify bi f) (flat_map op_actions ops).
Proof.
  induction ops as [|[o xs|b|] ops IH]; cbn [history_points]; [intros []| |auto|auto].
  - intros Hin. apply in_app_iff in Hin. destruct Hin as [Hin|Hin].
    + eexists. cbn [flat_map op_actions]. apply in_app_iff. left.
      apply in_map_iff. exists (bi, points_in bi (accepted geo c false o xs)). split; [reflexivity|].
      apply groups_in. split; [reflexivity|]. intros E. apply points_in_nil in E. apply E.
      apply keys_in. exists p; exact Hin.
    + destruct (IH Hin) as [f Hf]. exists f. cbn [flat_map]. apply in_app_iff. right; exact Hf.
  - intros Hin. destruct (IH Hin) as [f Hf]. exists f. cbn [flat_map]. apply in_app_iff. right; exact Hf.
  - intros Hin. destruct (IH Hin) as [f Hf]. exists f. cbn [flat_map]. apply in_app_iff. right; exact Hf.
Qed.

Lemma history_points_usable (ops : list (grid_op (Pose:=Pose) (X:=X))) (bi : idx) (p : Pt) :
  grid_fits geo c (usable c) ops -> In (bi, p) (history_points geo c ops) -> usable c (expand_calls ops) bi.
Proof.
  unfold grid_fits. generalize (expand_calls ops). intros k HF. induction ops as [|op ops IH]; [intros []|].
  inversion HF as [|? ? H HF']; subst. destruct op as [o xs|b|]; cbn [history_points]; auto.
  intros Hin. apply in_app_iff in Hin. destruct Hin as [Hin|Hin]; [|apply IH; assumption].
  eapply (accepted_usable geo c Hc); eassumption.
Qed.

Lemma history_groups_nil (ops : list (grid_op (Pose:=Pose) (X:=X))) (i : nat) (j : idx) :
  history_groups geo c ops i j = [] <->
  (forall bi p, In (bi, p) (history_points geo c ops) -> generate_index bi i <> j).
Proof.
  induction ops as [|[o xs|b|] ops IH]; cbn [history_groups history_points]; [split; [intros _ ? ? []|reflexivity]| |exact IH|exact IH].
  split.
  - intros H bi p Hin He. apply app_eq_nil in H. destruct H as [H1 H2].
    apply in_app_iff in Hin. destruct Hin as [Hin|Hin]; [|apply (proj1 IH H2 bi p Hin He)].
    assert (Hg : In (bi, points_in bi (accepted geo c false o xs)) (cell_groups (accepted geo c false o xs) i j)).
    { unfold cell_groups. apply filter_In. split; [|cbn [fst]; rewrite He; apply idx_eqb_refl].
      apply groups_in. split; [reflexivity|]. intros E. apply points_in_nil in E. apply E. apply keys_in. eauto. }
    apply (in_map snd) in Hg. rewrite H1 in Hg. exact Hg.
  - intros H. assert (H2 : history_groups geo c ops i j = []).
    { apply IH. intros bi p Hin. apply (H bi p). apply in_app_iff; right; exact Hin. }
    rewrite H2, app_nil_r. destruct (cell_groups (accepted geo c false o xs) i j) as [|[b ps] l] eqn:E; [reflexivity|].
    exfalso. assert (Hg : In (b, ps) (cell_groups (accepted geo c false o xs) i j)) by (rewrite E; left; reflexivity).
    apply filter_In in Hg. destruct Hg as [Hg He]. cbn [fst] in He.
    destruct (idx_eqb_spec (generate_index b i) j) as [He'|]; [|discriminate].
    apply groups_in in Hg. destruct Hg as [-> Hne].
    destruct (in_dec (list_eq_dec Z.eq_dec) b (keys (accepted geo c false o xs))) as [Hi|Hi];
      [|apply points_in_nil in Hi; contradiction].
    apply keys_in in Hi. destruct Hi as [p Hp]. apply (H b p); [apply in_app_iff; left; exact Hp|exact He'].
Qed.

Lemma actions_no_expand (ops : list (grid_op (Pose:=Pose) (X:=X))) :
  In ExpandAll (flat_map op_actions ops) -> In GExpand ops.
Proof.
  intros H. apply in_flat_map in H. destruct H as [[o xs|b|] [Hop Ha]]; cbn [op_actions] in Ha.
  - apply in_map_iff in Ha. destruct Ha as [g [He _]]. discriminate.
  - destruct Ha as [Ha|[]]. discriminate.
  - exact Hop.
Qed.

(** The state after a history. *)
Lemma grid_run_spec (ops : list (grid_op (Pose:=Pose) (X:=X))) :
  grid_fits geo c (usable c) ops ->
  exists m, grid_run geo sta c upd_d ops (new_map c) = Ok m /\ cInv c m /\ region c 0 m /\
    (forall i j, cell_exists c i j ->
       ccontent c m i j = update_groups (history_groups geo c ops i j) (defaultc c)) /\
    (forall bi p, In (bi, p) (history_points geo c ops) -> cbget c m bi <> None) /\
    (forall bi, In (GTouch bi) ops -> usable c 0 bi -> cbget c m bi <> None) /\
    (forall bi, cbdom c (cshape c (new_map c)) bi -> ~ In GExpand ops -> cbget c m bi <> None ->
       (exists p, In (bi, p) (history_points geo c ops)) \/ In (GTouch bi) ops).
Proof.
  intros Hf.
  assert (H0 : 0 <= expand_calls ops) by (rewrite <- actions_expansions; apply expansions_nonneg).
  assert (Hfits : fits c (flat_map op_actions ops)).
  { unfold fits. rewrite actions_expansions. apply Forall_forall. intros a Ha.
    apply in_flat_map in Ha. destruct Ha as [op [Hop Ha]].
    unfold grid_fits in Hf. rewrite Forall_forall in Hf. specialize (Hf op Hop).
    assert (Hop' : op_fits (expand_calls ops) op) by (destruct op; exact Hf).
    pose proof (op_actions_fit _ _ Hop') as H. rewrite Forall_forall in H. apply H; exact Ha. }
  destruct (run_spec c Hc _ Hfits) as [m [E [HI [HR [HC [Hn Ho]]]]]].
  exists m. split; [|split; [exact HI|split; [exact HR|split; [|split; [|split]]]]].
  - rewrite (grid_run_actions ops (expand_calls ops)); [exact E|apply new_inv; exact Hc|lia| |].
    + intros bi _ H. rewrite new_empty_b in H. contradiction.
    + unfold grid_fits in Hf. revert Hf. apply Forall_impl. intros [o xs|b|] H; exact H.
  - intros i j Hij. rewrite (HC i j (cell_ddom c Hc i j Hij)), changes_grid, apply_changes_groups. reflexivity.
  - intros bi p Hin. destruct (history_points_named ops bi p Hin) as [f Hin'].
    apply (Hn bi _ Hin'); [|reflexivity].
    apply (usable_bdom c Hc (expand_calls ops)); [exact H0|]. eapply history_points_usable; eassumption.
  - intros bi Hin Hu. apply (Hn bi (Touch bi)).
    + apply in_flat_map. exists (GTouch bi). split; [exact Hin|left; reflexivity].
    + apply (usable_bdom c Hc 0); [lia|exact Hu].
    + split; [reflexivity|]. apply (usable_valid c Hc 0); [lia|exact Hu].
  - intros bi Hbd Hne Hyes. destruct (Ho bi Hbd) as [a [Ha Hna]].
    + intros H. apply Hne. apply actions_no_expand; exact H.
    + exact Hyes.
    + eapply grid_bundles_of; eassumption.
Qed.

End Grid.

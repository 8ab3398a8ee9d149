(** Occupancy insertion: exact hits and misses. *)
From Coq Require Import Permutation.
From Verif Require Import Base SeqModel IndexModel IndexFacts OctreeSpec MapModel MapFacts BackendModel BackendFacts
  SysModel SysSpec SysFacts InsertModel InsertSpec InsertFacts MapPropFacts OpHist.
Open Scope Z_scope.

Section Occ.
Context {Pose X W Pt S A : Type}.
Variable geo : geometry Pose X W Pt.
Variable sta : statistics Pt S.
Variable c : config (occ A S).
Hypothesis Hc : config_ok c.
Variable zero : A.
Variable plus : A -> A -> A.
Variable amount : S -> A.
Variable s_merge : S -> S -> S.
Variable ray : Pose -> S -> list idx.
Variable order : list (idx * A) -> list (idx * A).
Hypothesis plus_zero : forall a, plus zero a = a.
Hypothesis plus_comm : forall a b, plus a b = plus b a.
Hypothesis plus_assoc : forall a b d, plus a (plus b d) = plus (plus a b) d.
Hypothesis order_perm : forall l, Permutation (order l) l.
Variable weighted : bool.
Notation gop := (grid_op (Pose:=Pose) (X:=X)).
Notation stat ps := (fold_left (s_add sta) ps (s_empty sta)).
Notation ends := (ends geo c).
Notation total := (total zero plus).
Notation misses := (scan_misses geo sta c amount ray weighted).

(** The free counter after visiting a list of bundles. *)
Definition add_all (l : list (idx * A)) (f : list (idx * A)) : list (idx * A) :=
  fold_left (fun f e => free_add zero plus f (fst e) (snd e)) l f.

Lemma total_app (l1 l2 : list A) : total (l1 ++ l2) = plus (total l1) (total l2).
Proof.
  induction l1 as [|a l1 IH]; cbn; [symmetry; apply plus_zero|]. unfold InsertSpec.total in *. rewrite IH. apply plus_assoc.
Qed.
Lemma total_perm (l1 l2 : list A) : Permutation l1 l2 -> total l1 = total l2.
Proof.
  induction 1 as [|x l l' _ IH|x y l|l l' l'' _ IH1 _ IH2]; unfold InsertSpec.total in *; cbn; try congruence.
Qed.

Definition sum_at (q : idx -> bool) (l : list (idx * A)) : A := total (map snd (filter (fun e => q (fst e)) l)).
Lemma sum_at_cons (q : idx -> bool) (e : idx * A) (l : list (idx * A)) :
  sum_at q (e :: l) = if q (fst e) then plus (snd e) (sum_at q l) else sum_at q l.
Proof. unfold sum_at. cbn [filter]. destruct (q (fst e)); reflexivity. Qed.
Lemma sum_at_app (q : idx -> bool) (l1 l2 : list (idx * A)) : sum_at q (l1 ++ l2) = plus (sum_at q l1) (sum_at q l2).
Proof. unfold sum_at. rewrite filter_app, map_app. apply total_app. Qed.
Lemma sum_at_perm (q : idx -> bool) (l1 l2 : list (idx * A)) : Permutation l1 l2 -> sum_at q l1 = sum_at q l2.
Proof. intros H. unfold sum_at. apply total_perm, Permutation_map, Permutation_filter. exact H. Qed.

Lemma sum_free_add (q : idx -> bool) (bi : idx) (n : A) (f : list (idx * A)) :
  sum_at q (free_add zero plus f bi n) = plus (sum_at q f) (if q bi then n else zero).
Proof.
  induction f as [|[j a] f IH]; cbn [free_add].
  - rewrite sum_at_cons. cbn [fst snd]. unfold sum_at; cbn. destruct (q bi); rewrite ?plus_zero; auto.
    rewrite plus_comm. apply plus_zero.
  - destruct (idx_eqb_spec j bi) as [->|Hne]; rewrite !sum_at_cons; cbn [fst snd].
    + destruct (q bi).
      * rewrite <- !plus_assoc. f_equal. apply plus_comm.
      * rewrite (plus_comm _ zero), plus_zero. reflexivity.
    + rewrite IH. destruct (q j); [apply plus_assoc|reflexivity].
Qed.
Lemma sum_add_all (q : idx -> bool) (l : list (idx * A)) : forall f,
  sum_at q (add_all l f) = plus (sum_at q f) (sum_at q l).
Proof.
  induction l as [|e l IH]; intros f; cbn [add_all fold_left].
  - unfold sum_at at 3. cbn. rewrite plus_comm. symmetry; apply plus_zero.
  - fold (add_all l (free_add zero plus f (fst e) (snd e))). rewrite IH, sum_free_add, sum_at_cons.
    destruct (q (fst e)); [symmetry; apply plus_assoc|]. rewrite (plus_comm _ zero), plus_zero. reflexivity.
Qed.
(** Erasing bundles from the counter is erasing their visits. *)
Lemma sum_filter (q p : idx -> bool) (l : list (idx * A)) :
  sum_at q (filter (fun e => p (fst e)) l) = sum_at (fun b => p b && q b) l.
Proof.
  induction l as [|e l IH]; [reflexivity|]. cbn [filter]. rewrite sum_at_cons.
  destruct (p (fst e)) eqn:E; cbn [andb]; [|exact IH]. rewrite sum_at_cons, IH. reflexivity.
Qed.
Lemma free_add_in (f : list (idx * A)) (bi : idx) (n : A) (b : idx) (a : A) :
  In (b, a) (free_add zero plus f bi n) -> b = bi \/ exists a', In (b, a') f.
Proof.
  induction f as [|[j x] f IH]; cbn [free_add].
  - intros [H|[]]. injection H as <- _. left; reflexivity.
  - destruct (idx_eqb_spec j bi) as [->|Hne].
    + intros [H|H]; [left; congruence|right; exists a; right; exact H].
    + intros [H|H]; [right; exists x; left; congruence|].
      destruct (IH H) as [->|[a' Ha']]; [left; reflexivity|right; exists a'; right; exact Ha'].
Qed.
Lemma add_all_in (l : list (idx * A)) : forall f b a,
  In (b, a) (add_all l f) -> (exists a', In (b, a') l) \/ exists a', In (b, a') f.
Proof.
  induction l as [|[e n] l IH]; intros f b a H; cbn [add_all fold_left] in H; [right; exists a; exact H|].
  fold (add_all l (free_add zero plus f e n)) in H.
  destruct (IH _ _ _ H) as [[a' Ha']|[a' Ha']].
  - left. exists a'. right; exact Ha'.
  - apply free_add_in in Ha'. destruct Ha' as [->|[a2 H2]]; [left; exists n; left; reflexivity|right; eauto].
Qed.

(** One scan as a list of actions. *)
Definition visits (o : Pose) (gs : list (idx * list Pt)) : list (idx * A) :=
  flat_map (fun g => map (fun bi => (bi, amount (stat (snd g)))) (filter (takes c) (ray o (stat (snd g))))) gs.
Definition is_end (o : Pose) (xs : list X) (b : idx) : bool := existsb (fun g => idx_eqb (fst g) b) (ends o xs).
Definition freed (o : Pose) (xs : list X) : list (idx * A) :=
  order (let f := add_all (visits o (ends o xs)) [] in
         if weighted then filter (fun e => negb (is_end o xs (fst e))) f else f).
Definition occ_acts (op : gop) : list (map_action (P:=occ A S)) :=
  match op with
  | GInsert o xs =>
      map (fun g => Modify (fst g) (update_occupied s_merge (stat (snd g)))) (ends o xs) ++
      map (fun e => Modify (fst e) (update_free plus (snd e))) (freed o xs)
  | GTouch bi => [Touch bi]
  | GExpand => [ExpandAll]
  end.
Definition occ_opfits (k : Z) (op : gop) : Prop :=
  match op with
  | GInsert o xs => cloud_fits geo c true (usable c k) o xs /\
      forall s bi, In bi (ray o s) -> length bi = dimc c /\ (kindc c = Dynamic -> usable c k bi)
  | GTouch bi => length bi = dimc c /\ (kindc c = Dynamic -> usable c k bi)
  | GExpand => True
  end.

Lemma takes_usable (k : Z) (bi : idx) :
  length bi = dimc c -> (kindc c = Dynamic -> usable c k bi) -> takes c bi = true -> usable c k bi.
Proof.
  intros HL Hu Ht. destruct (kind_cases (kindc c)) as [E|E]; [|auto].
  split; [exact HL|]. rewrite E. unfold takes in Ht. rewrite E in Ht. rewrite forallb_forall in Ht.
  intros d Hd. specialize (Ht d ltac:(apply in_seq; lia)). lia.
Qed.
Lemma visits_usable (k : Z) (o : Pose) (gs : list (idx * list Pt)) (b : idx) (a : A) :
  (forall s bi, In bi (ray o s) -> length bi = dimc c /\ (kindc c = Dynamic -> usable c k bi)) ->
  In (b, a) (visits o gs) -> usable c k b.
Proof.
  intros Hr H. apply in_flat_map in H. destruct H as [g [_ H]]. apply in_map_iff in H.
  destruct H as [b' [E H]]. injection E as -> _. apply filter_In in H. destruct H as [Hin Ht].
  destruct (Hr _ _ Hin) as [HL Hu]. apply takes_usable; assumption.
Qed.
Lemma ends_usable (k : Z) (o : Pose) (xs : list X) (b : idx) (ps : list Pt) :
  cloud_fits geo c true (usable c k) o xs -> In (b, ps) (ends o xs) -> usable c k b.
Proof.
  intros Hf Hin. apply groups_in in Hin. destruct Hin as [-> Hne].
  destruct (in_dec (list_eq_dec Z.eq_dec) b (keys (accepted geo c true o xs))) as [Hi|Hi].
  - apply keys_in in Hi. destruct Hi as [p Hp]. eapply (accepted_usable geo c Hc); eassumption.
  - apply points_in_nil in Hi. contradiction.
Qed.
Lemma freed_usable (k : Z) (o : Pose) (xs : list X) (b : idx) (a : A) :
  (forall s bi, In bi (ray o s) -> length bi = dimc c /\ (kindc c = Dynamic -> usable c k bi)) ->
  In (b, a) (freed o xs) -> usable c k b.
Proof.
  intros Hr H. unfold freed in H. apply (Permutation_in _ (order_perm _)) in H.
  assert (H' : In (b, a) (add_all (visits o (ends o xs)) [])).
  { destruct weighted; [apply filter_In in H; apply H|exact H]. }
  apply add_all_in in H'. destruct H' as [[a' H']|[a' []]]. eapply visits_usable; eassumption.
Qed.

Lemma occ_acts_fit (k : Z) (op : gop) : 0 <= k -> occ_opfits k op -> Forall (act_fits c k) (occ_acts op).
Proof.
  intros Hk0. destruct op as [o xs|bi|]; cbn [occ_opfits occ_acts]; intros H.
  - destruct H as [Hf Hr]. apply Forall_app. split; apply Forall_forall; intros a Ha; apply in_map_iff in Ha.
    + destruct Ha as [[b ps] [<- Hin]]. cbn. eapply ends_usable; eassumption.
    + destruct Ha as [[b n] [<- Hin]]. cbn. eapply freed_usable; eassumption.
  - constructor; [exact H|constructor].
  - constructor; [exact I|constructor].
Qed.

Lemma occ_ends_loop (k : Z) (o : Pose) (gs : list (idx * list Pt)) : forall (m : cmap c) (f : list (idx * A)),
  cInv c m -> 0 <= k -> region c k m ->
  (forall b ps, In (b, ps) gs -> usable c k b) ->
  (forall s bi, In bi (ray o s) -> length bi = dimc c) ->
  ofold (occ_end c zero plus amount s_merge ray weighted o) (map (fun g => (fst g, stat (snd g))) gs) (m, f) =
  (let* m' := cact_all c (map (fun g => Modify (fst g) (update_occupied s_merge (stat (snd g)))) gs) m in
   Ok (m', add_all (visits o gs) f)).
Proof.
  induction gs as [|[b ps] gs IH]; intros m f HI Hk HR Hg Hr; [reflexivity|].
  cbn [map ofold]. unfold occ_end at 1. cbn [fst snd].
  assert (Hu : usable c k b) by (apply (Hg b ps); left; reflexivity).
  pose proof HI as [_ [_ Hv]].
  rewrite Hv, (usable_valid c Hc k b Hk Hu), orb_true_r.
  change (cact_all c (Modify b (update_occupied s_merge (stat ps)) :: ?l) m) with
    (let* m' := cact c m (Modify b (update_occupied s_merge (stat ps))) in cact_all c l m').
  unfold cmodify.
  destruct (cact_spec c Hc k m (Modify b (update_occupied s_merge (stat ps))) HI ltac:(cbn; lia) HR Hu)
    as [m1 [E1 [HI1 [HR1 _]]]].
  cbn [cact_all act_all ofold]. unfold cact_all, act_all. cbn [ofold].
  fold (cact c m (Modify b (update_occupied s_merge (stat ps)))). rewrite E1. cbn [obind].
  cbn [expansions] in HR1. replace (k - 0) with k in HR1 by lia.
  pose proof HI1 as [_ [_ Hv1]].
  replace (fold_left (fun f0 bi => if cvalid c m1 bi then free_add zero plus f0 bi (amount (stat ps)) else f0)
             (ray o (stat ps)) f)
    with (add_all (map (fun bi => (bi, amount (stat ps))) (filter (takes c) (ray o (stat ps)))) f).
  2: { assert (HL : forall bi, In bi (ray o (stat ps)) -> length bi = dimc c) by (intros; eapply Hr; eassumption).
       generalize f. revert HL. generalize (ray o (stat ps)). clear -Hv1 Hc.
       induction l as [|bi l IH]; intros HL f; [reflexivity|]. cbn [filter fold_left].
       rewrite Hv1, (takes_valid c Hc bi) by (apply HL; left; reflexivity).
       destruct (takes c bi); cbn [map add_all fold_left fst snd].
       - apply IH. intros; apply HL; right; assumption.
       - apply IH. intros; apply HL; right; assumption. }
  rewrite (IH m1 _ HI1 Hk HR1); [|intros b' ps' Hin; apply (Hg b' ps'); right; exact Hin|exact Hr].
  unfold cact_all, act_all. unfold visits. cbn [flat_map snd]. unfold add_all. rewrite fold_left_app. reflexivity.
Qed.

Lemma occ_step_acts (k : Z) (m : cmap c) (op : gop) :
  cInv c m -> region c k m -> 0 <= k - expansions (occ_acts op) -> occ_opfits k op ->
  occ_step geo sta c zero plus amount s_merge ray order weighted m op = cact_all c (occ_acts op) m.
Proof.
  intros HI HR Hk Hf. destruct op as [o xs|bi|]; cbn [occ_step occ_acts].
  - destruct Hf as [Hf Hr]. unfold occ_insert.
    rewrite (collect_all_spec geo sta c Hc true (usable c k) m o xs) by (apply HI || exact Hf). cbn [obind].
    assert (Hk0 : 0 <= k) by (pose proof (expansions_nonneg (occ_acts (GInsert o xs))); lia).
    unfold stat_groups.
    change (map (fun g : idx * list Pt => (fst g, stat_of sta (snd g))) (groups (accepted geo c true o xs)))
      with (map (fun g : idx * list Pt => (fst g, stat (snd g))) (ends o xs)).
    rewrite (occ_ends_loop k o (ends o xs) m [] HI Hk0 HR).
    2: { intros b ps Hin. eapply ends_usable; eassumption. }
    2: { intros s bi Hin. exact (proj1 (Hr s bi Hin)). }
    rewrite cact_all_app.
    destruct (cact_all c (map (fun g => Modify (fst g) (update_occupied s_merge (stat (snd g)))) (ends o xs)) m)
      as [m1| |]; cbn [obind fst snd]; try reflexivity.
    unfold cact_all, act_all. rewrite ofold_map. unfold freed, cmodify. 
    replace (if weighted
             then filter (fun e => negb (existsb (fun u => idx_eqb (fst u) (fst e))
                     (map (fun g : idx * list Pt => (fst g, stat (snd g))) (ends o xs)))) (add_all (visits o (ends o xs)) [])
             else add_all (visits o (ends o xs)) [])
      with (let f := add_all (visits o (ends o xs)) [] in
            if weighted then filter (fun e => negb (is_end o xs (fst e))) f else f); [reflexivity|].
    cbn zeta. destruct weighted; [|reflexivity]. apply filter_ext. intros e. f_equal. unfold is_end.
    clear. induction (ends o xs) as [|g l IH]; [reflexivity|]. cbn [map existsb fst]. rewrite IH. reflexivity.
  - unfold cact_all, act_all. cbn [ofold]. fold (cact c m (Touch bi)). destruct (cact c m (Touch bi)); reflexivity.
  - unfold cact_all, act_all. cbn [ofold]. fold (cact c m ExpandAll). destruct (cact c m ExpandAll); reflexivity.
Qed.

Lemma occ_opfits_le (k k' : Z) (op : gop) : k' <= k -> occ_opfits k op -> occ_opfits k' op.
Proof.
  intros Hle. destruct op as [o xs|bi|]; cbn [occ_opfits].
  - intros [H Hr]. split.
    + intros x Hx Hn. destruct (H x Hx Hn) as [b [H1 [H2 H3]]]. exists b. split; [exact H1|]. split; [exact H2|].
      intros D. eapply usable_le; [exact Hle|auto].
    + intros s b Hin. destruct (Hr s b Hin) as [H1 H2]. split; [exact H1|]. intros D. eapply usable_le; [exact Hle|auto].
  - intros [H1 H2]. split; [exact H1|]. intros D. eapply usable_le; [exact Hle|auto].
  - auto.
Qed.

Lemma no_expand_modify {B : Type} (f : B -> idx) (g : B -> occ A S -> occ A S) (l : list B) :
  expansions (map (fun x => Modify (f x) (g x)) l) = 0.
Proof. induction l; cbn; auto. Qed.
Lemma occ_expansions (ops : list gop) : expansions (flat_map occ_acts ops) = expand_calls ops.
Proof.
  induction ops as [|[o xs|bi|] ops IH]; cbn [flat_map occ_acts expand_calls]; [reflexivity| | |].
  - rewrite !expansions_app, IH.
    rewrite (no_expand_modify fst (fun g => update_occupied s_merge (stat (snd g)))).
    rewrite (no_expand_modify fst (fun e => update_free plus (snd e))). lia.
  - cbn [app expansions]. exact IH.
  - cbn [app expansions]. rewrite IH. reflexivity.
Qed.

(** Effect on the counters of a cell. *)
Lemma changes_modify {B : Type} (f : B -> idx) (g : B -> occ A S -> occ A S) (l : list B) (i : nat) (j : idx) :
  changes (map (fun x => Modify (f x) (g x)) l) i j = map g (filter (fun x => idx_eqb (generate_index (f x) i) j) l).
Proof.
  induction l as [|x l IH]; [reflexivity|]. cbn [map changes filter].
  destruct (idx_eqb (generate_index (f x) i) j); cbn [map]; rewrite IH; reflexivity.
Qed.

Definition add_hits (gs : list (list Pt)) (h : option S) : option S :=
  fold_left (fun h ps => Some (match h with None => stat ps | Some h => s_merge h (stat ps) end)) gs h.
Lemma apply_occupied (gs : list (idx * list Pt)) : forall d : occ A S,
  apply_changes (map (fun g => update_occupied s_merge (stat (snd g))) gs) d =
  Build_occ (missed d) (add_hits (map snd gs) (hits d)).
Proof.
  induction gs as [|g gs IH]; intros d; [destruct d; reflexivity|].
  cbn [map apply_changes fold_left]. unfold apply_changes in IH. rewrite IH. reflexivity.
Qed.
Lemma apply_free (l : list (idx * A)) : forall d : occ A S,
  apply_changes (map (fun e => update_free plus (snd e)) l) d =
  Build_occ (plus (missed d) (total (map snd l))) (hits d).
Proof.
  induction l as [|e l IH]; intros d.
  - destruct d; cbn. rewrite plus_comm, plus_zero. reflexivity.
  - cbn [map apply_changes fold_left]. unfold apply_changes in IH. rewrite IH. cbn [update_free missed hits].
    f_equal. symmetry. apply plus_assoc.
Qed.

Lemma sum_freed (q : idx -> bool) (o : Pose) (xs : list X) : sum_at q (freed o xs) = sum_at q (misses o xs).
Proof.
  unfold freed. rewrite (sum_at_perm q _ _ (order_perm _)). cbn zeta.
  unfold scan_misses. fold (visits o (ends o xs)).
  assert (E0 : forall q', sum_at q' (add_all (visits o (ends o xs)) []) = sum_at q' (visits o (ends o xs))).
  { intros q'. rewrite sum_add_all. unfold sum_at at 1. cbn. apply plus_zero. }
  destruct weighted; cbn [andb negb].
  - rewrite (sum_filter q (fun b => negb (is_end o xs b))), E0.
    rewrite (sum_filter q (fun b => negb (existsb (fun g => idx_eqb (fst g) b) (ends o xs)))). reflexivity.
  - rewrite E0. f_equal. symmetry. clear. induction (visits o (ends o xs)) as [|e l IH]; [reflexivity|].
    cbn [filter]. rewrite IH. reflexivity.
Qed.

Lemma apply_acts (ops : list gop) (i : nat) (j : idx) : forall d,
  apply_changes (changes (flat_map occ_acts ops) i j) d =
  Build_occ (plus (missed d) (total (cell_misses geo sta c amount ray weighted ops i j)))
            (add_hits (cell_hits geo c ops i j) (hits d)).
Proof.
  induction ops as [|op ops IH]; intros d.
  - destruct d; cbn. rewrite plus_comm, plus_zero. reflexivity.
  - cbn [flat_map]. rewrite changes_app, apply_changes_app, IH.
    unfold cell_misses, cell_hits. cbn [flat_map].
    fold (cell_misses geo sta c amount ray weighted ops i j). fold (cell_hits geo c ops i j).
    destruct op as [o xs|bi|]; cbn [occ_acts].
    + rewrite changes_app, apply_changes_app.
      rewrite (changes_modify fst (fun g => update_occupied s_merge (stat (snd g)))).
      rewrite (changes_modify fst (fun e => update_free plus (snd e))).
      rewrite apply_occupied, apply_free. cbn [missed hits].
      f_equal.
      * rewrite total_app, plus_assoc. f_equal. f_equal.
        exact (sum_freed (fun b => idx_eqb (generate_index b i) j) o xs).
      * unfold add_hits. rewrite <- fold_left_app. reflexivity.
    + reflexivity.
    + reflexivity.
Qed.

Lemma add_hits_merged (gs : list (list Pt)) : add_hits gs None = merged sta s_merge gs.
Proof.
  destruct gs as [|ps gs]; [reflexivity|]. unfold add_hits. cbn [fold_left merged].
  generalize (stat ps). induction gs as [|qs gs IH]; intros s; [reflexivity|]. cbn [fold_left]. apply IH.
Qed.

Hypothesis Hdefault : defaultc c = Build_occ zero None.

Lemma occ_history (ops : list gop) :
  occ_fits geo c ray (usable c) ops ->
  exists m, occ_run geo sta c zero plus amount s_merge ray order weighted ops (new_map c) = Ok m /\
    forall i j, cell_exists c i j ->
      exists o, cstored c m i j = Ok o /\
        match o with
        | Some d => missed d = total (cell_misses geo sta c amount ray weighted ops i j) /\
                    hits d = merged sta s_merge (cell_hits geo c ops i j)
        | None => total (cell_misses geo sta c amount ray weighted ops i j) = zero /\ cell_hits geo c ops i j = []
        end.
Proof.
  intros Hf.
  destruct (run_from_new c Hc (occ_step geo sta c zero plus amount s_merge ray order weighted) occ_acts occ_opfits
    occ_step_acts occ_acts_fit occ_opfits_le ops) as [Hfits E].
  { rewrite occ_expansions. unfold occ_fits in Hf. revert Hf. apply Forall_impl. intros [o xs|b|] H; exact H. }
  destruct (run_spec c Hc _ Hfits) as [m [Em [HI [_ [HC _]]]]].
  exists m. split; [unfold occ_run; rewrite E; exact Em|].
  intros i j Hij. destruct (content_stored c Hc m i j HI Hij) as [o [Eo [Hco _]]].
  exists o. split; [exact Eo|]. rewrite (HC i j (cell_ddom c Hc i j Hij)), apply_acts, Hdefault in Hco.
  cbn [missed hits] in Hco. rewrite plus_zero, add_hits_merged in Hco.
  destruct o as [d|].
  - subst d. split; reflexivity.
  - injection Hco as H1 H2. split; [exact H1|].
    destruct (cell_hits geo c ops i j); [reflexivity|discriminate].
Qed.

End Occ.

Lemma hits_points {Pose X W Pt P : Type} (geo : geometry Pose X W Pt) (c : config P)
  (ops : list (grid_op (Pose:=Pose) (X:=X))) (i : nat) (j : idx) :
  Permutation (concat (cell_hits geo c ops i j))
    (map snd (filter (fun e => idx_eqb (generate_index (fst e) i) j) (scan_points geo c ops))).
Proof.
  induction ops as [|op ops IH]; [constructor|]. unfold cell_hits, scan_points. cbn [flat_map].
  rewrite concat_app, filter_app, map_app. apply Permutation_app; [|exact IH].
  destruct op; try constructor. apply cell_groups_points.
Qed.

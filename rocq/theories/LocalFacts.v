(** Scores as functions of the inserted points. *)
From Coq Require Import QArith Qround Permutation Lqa.
From Verif Require Import Base SeqModel SeqFacts IndexModel IndexSpec IndexFacts OctreeSpec MapModel BackendModel SysModel SysSpec
  ExtentModel ExtentFacts SampleModel SampleSpec InterpFacts SampleFacts InsertModel InsertSpec InsertFacts MapPropFacts OccFacts
  SysFacts LocalSpec.
Open Scope Z_scope.

(** ** Numbers *)
Lemma floor_half (u : Q) (s : Z) : Qfloor ((u + inject_Z s) / 2) = (Qfloor u + s) / 2.
Proof.
  pose proof (Qfloor_le u) as L. pose proof (Qlt_floor u) as U.
  rewrite inject_Z_plus in U. set (n := Qfloor u) in *. clearbody n.
  set (j := (n + s) / 2).
  assert (J : 2 * j <= n + s <= 2 * j + 1) by (unfold j; Z.div_mod_to_equations; lia).
  clearbody j.
  assert (A : (inject_Z (2 * j) <= inject_Z (n + s))%Q) by (rewrite <- Zle_Qle; lia).
  assert (B : (inject_Z (n + s) <= inject_Z (2 * j + 1))%Q) by (rewrite <- Zle_Qle; lia).
  repeat rewrite inject_Z_plus in A. repeat rewrite inject_Z_plus in B. rewrite inject_Z_mult in A, B. change (inject_Z 2) with 2%Q in *. change (inject_Z 1) with 1%Q in *.
  assert (E : ((u + inject_Z s) / 2 == (u + inject_Z s) * / 2)%Q) by reflexivity.
  rewrite E. apply floor_cell; [reflexivity|]. split; lra.
Qed.

Definition floors (h : Q) (p : list Q) : idx := map (bundle_number h) p.
Lemma floors_length (h : Q) (p : list Q) : length (floors h p) = length p.
Proof. apply map_length. Qed.
Lemma floors_nth (h : Q) (p : list Q) (d : nat) : (d < length p)%nat -> nth d (floors h p) 0 = bundle_number h (nth d p 0%Q).
Proof. intros Hd. unfold floors. rewrite (nth_indep _ 0 (bundle_number h 0%Q)) by (rewrite map_length; exact Hd). apply map_nth. Qed.

Lemma index_floors (h : Q) (p : list Q) (bi : idx) : toBundleIndex (/ h) p = Ok bi -> bi = floors h p.
Proof.
  unfold toBundleIndex, floors. revert bi. induction p as [|x p IH]; intros bi E; cbn [omap] in E.
  - injection E as <-. reflexivity.
  - unfold to_int in E. destruct (_ && _)%bool; cbn [obind] in E; [|discriminate].
    destruct (omap _ p) as [r| |]; cbn [obind] in E; try discriminate. injection E as <-.
    cbn [map]. f_equal. apply IH. reflexivity.
Qed.

Lemma list_nth_eq (a b : idx) :
  length a = length b -> (forall d, (d < length a)%nat -> nth d a 0 = nth d b 0) -> a = b.
Proof. intros HL H. apply (nth_ext a b 0 0); assumption. Qed.

Lemma same_bundle_iff (h : Q) (p q : list Q) :
  length p = length q -> (same_bundle h p q = true <-> floors h p = floors h q).
Proof.
  intros HL. unfold same_bundle. rewrite forallb_forall. split.
  - intros H. apply list_nth_eq; rewrite !floors_length; [exact HL|]. intros d Hd.
    rewrite !floors_nth by lia. apply Z.eqb_eq, H, in_seq. lia.
  - intros H d Hd. apply in_seq in Hd. apply Z.eqb_eq. rewrite <- !floors_nth by lia. congruence.
Qed.

Lemma cell_of_floors (h : Q) (k : nat) (p : list Q) : generate_index (floors h p) k = cell_of h k p.
Proof.
  apply list_nth_eq; [rewrite generate_index_length, floors_length; unfold cell_of; rewrite map_length, seq_length; reflexivity|].
  intros d Hd. rewrite generate_index_length, floors_length in Hd.
  rewrite generate_index_nth by (rewrite floors_length; exact Hd). rewrite floors_nth by exact Hd.
  unfold cell_of. set (f := fun d => cell_number h (displaced k d) (nth d p 0%Q)).
  rewrite (nth_indep _ 0 (f 0%nat)) by (rewrite map_length, seq_length; exact Hd).
  rewrite map_nth, seq_nth by exact Hd. unfold f. cbn [Nat.add]. unfold cell_number, bundle_number, displaced.
  rewrite floor_half. destruct (Nat.testbit k d); [reflexivity|]. rewrite Z.add_0_r. reflexivity.
Qed.

Lemma same_cell_iff (h : Q) (k : nat) (p q : list Q) :
  length p = length q -> (same_cell h k p q = true <-> cell_of h k q = cell_of h k p).
Proof.
  intros HL. unfold same_cell. rewrite forallb_forall. unfold cell_of. rewrite <- HL. split.
  - intros H. apply map_ext_in. intros d Hd. symmetry. apply Z.eqb_eq, H, Hd.
  - intros H d Hd. apply Z.eqb_eq. symmetry. clear HL.
    induction (seq 0 (length p)) as [|e l IH]; [destruct Hd|]. cbn [map] in H. injection H as H1 H2.
    destruct Hd as [<-|Hd]; [exact H1|exact (IH H2 Hd)].
Qed.

(** ** Points of a history *)
Section Points.
Context {Pose X W P : Type}.
Variable geo : geometry Pose X W (list Q).
Variable c : config P.
Hypothesis Hc : config_ok c.
Variable h : Q.
Hypothesis Hh : (0 < h)%Q.
Hypothesis Hloc : forall p, locate geo p = toBundleIndex (/ h) p.
Notation gop := (grid_op (Pose:=Pose) (X:=X)).

Lemma floor_range (x : Q) (lo hi : Z) :
  (inject_Z lo * h <= x)%Q -> (x < inject_Z hi * h)%Q -> lo <= bundle_number h x < hi.
Proof.
  intros A B. destruct (proj1 (floor_cell h x (bundle_number h x) Hh) eq_refl) as [L U].
  assert (A' : (inject_Z lo * h < (inject_Z (bundle_number h x) + 1) * h)%Q) by lra.
  assert (B' : (inject_Z (bundle_number h x) * h < inject_Z hi * h)%Q) by lra.
  apply Qmult_lt_r in A'; [|exact Hh]. apply Qmult_lt_r in B'; [|exact Hh].
  change 1%Q with (inject_Z 1) in A'. rewrite <- inject_Z_plus in A'. rewrite <- Zlt_Qlt in A', B'. lia.
Qed.

Lemma range_floor (x : Q) (n : Z) : (inject_Z n * h <= x)%Q <-> n <= bundle_number h x.
Proof.
  destruct (proj1 (floor_cell h x (bundle_number h x) Hh) eq_refl) as [L U]. split; intros A.
  - assert (A' : (inject_Z n * h < (inject_Z (bundle_number h x) + 1) * h)%Q) by lra.
    apply Qmult_lt_r in A'; [|exact Hh].
    change 1%Q with (inject_Z 1) in A'. rewrite <- inject_Z_plus in A'. rewrite <- Zlt_Qlt in A'. lia.
  - apply Qle_trans with (inject_Z (bundle_number h x) * h)%Q; [|exact L].
    apply Qmult_le_compat_r; [|lra]. rewrite <- Zle_Qle. exact A.
Qed.

Lemma reach_index (k : Z) (p : list Q) :
  0 <= k -> in_reach c h k p ->
  toBundleIndex (/ h) p = Ok (floors h p) /\ index_in_reach c k (floors h p).
Proof.
  intros Hk [HL H].
  assert (HF : Forall (fun x => INT_MIN <= Qfloor (x * / h) <= INT_MAX) p).
  { apply Forall_forall. intros x Hx. apply (In_nth _ _ 0%Q) in Hx. destruct Hx as [d [Hd <-]].
    specialize (H d ltac:(lia)). destruct (kindc c); destruct H as [A B]; pose proof (floor_range _ _ _ A B) as R;
      unfold bundle_number, Qdiv in R; unfold INT_MIN, INT_MAX in *; lia. }
  destruct (index_of_point h p Hh) as [[bi [E _]]|[E _]].
  - pose proof (index_floors h p bi E) as ->. split; [exact E|]. split; [rewrite floors_length; exact HL|].
    intros D. apply Forall_forall. intros z Hz. apply (In_nth _ _ 0) in Hz. destruct Hz as [d [Hd <-]].
    rewrite floors_length in Hd. rewrite floors_nth by exact Hd. specialize (H d ltac:(lia)). rewrite D in H.
    destruct H as [A B]. pose proof (floor_range _ _ _ A B). lia.
  - exfalso. pose proof (index_ok (/ h) p) as H2. rewrite E in H2. specialize (H2 HF). discriminate.
Qed.

Lemma takes_covered (p : list Q) : length p = dimc c -> takes c (floors h p) = covered c h p.
Proof.
  intros HL. unfold takes, covered. destruct (kindc c); [|reflexivity] || destruct (kindc c).
  all: try reflexivity.
  all: apply eq_true_iff_eq; rewrite !forallb_forall; split; intros H d Hd; specialize (H d Hd); apply in_seq in Hd;
    rewrite floors_nth in * by lia.
  all: rewrite Bool.andb_true_iff in *; rewrite Z.leb_le, Z.ltb_lt, Bool.negb_true_iff in *.
  - rewrite Qle_bool_iff, range_floor. split; [lia|].
    apply Bool.not_true_iff_false. rewrite Qle_bool_iff, range_floor. lia.
  - destruct H as [A B]. rewrite Qle_bool_iff, range_floor in A. split; [lia|].
    apply Bool.not_true_iff_false in B. rewrite Qle_bool_iff, range_floor in B. lia.
Qed.

Lemma accepted_cloud (check : bool) (k : Z) (o : Pose) (xs : list X) :
  0 <= k -> Forall (in_reach c h k) (cloud geo check o xs) ->
  accepted geo c check o xs = map (fun p => (floors h p, p)) (filter (covered c h) (cloud geo check o xs)).
Proof.
  intros Hk. unfold cloud. induction xs as [|x xs IH]; [destruct check; reflexivity|].
  intros HF. cbn [accepted]. unfold accept.
  assert (E : (if check then filter (normal_in geo) (x :: xs) else x :: xs) =
              if (negb check || normal_in geo x)%bool then x :: (if check then filter (normal_in geo) xs else xs)
              else (if check then filter (normal_in geo) xs else xs)).
  { destruct check; cbn [filter negb orb]; destruct (normal_in geo x); reflexivity. }
  rewrite E in HF |- *. destruct (negb check || normal_in geo x)%bool; cbn [andb map filter] in *; [|apply IH; exact HF].
  destruct (normal_world geo (transform geo o x)); cbn [map filter] in *; [|apply IH; exact HF].
  inversion HF as [|? ? H1 H2]; subst. destruct (reach_index k _ Hk H1) as [E1 _].
  rewrite Hloc, E1, takes_covered by (destruct H1; assumption).
  destruct (covered c h (to_map geo (transform geo o x))); cbn [map]; [f_equal|]; apply IH; exact H2.
Qed.

Lemma cloud_in (check : bool) (o : Pose) (xs : list X) (x : X) :
  In x xs -> ((negb check || normal_in geo x) && normal_world geo (transform geo o x))%bool = true ->
  In (to_map geo (transform geo o x)) (cloud geo check o xs).
Proof.
  intros Hx H. apply Bool.andb_true_iff in H. destruct H as [H1 H2]. unfold cloud. apply in_map, filter_In. split; [|exact H2].
  apply in_map. destruct check; [|exact Hx]. apply filter_In. split; [exact Hx|exact H1].
Qed.

Lemma reach_fits (check : bool) (k : Z) (o : Pose) (xs : list X) :
  0 <= k -> Forall (in_reach c h k) (cloud geo check o xs) -> cloud_fits geo c check (usable c k) o xs.
Proof.
  intros Hk HF x Hx Hn. rewrite Forall_forall in HF. specialize (HF _ (cloud_in check o xs x Hx Hn)).
  destruct (reach_index k _ Hk HF) as [E [R1 R2]]. exists (floors h (to_map geo (transform geo o x))).
  split; [rewrite Hloc; exact E|]. split; [exact R1|]. intros D. split; [exact R1|]. rewrite D. apply R2, D.
Qed.

Lemma expands_calls (ops : list gop) : expands ops = expand_calls ops.
Proof. induction ops as [|[o xs|b|] ops IH]; cbn [expands expand_calls]; congruence. Qed.
Lemma expands_pos (ops : list gop) : 0 <= expands ops.
Proof. induction ops as [|[o xs|b|] ops IH]; cbn -[Z.add]; lia. Qed.

Lemma history_inserted (ops : list gop) (k : Z) :
  0 <= k ->
  Forall (fun op => match op with GInsert o xs => Forall (in_reach c h k) (cloud geo false o xs) | _ => True end) ops ->
  history_points geo c ops = map (fun p => (floors h p, p)) (inserted geo c h false ops).
Proof.
  intros Hk. induction 1 as [|op ops H HF IH]; [reflexivity|]. unfold inserted in *.
  destruct op as [o xs|b|]; cbn [history_points flat_map]; [|exact IH|exact IH].
  rewrite map_app, (accepted_cloud false k o xs Hk H), IH. reflexivity.
Qed.
Lemma scan_inserted (ops : list gop) (k : Z) :
  0 <= k ->
  Forall (fun op => match op with GInsert o xs => Forall (in_reach c h k) (cloud geo true o xs) | _ => True end) ops ->
  scan_points geo c ops = map (fun p => (floors h p, p)) (inserted geo c h true ops).
Proof.
  intros Hk. induction 1 as [|op ops H HF IH]; [reflexivity|]. unfold inserted, scan_points in *.
  destruct op as [o xs|b|]; cbn [flat_map]; [|exact IH|exact IH].
  rewrite map_app, (accepted_cloud true k o xs Hk H), IH. reflexivity.
Qed.
Lemma inserted_length (check : bool) (ops : list gop) (k : Z) (p : list Q) :
  Forall (fun op => match op with GInsert o xs => Forall (in_reach c h k) (cloud geo check o xs) | _ => True end) ops ->
  In p (inserted geo c h check ops) -> length p = dimc c.
Proof.
  intros HF H. unfold inserted in H. apply in_flat_map in H. destruct H as [op [Hop H]].
  rewrite Forall_forall in HF. specialize (HF op Hop). destruct op as [o xs|b|]; [|destruct H|destruct H].
  apply filter_In in H. destruct H as [H _]. rewrite Forall_forall in HF. destruct (HF p H) as [HL _]. exact HL.
Qed.

(** Points of a cell. *)
Lemma points_of_cell (pts : list (list Q)) (k : nat) (q : list Q) :
  (forall p, In p pts -> length p = length q) ->
  map snd (filter (fun e => idx_eqb (generate_index (fst e) k) (cell_of h k q)) (map (fun p => (floors h p, p)) pts)) =
  filter (same_cell h k q) pts.
Proof.
  induction pts as [|p pts IH]; intros HL; [reflexivity|]. cbn [map filter fst].
  rewrite cell_of_floors.
  assert (E : idx_eqb (cell_of h k p) (cell_of h k q) = same_cell h k q p).
  { apply eq_true_iff_eq. rewrite same_cell_iff by (symmetry; apply HL; left; reflexivity).
    destruct (idx_eqb_spec (cell_of h k p) (cell_of h k q)); split; congruence. }
  rewrite E. destruct (same_cell h k q p); cbn [map snd]; [f_equal|]; apply IH; intros; apply HL; right; assumption.
Qed.
End Points.

(** ** Scores *)
Section Scores.
Context {P : Type}.
Variable c : config P.
Hypothesis Hc : config_ok c.
Variable h : Q.
Hypothesis Hh : (0 < h)%Q.

Lemma point_usable (q : list Q) :
  in_reach c h 0 q -> covered c h q = true ->
  toBundleIndex (/ h) q = Ok (floors h q) /\ usable c 0 (floors h q).
Proof.
  intros HR HC. destruct (reach_index c h Hh 0 q ltac:(lia) HR) as [E [R1 R2]]. split; [exact E|].
  split; [exact R1|]. destruct HR as [HL _]. rewrite <- (takes_covered c h Hh q HL) in HC.
  unfold takes in HC. destruct (kindc c); [|apply R2; reflexivity] || (destruct (kindc c); [|apply R2; reflexivity]).
  all: try (apply R2; reflexivity).
  all: intros d Hd; rewrite forallb_forall in HC; specialize (HC d ltac:(apply in_seq; lia));
    apply Bool.andb_true_iff in HC; destruct HC as [A B]; apply Z.leb_le in A; apply Z.ltb_lt in B; lia.
Qed.

Lemma cell_of_usable (bi : idx) (k : nat) :
  usable c 0 bi -> (k < 2 ^ dimc c)%nat -> cell_exists c k (generate_index bi k).
Proof.
  intros [HL H] Hk. split; [exact Hk|]. split; [rewrite generate_index_length; exact HL|].
  destruct (kindc c).
  all: try (apply Forall_forall; intros z Hz; apply (In_nth _ _ 0) in Hz; destruct Hz as [d [Hd <-]];
    rewrite generate_index_length in Hd; rewrite generate_index_nth by exact Hd;
    rewrite Forall_forall in H; specialize (H _ (nth_In bi 0 Hd)); destruct (Nat.testbit k d); Z.div_mod_to_equations; lia).
  all: intros d Hd; rewrite generate_index_nth by lia; specialize (H d Hd); destruct (Nat.testbit k d) eqn:Eb.
  - assert (Hk0 : (k =? 0)%nat = false) by (apply Nat.eqb_neq; intros ->; rewrite Nat.bits_0 in Eb; discriminate).
    rewrite Hk0. Z.div_mod_to_equations; lia.
  - destruct (k =? 0)%nat; Z.div_mod_to_equations; lia.
Qed.

Lemma local_scores (dsample : P -> list Q -> Q) (l : list (map_action (P:=P))) (m : cmap c) (q : list Q) (val : nat -> P) :
  fits c l -> cact_all c l (new_map c) = Ok m -> in_reach c h 0 q -> covered c h q = true ->
  (forall k d, (k < 2 ^ dimc c)%nat -> cstored c m k (cell_of h k q) = Ok (Some d) -> d = val k) ->
  exists s t, sampleNonNormalized c (/ h) dsample m q = Ok s /\ sampleNonNormalizedBilinear c (/ h) dsample m q = Ok t /\
    ((cbundle c m (floors h q) = Ok None /\ (s == 0)%Q /\ (t == 0)%Q) \/
     (cbundle c m (floors h q) <> Ok None /\
      (s == mean_score (dimc c) (fun k => dsample (val k) q))%Q /\
      (t == tent_score (dimc c) h q (fun k => dsample (val k) q))%Q)).
Proof.
  intros Hf E HR HC Hval. destruct (point_usable q HR HC) as [Eb Hu].
  pose proof (scores_value c Hc dsample h l m q (floors h q) Hf E Hh Eb Hu) as H.
  destruct (cbundle c m (floors h q)) as [[b|]| |]; try contradiction.
  - destruct H as [v [s [t [Hv [Es [Hs [Et Ht]]]]]]]. exists s, t. split; [exact Es|]. split; [exact Et|]. right.
    assert (V : forall k, In k (seq 0 (2 ^ dimc c)) -> v k = val k).
    { intros k Hk. apply in_seq in Hk. apply Hval; [lia|]. rewrite <- cell_of_floors. apply Hv. lia. }
    split; [discriminate|]. split.
    + rewrite Hs. unfold mean_score. apply Qmult_comp; [|reflexivity]. apply qsum_ext. intros k Hk. rewrite (V k Hk). reflexivity.
    + rewrite Ht. unfold tent_score. apply qsum_ext. intros k Hk. rewrite (V k Hk), cell_of_floors. reflexivity.
  - destruct H as [Es Et]. exists 0%Q, 0%Q. split; [exact Es|]. split; [exact Et|]. left. repeat split; reflexivity.
Qed.
End Scores.

(** ** Gridmaps *)
Section Grid.
Context {Pose X W S P : Type}.
Variable geo : geometry Pose X W (list Q).
Variable sta : statistics (list Q) S.
Variable c : config P.
Hypothesis Hc : config_ok c.
Variable upd_d : P -> S -> P.
Variable h : Q.
Hypothesis Hh : (0 < h)%Q.
Hypothesis Hloc : forall p, locate geo p = toBundleIndex (/ h) p.
Notation gop := (grid_op (Pose:=Pose) (X:=X)).
Notation stat ps := (fold_left (s_add sta) ps (s_empty sta)).

Lemma reach_grid_fits (ops : list gop) : all_in_reach geo c h false ops -> grid_fits geo c (usable c) ops.
Proof.
  intros H. unfold all_in_reach in H. unfold grid_fits. rewrite (expands_calls ops) in H.
  pose proof (expands_pos ops) as H0. rewrite expands_calls in H0. revert H. apply Forall_impl.
  intros [o xs|b|]; [|intros [A B]; split; [exact A|]|auto].
  - intros H. apply (reach_fits geo c h Hh Hloc); [exact H0|exact H].
  - intros D. split; [exact A|]. rewrite D. apply B, D.
Qed.

Lemma reach_inserts (check : bool) (ops : list gop) : all_in_reach geo c h check ops ->
  Forall (fun op => match op with GInsert o xs => Forall (in_reach c h (expands ops)) (cloud geo check o xs) | _ => True end) ops.
Proof. intros H. unfold all_in_reach in H. revert H. apply Forall_impl. intros [o xs|b|]; auto. Qed.

Lemma existsb_bundle (pts : list (list Q)) (q : list Q) :
  (forall p, In p pts -> length p = length q) ->
  (existsb (same_bundle h q) pts = true <-> exists p, In (floors h q, p) (map (fun p => (floors h p, p)) pts)).
Proof.
  intros HL. rewrite existsb_exists. split.
  - intros [p [Hp E]]. exists p. apply same_bundle_iff in E; [|symmetry; apply HL, Hp]. rewrite E.
    apply in_map_iff. exists p. split; [reflexivity|exact Hp].
  - intros [p Hp]. apply in_map_iff in Hp. destruct Hp as [p' [E Hp]]. injection E as E1 <-.
    exists p'. split; [exact Hp|]. apply same_bundle_iff; [symmetry; apply HL, Hp|congruence].
Qed.

Variable addP : P -> list Q -> P.
Hypothesis add_batch : forall d ps, upd_d d (stat ps) = fold_left addP ps d.
Hypothesis add_comm : forall d p q, addP (addP d p) q = addP (addP d q) p.

Lemma grid_local (density : P -> list Q -> Q) (ops : list gop) (q : list Q) :
  all_in_reach geo c h false ops -> in_reach c h 0 q -> covered c h q = true ->
  let pts := inserted geo c h false ops in
  let f := fun k => density (fold_left addP (filter (same_cell h k q) pts) (defaultc c)) q in
  exists m s t, grid_run geo sta c upd_d ops (new_map c) = Ok m /\
    sampleNonNormalized c (/ h) density m q = Ok s /\ sampleNonNormalizedBilinear c (/ h) density m q = Ok t /\
    ((s == mean_score (dimc c) f /\ t == tent_score (dimc c) h q f)%Q \/ (s == 0 /\ t == 0)%Q) /\
    (existsb (same_bundle h q) pts = true -> (s == mean_score (dimc c) f /\ t == tent_score (dimc c) h q f)%Q) /\
    (only_inserts ops -> existsb (same_bundle h q) pts = false -> (s == 0 /\ t == 0)%Q).
Proof.
  intros HA HR HC pts f.
  pose proof (reach_grid_fits ops HA) as Hf. pose proof (reach_inserts false ops HA) as HI.
  pose proof (history_inserted geo c h Hh Hloc ops _ (expands_pos ops) HI) as EP. fold pts in EP.
  assert (HL : forall p, In p pts -> length p = length q).
  { intros p Hp. destruct HR as [HLq _]. rewrite HLq. eapply inserted_length; [exact HI|exact Hp]. }
  destruct (grid_cells geo sta c Hc upd_d ops Hf) as [m [E HV]].
  destruct (point_usable c h Hh q HR HC) as [Eb Hu].
  assert (HF : Forall (op_fits geo c (expand_calls ops)) ops).
  { unfold grid_fits in Hf. revert Hf. apply Forall_impl. intros [o xs|b|] H; exact H. }
  assert (H0 : 0 <= expand_calls ops) by (rewrite <- expands_calls; apply expands_pos).
  assert (Hfits : fits c (flat_map (op_actions geo sta c upd_d) ops)).
  { unfold fits. rewrite (actions_expansions geo sta c upd_d). apply Forall_forall. intros a Ha.
    apply in_flat_map in Ha. destruct Ha as [op [Hop Ha]]. rewrite Forall_forall in HF.
    pose proof (op_actions_fit geo sta c Hc upd_d _ _ (HF op Hop)) as H. rewrite Forall_forall in H. apply H; exact Ha. }
  assert (EA : cact_all c (flat_map (op_actions geo sta c upd_d) ops) (new_map c) = Ok m).
  { rewrite <- (grid_run_actions geo sta c Hc upd_d ops (expand_calls ops) (new_map c)); [exact E|apply new_inv; exact Hc|lia| |exact HF].
    intros bi _ H. rewrite new_empty_b in H. contradiction. }
  destruct (local_scores c Hc h Hh density _ m q (fun k => fold_left addP (filter (same_cell h k q) pts) (defaultc c)) Hfits EA HR HC)
    as [s [t [Es [Et Hst]]]].
  { intros k d Hk Ed. destruct (HV k (cell_of h k q)) as [o [Eo [Ho _]]].
    { rewrite <- cell_of_floors. apply (cell_of_usable c); assumption. }
    rewrite Ed in Eo. injection Eo as <-. rewrite Ho, (groups_flat sta upd_d addP add_batch).
    apply fold_comm_perm; [exact add_comm|]. rewrite history_groups_points, EP, (points_of_cell h pts k q HL). apply Permutation_refl. }
  exists m, s, t. split; [exact E|]. split; [exact Es|]. split; [exact Et|].
  destruct (grid_run_spec geo sta c Hc upd_d ops Hf) as [m' [E' [HInv [_ [_ [Hp _]]]]]].
  rewrite E in E'. injection E' as <-. split; [|split].
  - destruct Hst as [[_ H]|[_ H]]; [right|left]; exact H.
  - intros Hex. destruct Hst as [[Hn _]|[_ H]]; [exfalso|exact H].
    apply (existsb_bundle pts q HL) in Hex. destruct Hex as [p Hin]. rewrite <- EP in Hin.
    apply (Hp _ _ Hin). rewrite (cbundle_spec c Hc m _ HInv Hu) in Hn. congruence.
  - intros Honly Hex. destruct Hst as [[_ H]|[Hn _]]; [exact H|exfalso].
    destruct (grid_bundles geo sta c Hc upd_d ops Hf Honly) as [m' [E' HB]]. rewrite E in E'. injection E' as <-.
    destruct (HB _ Hu) as [ob [Eob [Hob _]]]. rewrite Eob in Hn.
    destruct Hob as [p Hin]; [congruence|]. rewrite EP in Hin.
    assert (T : existsb (same_bundle h q) pts = true) by (apply (existsb_bundle pts q HL); exists p; exact Hin). congruence.
Qed.
End Grid.

(** ** Occupancy maps *)
Section Occ.
Context {Pose X W S A M : Type}.
Variable geo : geometry Pose X W (list Q).
Variable sta : statistics (list Q) S.
Variable c : config (occ A S).
Hypothesis Hc : config_ok c.
Variable h : Q.
Hypothesis Hh : (0 < h)%Q.
Hypothesis Hloc : forall p, locate geo p = toBundleIndex (/ h) p.
Variable zero : A.
Variable plus : A -> A -> A.
Variable amount : S -> A.
Variable s_merge : S -> S -> S.
Variable ray : Pose -> S -> list idx.
Variable order : list (idx * A) -> list (idx * A).
Hypothesis plus_zero : forall a, plus zero a = a.
Hypothesis plus_comm : forall a b, plus a b = plus b a.
Hypothesis plus_assoc : forall a b d, plus a (plus b d) = plus (plus a b) d.
Hypothesis order_perm : forall l, Permutation (order l) l.
Variable weighted : bool.
Hypothesis Hdefault : defaultc c = Build_occ zero None.
Notation gop := (grid_op (Pose:=Pose) (X:=X)).
Notation stat ps := (fold_left (s_add sta) ps (s_empty sta)).
Hypothesis merge_batch : forall s ps, s_merge s (stat ps) = fold_left (s_add sta) ps s.
Hypothesis add_comm : forall s p q, s_add sta (s_add sta s p) q = s_add sta (s_add sta s q) p.

Lemma reach_occ_fits (ops : list gop) :
  all_in_reach geo c h true ops -> rays_in_reach ray c ops -> occ_fits geo c ray (usable c) ops.
Proof.
  intros H HR. unfold all_in_reach in H. unfold rays_in_reach in HR. unfold occ_fits. rewrite (expands_calls ops) in H, HR.
  pose proof (expands_pos ops) as H0. rewrite expands_calls in H0.
  rewrite Forall_forall in *. intros op Hop. specialize (H op Hop). specialize (HR op Hop).
  destruct op as [o xs|b|]; [split| |exact I].
  - apply (reach_fits geo c h Hh Hloc); [exact H0|exact H].
  - intros s bi Hin. destruct (HR s bi Hin) as [P1 P2]. split; [exact P1|]. intros D. split; [exact P1|]. rewrite D. apply P2, D.
  - destruct H as [P1 P2]. split; [exact P1|]. intros D. split; [exact P1|]. rewrite D. apply P2, D.
Qed.

Lemma hit_groups_nonempty (ops : list gop) (i : nat) (j : idx) (g : list (list Q)) :
  In g (cell_hits geo c ops i j) -> g <> [].
Proof.
  unfold cell_hits. rewrite in_flat_map. intros [op [_ H]]. destruct op as [o xs|b|]; [|destruct H|destruct H].
  apply in_map_iff in H. destruct H as [[b ps] [<- H]]. apply filter_In in H. destruct H as [H _].
  unfold ends in H. apply groups_in in H. destruct H as [_ H]. exact H.
Qed.

Lemma merged_flat (gs : list (list (list Q))) :
  (forall g, In g gs -> g <> []) ->
  merged sta s_merge gs = match concat gs with [] => None | l => Some (stat l) end.
Proof.
  destruct gs as [|g gs]; [reflexivity|]. intros H. cbn [merged concat].
  assert (E : fold_left (fun s ps => s_merge s (stat ps)) gs (stat g) = stat (g ++ concat gs)).
  { rewrite fold_left_app. generalize (stat g). clear H. induction gs as [|g' gs IH]; intros s; [reflexivity|].
    cbn [fold_left concat]. rewrite IH, merge_batch, fold_left_app. reflexivity. }
  rewrite E. specialize (H g (or_introl eq_refl)). destruct g; [contradiction|]. reflexivity.
Qed.

Lemma occ_local (density : S -> list Q -> Q) (occupancy : M -> occ A S -> Q) (model : M) (ops : list gop) (q : list Q) :
  all_in_reach geo c h true ops -> rays_in_reach ray c ops -> in_reach c h 0 q -> covered c h q = true ->
  let pts := inserted geo c h true ops in
  let misses := fun k => total zero plus (cell_misses geo sta c amount ray weighted ops k (cell_of h k q)) in
  let f := fun k => match filter (same_cell h k q) pts with
                    | [] => 0
                    | l => density (stat l) q * occupancy model (Build_occ (misses k) (Some (stat l)))
                    end%Q in
  exists m s t, occ_run geo sta c zero plus amount s_merge ray order weighted ops (new_map c) = Ok m /\
    occ_sampleNonNormalized c (/ h) hits density occupancy m q (Some model) = Ok s /\
    occ_sampleNonNormalizedBilinear c (/ h) hits density occupancy m q (Some model) = Ok t /\
    ((s == mean_score (dimc c) f /\ t == tent_score (dimc c) h q f)%Q \/ (s == 0 /\ t == 0)%Q) /\
    (existsb (same_bundle h q) pts = true -> (s == mean_score (dimc c) f /\ t == tent_score (dimc c) h q f)%Q) /\
    (only_inserts ops -> existsb (same_bundle h q) pts = false ->
     (forall o xs a, In (GInsert o xs) ops -> ~ In (floors h q, a) (scan_misses geo sta c amount ray weighted o xs)) ->
     (s == 0 /\ t == 0)%Q).
Proof.
  intros HA HRay HR HC pts misses f.
  pose proof (reach_occ_fits ops HA HRay) as Hf. pose proof (reach_inserts geo c h true ops HA) as HI.
  pose proof (scan_inserted geo c h Hh Hloc ops _ (expands_pos ops) HI) as EP. fold pts in EP.
  assert (HL : forall p, In p pts -> length p = length q).
  { intros p Hp. destruct HR as [HLq _]. rewrite HLq. eapply inserted_length; [exact HI|exact Hp]. }
  destruct (point_usable c h Hh q HR HC) as [Eb Hu].
  destruct (occ_history geo sta c Hc zero plus amount s_merge ray order plus_zero plus_comm plus_assoc order_perm weighted Hdefault ops Hf)
    as [m [E HV]].
  destruct (OpHist.run_from_new c Hc (occ_step geo sta c zero plus amount s_merge ray order weighted)
    (occ_acts geo sta c zero plus amount s_merge ray order weighted) (occ_opfits geo c ray)
    (occ_step_acts geo sta c Hc zero plus amount s_merge ray order weighted)
    (occ_acts_fit geo sta c Hc zero plus amount s_merge ray order order_perm weighted)
    (occ_opfits_le geo c ray) ops) as [Hfits ER].
  { rewrite (occ_expansions geo sta c zero plus amount s_merge ray order weighted). unfold occ_fits in Hf. revert Hf.
    apply Forall_impl. intros [o xs|b|] H; exact H. }
  assert (EA : cact_all c (flat_map (occ_acts geo sta c zero plus amount s_merge ray order weighted) ops) (new_map c) = Ok m)
    by (rewrite <- ER; exact E).
  destruct (local_scores c Hc h Hh (occ_contribution hits density occupancy model) _ m q
    (fun k => Build_occ (misses k) (match filter (same_cell h k q) pts with [] => None | l => Some (stat l) end)) Hfits EA HR HC)
    as [s [t [Es [Et Hst]]]].
  { intros k d Hk Ed. destruct (HV k (cell_of h k q)) as [o [Eo Ho]].
    { rewrite <- cell_of_floors. apply (cell_of_usable c); assumption. }
    rewrite Ed in Eo. injection Eo as <-. destruct Ho as [H1 H2]. destruct d as [dm dh]. cbn [missed hits] in H1, H2.
    rewrite H1, H2. f_equal. rewrite merged_flat by apply hit_groups_nonempty.
    assert (HP : Permutation (concat (cell_hits geo c ops k (cell_of h k q))) (filter (same_cell h k q) pts)).
    { rewrite hits_points, EP, (points_of_cell h pts k q HL). apply Permutation_refl. }
    revert HP. generalize (concat (cell_hits geo c ops k (cell_of h k q))), (filter (same_cell h k q) pts). intros a b HP.
    destruct a as [|x a]; [apply Permutation_nil in HP; subst b; reflexivity|].
    destruct b as [|y b]; [apply Permutation_sym, Permutation_nil in HP; discriminate|].
    f_equal. apply fold_comm_perm; assumption. }
  assert (EF : forall k, occ_contribution hits density occupancy model
    (Build_occ (misses k) (match filter (same_cell h k q) pts with [] => None | l => Some (stat l) end)) q = f k).
  { intros k. unfold occ_contribution, f. cbn [hits]. destruct (filter (same_cell h k q) pts); reflexivity. }
  assert (E1 : (mean_score (dimc c) (fun k => occ_contribution hits density occupancy model
    (Build_occ (misses k) (match filter (same_cell h k q) pts with [] => None | l => Some (stat l) end)) q) == mean_score (dimc c) f)%Q).
  { unfold mean_score. apply Qmult_comp; [|reflexivity]. apply qsum_ext. intros k _. rewrite EF. reflexivity. }
  assert (E2 : (tent_score (dimc c) h q (fun k => occ_contribution hits density occupancy model
    (Build_occ (misses k) (match filter (same_cell h k q) pts with [] => None | l => Some (stat l) end)) q) == tent_score (dimc c) h q f)%Q).
  { unfold tent_score. apply qsum_ext. intros k _. rewrite EF. reflexivity. }
  destruct (run_spec c Hc _ Hfits) as [m' [E' [HInv [_ [_ [Hn Ho]]]]]]. rewrite EA in E'. injection E' as <-.
  exists m, s, t. split; [exact E|]. split; [exact Es|]. split; [exact Et|]. rewrite E1, E2 in Hst.
  assert (Hbd : cbdom c (cshape c (new_map c)) (floors h q)) by (apply (usable_bdom c Hc 0); [lia|exact Hu]).
  rewrite (cbundle_spec c Hc m _ HInv Hu) in Hst. split; [|split].
  - destruct Hst as [[_ H]|[_ H]]; [right|left]; exact H.
  - intros Hex. destruct Hst as [[Hno _]|[_ H]]; [exfalso|exact H].
    apply (existsb_bundle h pts q HL) in Hex. destruct Hex as [p Hin]. rewrite <- EP in Hin.
    unfold scan_points in Hin. apply in_flat_map in Hin. destruct Hin as [op [Hop Hin]].
    destruct op as [o xs|b|]; [|destruct Hin|destruct Hin].
    assert (HK : In (floors h q) (map fst (groups (accepted geo c true o xs)))) by (rewrite groups_keys; apply keys_in; eauto).
    apply in_map_iff in HK. destruct HK as [[b ps] [Ek Hg]]. cbn [fst] in Ek.
    apply (Hn (floors h q) (Modify b (update_occupied s_merge (stat ps)))); [|exact Hbd|symmetry; exact Ek|congruence].
    apply in_flat_map. exists (GInsert o xs). split; [exact Hop|]. cbn [occ_acts]. apply in_or_app. left.
    apply in_map_iff. exists (b, ps). split; [reflexivity|exact Hg].
  - intros Honly Hex Hmiss. destruct Hst as [[_ H]|[Hyes _]]; [exact H|exfalso].
    destruct (Ho (floors h q) Hbd) as [a [Ha Hna]].
    + intros H. apply in_flat_map in H. destruct H as [op [Hop H]]. unfold only_inserts in Honly. rewrite Forall_forall in Honly.
      specialize (Honly op Hop). destruct op as [o xs|b|]; try contradiction. cbn [occ_acts] in H.
      apply in_app_or in H. destruct H as [H|H]; apply in_map_iff in H; destruct H as [x [Hx _]]; discriminate.
    + congruence.
    + apply in_flat_map in Ha. destruct Ha as [op [Hop Ha]]. unfold only_inserts in Honly. rewrite Forall_forall in Honly.
      specialize (Honly op Hop). destruct op as [o xs|b|]; try contradiction. cbn [occ_acts] in Ha.
      apply in_app_or in Ha. destruct Ha as [Ha|Ha]; apply in_map_iff in Ha; destruct Ha as [[b ps] [<- Hg]]; cbn [names fst] in Hna; subst b.
      * assert (T : existsb (same_bundle h q) pts = true); [|congruence].
        apply (existsb_bundle h pts q HL). rewrite <- EP.
        assert (HK : In (floors h q) (keys (accepted geo c true o xs))).
        { rewrite <- groups_keys. apply (in_map fst) in Hg. exact Hg. }
        apply keys_in in HK. destruct HK as [p Hp]. exists p. apply in_flat_map. exists (GInsert o xs). split; [exact Hop|exact Hp].
      * unfold freed in Hg. apply (Permutation_in _ (order_perm _)) in Hg.
        assert (Hg' : In (floors h q, ps) (add_all zero plus (visits sta c amount ray o (ends geo c o xs)) []) /\
                      negb (weighted && existsb (fun g => idx_eqb (fst g) (floors h q)) (ends geo c o xs)) = true).
        { destruct weighted; [|split; [exact Hg|reflexivity]]. apply filter_In in Hg. exact Hg. }
        destruct Hg' as [Hg1 Hg2]. apply add_all_in in Hg1. destruct Hg1 as [[a' Hg1]|[a' []]].
        apply (Hmiss o xs a' Hop). unfold scan_misses. apply filter_In. split; [exact Hg1|exact Hg2].
Qed.
End Occ.

(** C85: the colours of the coloured point cloud. *)
From Coq Require Import Reals Lra.
From Verif Require Import Base IndexModel OctreeSpec MapModel SysModel SysSpec CloudModel CloudSpec CloudSamples
  Prop_Cloud RgbModel RgbFacts.
Open Scope Z_scope.

(** C85, what holds, for every transform: the cloud has one opaque point for each cell with hits and enough
    occupancy, at the transformed mean; the colour scale is asked for the height of this point, in a range
    that is the same for all points, covers all their heights, and begins and ends at the height of a point.
    The range is not empty iff two points differ in height. Heights are numbers of the type ([bottom], [top]). *)
Theorem C85_colours_partial {D P M : Type} (c : config P) (top bottom : R) (mean : D -> nat -> R)
  (origin : (nat -> R) -> nat -> R) (inner : P -> option D) (occupancy : M -> P -> R)
  (ivm : M) (threshold : R) (allocate_all : bool) (l : list (map_action (P:=P))) :
  config_ok c -> inner (defaultc c) = None -> fits c (history allocate_all l) ->
  (forall k d, inner (after c l k) = Some d -> (bottom <= origin (mean d) 2%nat <= top)%R) ->
  exists m m' out keys, cact_all c l (new_map c) = Ok m /\
    rgb_from top bottom c mean origin inner occupancy (Some ivm) threshold allocate_all m = Ok (m', out) /\
    NoDup keys /\
    (forall i j, In (i, j) keys <-> cell_exists c i j /\ inner (after c l (i, j)) <> None /\
                                    (threshold <= occupancy ivm (after c l (i, j)))%R) /\
    Forall2 (fun e k => exists d, inner (after c l k) = Some d /\ position e = origin (mean d) /\
               scale_at e = origin (mean d) 2%nat /\ opacity e = 1%R) out keys /\
    (forall e e', In e out -> In e' out -> scale_from e = scale_from e' /\ scale_to e = scale_to e') /\
    (forall e, In e out -> (scale_from e <= scale_at e <= scale_to e)%R /\
       (exists low, In low out /\ scale_at low = scale_from e) /\ (exists high, In high out /\ scale_at high = scale_to e) /\
       ((scale_from e < scale_to e)%R <-> exists a b, In a out /\ In b out /\ scale_at a <> scale_at b)).
Proof. exact (rgb_colours c top bottom mean origin inner occupancy ivm threshold allocate_all l). Qed.
Print Assumptions C85_colours_partial.

(** Two posts: 2 hits at the bottom, 5 hits further up. The mean of [n] hits is at height [n] - 1. *)
Definition two_posts : list (map_action (P := nat * nat)) :=
  [Modify [0; 0; 0] (fun d => (fst d + 2, snd d)%nat); Modify [0; 0; 8] (fun d => (fst d + 5, snd d)%nat)].
Definition post_hits (d : nat * nat) : option nat := match fst d with O => None | S n => Some n end.
Definition post_mean (n : nat) (a : nat) : R := INR n.
Definition post_occupancy (ivm : unit) (d : nat * nat) : R := (if (fst d <? snd d)%nat then 1 / 4 else 3 / 4)%R.

Lemma two_posts_hits (k : nat * idx) (d : nat) : post_hits (after occ3 two_posts k) = Some d -> (d <= 7)%nat.
Proof.
  unfold after, two_posts. cbn [changes]. intros H. repeat (destruct (idx_eqb _ _) in H); cbn in H;
  first [discriminate H | assert (E := f_equal (fun o => match o with Some n => n | None => O end) H); cbn in E; lia].
Qed.
Example C85_example :
  config_ok occ3 /\ post_hits (defaultc occ3) = None /\ (forall b, fits occ3 (history b two_posts)) /\
  (forall k d, post_hits (after occ3 two_posts k) = Some d -> (-100 <= post_mean d 2 <= 100)%R) /\
  cell_exists occ3 0 [0; 0; 0] /\ cell_exists occ3 0 [0; 0; 4] /\
  post_hits (after occ3 two_posts (0%nat, [0; 0; 0]%Z)) = Some 1%nat /\
  post_hits (after occ3 two_posts (0%nat, [0; 0; 4]%Z)) = Some 4%nat /\
  (1 / 2 <= post_occupancy tt (after occ3 two_posts (0%nat, [0; 0; 0]%Z)))%R /\
  (1 / 2 <= post_occupancy tt (after occ3 two_posts (0%nat, [0; 0; 4]%Z)))%R.
Proof.
  split; [exact occ3_ok|]. split; [reflexivity|]. split.
  { intros b. destruct b; unfold fits; cbn [history two_posts app expansions];
    repeat (first [apply Forall_nil | apply Forall_cons]); cbn; unfold usable; cbn; try exact I;
    split; try reflexivity; repeat constructor; cbn; lia. }
  split.
  { intros k d H. apply two_posts_hits in H. unfold post_mean. pose proof (pos_INR d). apply le_INR in H. cbn in H. lra. }
  split; [split; [cbn; lia|split; [reflexivity|repeat constructor; lia]]|].
  split; [split; [cbn; lia|split; [reflexivity|repeat constructor; lia]]|].
  split; [reflexivity|]. split; [reflexivity|]. split; cbn; lra.
Qed.

(** C85, full statement: the range of the colour scale is not empty. False: if all points have one height,
    as those of a map with a single hit bundle here, the scale is asked for a range of length 0. *)
Theorem C85_flat_refuted :
  exists (l : list (map_action (P := nat * nat))) m m' out,
    fits occ3 (history false l) /\ cact_all occ3 l (new_map occ3) = Ok m /\
    rgb_from 100 (-100) occ3 post_mean (fun p => p) post_hits post_occupancy (Some tt) (1 / 2) false m = Ok (m', out) /\
    out <> [] /\ forall e, In e out -> scale_from e = scale_to e.
Proof.
  exists hits_and_misses.
  assert (Hh : forall k d, post_hits (after occ3 hits_and_misses k) = Some d -> d = 1%nat).
  { intros k d. unfold after, hits_and_misses. cbn [changes]. intros H. repeat (destruct (idx_eqb _ _) in H); cbn in H;
    first [discriminate H | assert (E := f_equal (fun o => match o with Some n => n | None => O end) H); cbn in E; lia]. }
  destruct (C85_colours_partial occ3 100 (-100) post_mean (fun p => p) post_hits post_occupancy tt (1 / 2) false hits_and_misses
    occ3_ok eq_refl (hits_and_misses_fit false)) as [m [m' [out [keys [A [B [_ [K [F [_ S]]]]]]]]]].
  { intros k d H. rewrite (Hh k d H). unfold post_mean. cbn. lra. }
  exists m, m', out. split; [exact (hits_and_misses_fit false)|]. split; [exact A|]. split; [exact B|].
  assert (HK : In (0%nat, [0; 0; 0]) keys).
  { apply K. split; [split; [cbn; lia|split; [reflexivity|repeat constructor; lia]]|]. split; [discriminate|].
    unfold post_occupancy. cbn. lra. }
  assert (Hone : forall e, In e out -> scale_at e = 1%R).
  { intros e He. destruct (forall2_in _ _ _ _ F He) as [k [_ [d [E [_ [Ea _]]]]]]. rewrite Ea. unfold post_mean.
    rewrite (Hh k d E). reflexivity. }
  split; [intros ->; inversion F; subst; destruct HK|].
  intros e He. destruct (S e He) as [R1 [[a [Ha Ea]] [[b [Hb Eb]] _]]]. rewrite <- Ea, <- Eb, (Hone a Ha), (Hone b Hb). reflexivity.
Qed.
Print Assumptions C85_flat_refuted.

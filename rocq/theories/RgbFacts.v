(** The range of heights of a coloured cloud. *)
From Coq Require Import Reals Lra.
From Verif Require Import Base IndexModel OctreeSpec MapModel SysModel SysSpec CloudModel CloudSpec Prop_Cloud RgbModel.
Open Scope R_scope.

Lemma least_from (cloud : list (nat -> R)) (d : nat) : forall a,
  let r := fold_left (fun a p => Rmin a (p d)) cloud a in
  r <= a /\ (forall p, In p cloud -> r <= p d) /\ (r = a \/ exists p, In p cloud /\ r = p d).
Proof.
  induction cloud as [|p cloud IH]; intros a.
  - cbn. split; [lra|]. split; [intros ? []|]. left; reflexivity.
  - cbn [fold_left]. destruct (IH (Rmin a (p d))) as [A [B C]]. cbv zeta in *.
    pose proof (Rmin_l a (p d)). pose proof (Rmin_r a (p d)).
    split; [lra|]. split.
    + intros q [<-|H1]; [lra|apply B; exact H1].
    + destruct C as [C|[q [H1 H2]]]; [|right; exists q; split; [right; exact H1|exact H2]].
      rewrite C. unfold Rmin. destruct (Rle_dec a (p d)); [left; reflexivity|right].
      exists p. split; [left; reflexivity|reflexivity].
Qed.
Lemma greatest_from (cloud : list (nat -> R)) (d : nat) : forall a,
  let r := fold_left (fun a p => Rmax a (p d)) cloud a in
  a <= r /\ (forall p, In p cloud -> p d <= r) /\ (r = a \/ exists p, In p cloud /\ r = p d).
Proof.
  induction cloud as [|p cloud IH]; intros a.
  - cbn. split; [lra|]. split; [intros ? []|]. left; reflexivity.
  - cbn [fold_left]. destruct (IH (Rmax a (p d))) as [A [B C]]. cbv zeta in *.
    pose proof (Rmax_l a (p d)). pose proof (Rmax_r a (p d)).
    split; [lra|]. split.
    + intros q [<-|H1]; [lra|apply B; exact H1].
    + destruct C as [C|[q [H1 H2]]]; [|right; exists q; split; [right; exact H1|exact H2]].
      rewrite C. unfold Rmax. destruct (Rle_dec a (p d)); [right|left; reflexivity].
      exists p. split; [left; reflexivity|reflexivity].
Qed.

Lemma cloud_min_spec (top : R) (cloud : list (nat -> R)) (d : nat) : cloud <> [] ->
  (forall p, In p cloud -> p d <= top) ->
  (forall p, In p cloud -> cloud_min top cloud d <= p d) /\ exists p, In p cloud /\ cloud_min top cloud d = p d.
Proof.
  intros Hne Ht. destruct (least_from cloud d top) as [A [B C]]. split; [exact B|].
  destruct C as [C|C]; [|exact C]. destruct cloud as [|p cloud]; [congruence|]. exists p. split; [left; reflexivity|].
  specialize (B p (or_introl eq_refl)). specialize (Ht p (or_introl eq_refl)). unfold cloud_min in *. lra.
Qed.
Lemma cloud_max_spec (bottom : R) (cloud : list (nat -> R)) (d : nat) : cloud <> [] ->
  (forall p, In p cloud -> bottom <= p d) ->
  (forall p, In p cloud -> p d <= cloud_max bottom cloud d) /\ exists p, In p cloud /\ cloud_max bottom cloud d = p d.
Proof.
  intros Hne Ht. destruct (greatest_from cloud d bottom) as [A [B C]]. split; [exact B|].
  destruct C as [C|C]; [|exact C]. destruct cloud as [|p cloud]; [congruence|]. exists p. split; [left; reflexivity|].
  specialize (B p (or_introl eq_refl)). specialize (Ht p (or_introl eq_refl)). unfold cloud_max in *. lra.
Qed.

Lemma forall2_in {A B : Type} (Q : A -> B -> Prop) (l : list A) (l' : list B) (x : A) :
  Forall2 Q l l' -> In x l -> exists y, In y l' /\ Q x y.
Proof.
  induction 1 as [|a b l l' H _ IH]; [intros []|]. intros [<-|Hx]; [exists b; split; [left; reflexivity|exact H]|].
  destruct (IH Hx) as [y [H1 H2]]. exists y. split; [right; exact H1|exact H2].
Qed.
Open Scope Z_scope.

Lemma rgb_colours {D P M : Type} (c : config P) (top bottom : R) (mean : D -> nat -> R)
  (origin : (nat -> R) -> nat -> R) (inner : P -> option D) (occupancy : M -> P -> R)
  (ivm : M) (threshold : R) (allocate_all : bool) (l : list (map_action (P:=P))) :
  config_ok c -> inner (defaultc c) = None -> fits c (history allocate_all l) ->
  (forall k d, inner (after c l k) = Some d -> (bottom <= origin (mean d) 2%nat <= top)%R) ->
  exists m m' out keys, cact_all c l (new_map c) = Ok m /\
    rgb_from top bottom c mean origin inner occupancy (Some ivm) threshold allocate_all m = Ok (m', out) /\
    NoDup keys /\
    (forall i j, In (i, j) keys <-> cell_exists c i j /\ inner (after c l (i, j)) <> None /\
                                    (threshold <= occupancy ivm (after c l (i, j)))%R) /\
    Forall2 (fun e k => exists d, inner (after c l k) = Some d /\ position e = origin (mean d) /\
               scale_at e = origin (mean d) 2%nat /\ opacity e = 1%R) out keys /\
    (forall e e', In e out -> In e' out -> scale_from e = scale_from e' /\ scale_to e = scale_to e') /\
    (forall e, In e out -> (scale_from e <= scale_at e <= scale_to e)%R /\
       (exists low, In low out /\ scale_at low = scale_from e) /\ (exists high, In high out /\ scale_at high = scale_to e) /\
       ((scale_from e < scale_to e)%R <-> exists a b, In a out /\ In b out /\ scale_at a <> scale_at b)).
Proof.
  intros Hc Hd Hf Hh.
  destruct (C65_rgb c mean origin inner occupancy ivm threshold allocate_all l Hc Hd Hf)
    as [m [m' [cloud [keys [A [B [C [K [F _]]]]]]]]].
  set (lo := cloud_min top cloud 2). set (hi := cloud_max bottom cloud 2).
  exists m, m', (map (color_transform lo hi) cloud), keys.
  split; [exact A|]. split; [unfold rgb_from; rewrite B; reflexivity|]. split; [exact C|]. split; [exact K|].
  assert (Hin : forall p, In p cloud -> (bottom <= p 2%nat <= top)%R).
  { intros p Hp. destruct (forall2_in _ _ _ _ F Hp) as [k [_ [d [E ->]]]]. exact (Hh k d E). }
  split; [|split].
  - clearbody lo hi. clear -F. induction F as [|p k cloud keys [d [E ->]] _ IH]; [constructor|]. cbn [map]. constructor; [|exact IH].
    exists d. repeat split. exact E.
  - intros e e' He He'. apply in_map_iff in He, He'. destruct He as [p [<- _]], He' as [p' [<- _]]. split; reflexivity.
  - intros e He. apply in_map_iff in He. destruct He as [p [<- Hp]].
    assert (Hne : cloud <> []) by (intros ->; destruct Hp).
    destruct (cloud_min_spec top cloud 2 Hne (fun q Hq => proj2 (Hin q Hq))) as [L1 [pl [L2 L3]]].
    destruct (cloud_max_spec bottom cloud 2 Hne (fun q Hq => proj1 (Hin q Hq))) as [H1 [ph [H2 H3]]].
    fold lo in L1, L3. fold hi in H1, H3. cbn [color_transform scale_from scale_at scale_to].
    split; [split; [apply L1|apply H1]; exact Hp|].
    split; [exists (color_transform lo hi pl); split; [apply in_map; exact L2|symmetry; exact L3]|].
    split; [exists (color_transform lo hi ph); split; [apply in_map; exact H2|symmetry; exact H3]|].
    split.
    + intros Hlt. exists (color_transform lo hi pl), (color_transform lo hi ph).
      split; [apply in_map; exact L2|]. split; [apply in_map; exact H2|]. cbn [scale_at color_transform]. lra.
    + intros [a [b [Ha [Hb Hab]]]]. apply in_map_iff in Ha, Hb. destruct Ha as [pa [<- Ha]], Hb as [pb [<- Hb]].
      cbn [scale_at color_transform] in Hab. pose proof (L1 pa Ha). pose proof (L1 pb Hb). pose proof (H1 pa Ha). pose proof (H1 pb Hb). lra.
Qed.

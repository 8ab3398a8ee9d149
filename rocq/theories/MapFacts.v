(** Facts about the map model for any lawful storage backend. *)
From Verif Require Import Base SeqModel SeqFacts IndexModel IndexFacts MapModel.
Open Scope Z_scope.

(** A storage is lawful if, on the indices its shape allows, it is a finite map. *)
Record blaws {V : Type} (merge : V -> V -> V) (B : backend V) : Type := {
  shape_t : Type;
  shape : st B -> shape_t;
  dom : shape_t -> idx -> Prop;
  bwf : st B -> Prop;
  l_get : forall s i, bwf s -> dom (shape s) i -> exists o, bget B s i = Ok o;
  l_ins : forall s i v o, bwf s -> dom (shape s) i -> bget B s i = Ok o ->
    exists s', bins B s i v = Ok s' /\ bwf s' /\ shape s' = shape s /\
      forall j, dom (shape s) j ->
        bget B s' j = if idx_eqb i j then Ok (Some (match o with None => v | Some w => merge w v end))
                      else bget B s j;
  l_mod : forall s i f v, bwf s -> dom (shape s) i -> bget B s i = Ok (Some v) ->
    exists s', bmod B s i f = Ok s' /\ bwf s' /\ shape s' = shape s /\
      forall j, dom (shape s) j ->
        bget B s' j = if idx_eqb i j then Ok (Some (f v)) else bget B s j;
  l_trav : forall s, bwf s -> exists es, btrav B s = Ok es /\ NoDup (map fst es) /\
      forall i v, In (i, v) es <-> dom (shape s) i /\ bget B s i = Ok (Some v)
}.
Arguments shape_t {V merge B} b.
Arguments shape {V merge B} b s.
Arguments dom {V merge B} b sh i.
Arguments bwf {V merge B} b s.
Arguments l_get {V merge B} b.
Arguments l_ins {V merge B} b.
Arguments l_mod {V merge B} b.
Arguments l_trav {V merge B} b.

Section Facts.
Context {P : Type}.
Variable default : P.
Variable mergeP : P -> P -> P.
Variable mergeB : bundle -> bundle -> bundle.
Variable bd : backend P.
Variable bb : backend bundle.
Variable ld : blaws mergeP bd.
Variable lb : blaws mergeB bb.
Variable dim : nat.
Variable kd : kind.
Variable amin amax : idx -> idx -> idx.

Notation map_t := (ndmap bd bb).
Notation bins_n := (bin_count dim).
Notation gen := generate_index.

Definition mshape (m : map_t) : list (shape_t ld) * shape_t lb :=
  (map (shape ld) (stores m), shape lb (bundles m)).
Definition ddom (sh : list (shape_t ld) * shape_t lb) (i : nat) (j : idx) : Prop :=
  match nth_error (fst sh) i with Some x => dom ld x j | None => False end.
Definition bdom (sh : list (shape_t ld) * shape_t lb) (bi : idx) : Prop := dom lb (snd sh) bi.

Definition dget (m : map_t) (i : nat) (j : idx) : option P :=
  match nth_error (stores m) i with
  | Some s => match bget bd s j with Ok o => o | _ => None end
  | None => None
  end.
Definition bget' (m : map_t) (bi : idx) : option bundle :=
  match bget bb (bundles m) bi with Ok o => o | _ => None end.

Definition mwf (m : map_t) : Prop :=
  length (stores m) = bins_n /\ Forall (bwf ld) (stores m) /\ bwf lb (bundles m).

(** An index all of whose storage locations exist. *)
Definition okidx (sh : list (shape_t ld) * shape_t lb) (bi : idx) : Prop :=
  length bi = dim /\ bdom sh bi /\ forall i, (i < bins_n)%nat -> ddom sh i (gen bi i).

Definition full_slots (bi : idx) : list (option idx) := map (fun i => Some (gen bi i)) (seq 0 bins_n).

Definition Inv (m : map_t) : Prop :=
  mwf m /\
  (forall bi b, bdom (mshape m) bi -> bget' m bi = Some b ->
     okidx (mshape m) bi /\ slots b = full_slots bi /\
     forall i, (i < bins_n)%nat -> exists d, dget m i (gen bi i) = Some d).

Lemma store_at (m : map_t) (i : nat) (j : idx) :
  mwf m -> ddom (mshape m) i j ->
  exists s, nth_error (stores m) i = Some s /\ bwf ld s /\ dom ld (shape ld s) j /\
            bget bd s j = Ok (dget m i j).
Proof.
  intros [HL [HF HB]] Hd. unfold ddom, mshape in Hd. cbn [fst] in Hd.
  rewrite nth_error_map in Hd. unfold dget.
  destruct (nth_error (stores m) i) as [s|] eqn:E; cbn [option_map] in Hd; [|contradiction].
  exists s. split; [reflexivity|].
  assert (Hwf : bwf ld s) by (rewrite Forall_forall in HF; apply HF; eapply nth_error_In; exact E).
  split; [exact Hwf|]. split; [exact Hd|].
  destruct (l_get ld s j Hwf Hd) as [o Ho]. rewrite Ho. reflexivity.
Qed.

Lemma bundle_at (m : map_t) (bi : idx) :
  mwf m -> bdom (mshape m) bi -> bget bb (bundles m) bi = Ok (bget' m bi).
Proof.
  intros [_ [_ HB]] Hd. unfold bget'. destruct (l_get lb _ bi HB Hd) as [o Ho]. rewrite Ho. reflexivity.
Qed.

(** [m'] is [m] with storage [i] holding [v] at [j]. *)
Definition set_d (m m' : map_t) (i : nat) (j : idx) (v : P) : Prop :=
  mwf m' /\ mshape m' = mshape m /\ bundles m' = bundles m /\
  min_bi m' = min_bi m /\ max_bi m' = max_bi m /\
  (forall i' j', ddom (mshape m) i' j' ->
     dget m' i' j' = if Nat.eqb i i' && idx_eqb j j' then Some v else dget m i' j').

Lemma map_upd_same {A B : Type} (f : A -> B) (l l' : list A) (i : nat) (x y : A) :
  nth_error l i = Some x -> f y = f x -> upd l i y = Some l' -> map f l' = map f l.
Proof.
  revert i l'; induction l as [|a l IH]; intros i l' Hx Hf Hu; [destruct i; discriminate|].
  destruct i as [|i]; cbn [upd nth_error] in *.
  - injection Hx as ->. injection Hu as <-. cbn [map]. congruence.
  - destruct (upd l i y) as [l0|] eqn:E; [|discriminate]. injection Hu as <-.
    cbn [map]. f_equal. eapply IH; eassumption.
Qed.

Lemma Forall_upd {A : Type} (Q : A -> Prop) (l l' : list A) (i : nat) (y : A) :
  Forall Q l -> Q y -> upd l i y = Some l' -> Forall Q l'.
Proof.
  revert i l'; induction l as [|a l IH]; intros i l' HF Hy Hu; [discriminate|].
  inversion HF as [|? ? Ha Hl]; subst. destruct i as [|i]; cbn [upd] in Hu.
  - injection Hu as <-. constructor; assumption.
  - destruct (upd l i y) as [l0|] eqn:E; [|discriminate]. injection Hu as <-.
    constructor; [exact Ha|]. eapply IH; eassumption.
Qed.

Lemma set_store_spec (m : map_t) (i : nat) (j : idx) (s s' : st bd) (v : P) :
  mwf m -> nth_error (stores m) i = Some s -> bwf ld s' -> shape ld s' = shape ld s ->
  (forall j', dom ld (shape ld s) j' -> bget bd s' j' = if idx_eqb j j' then Ok (Some v) else bget bd s j') ->
  exists m', set_store bd bb m i s' = Ok m' /\ set_d m m' i j v.
Proof.
  intros Hwf Hs Hs' Hsh Hg. unfold set_store.
  assert (Hi : (i < length (stores m))%nat) by (apply nth_error_Some; congruence).
  destruct (upd_some (stores m) i s' Hi) as [l' Hu]. rewrite Hu.
  eexists; split; [reflexivity|].
  destruct Hwf as [HL [HF HB]].
  assert (Hms : map (shape ld) l' = map (shape ld) (stores m)) by (eapply map_upd_same; eassumption).
  split; [|split; [|split; [reflexivity|split; [reflexivity|split; [reflexivity|]]]]].
  - split; [cbn [stores]; rewrite (upd_length _ _ _ _ Hu); exact HL|].
    split; [|exact HB]. cbn [stores]. eapply Forall_upd; eassumption.
  - unfold mshape. cbn [stores bundles]. rewrite Hms. reflexivity.
  - intros i' j' Hd. unfold dget. cbn [stores]. rewrite (upd_nth_error _ _ _ _ _ Hu).
    destruct (Nat.eqb_spec i i') as [<-|Hne]; cbn [andb]; [|reflexivity].
    unfold ddom, mshape in Hd. cbn [fst] in Hd. rewrite nth_error_map, Hs in Hd. cbn [option_map] in Hd.
    rewrite (Hg j' Hd), Hs. destruct (idx_eqb j j'); reflexivity.
Qed.

(** [getAllocate<distribution_t>] on storage [i]. *)
Lemma alloc_dist_spec (m : map_t) (i : nat) (j : idx) :
  mwf m -> ddom (mshape m) i j ->
  exists s s' m', get_store bd bb m i = Ok s /\ alloc_dist default bd s j = Ok s' /\
    set_store bd bb m i s' = Ok m' /\
    set_d m m' i j (match dget m i j with Some d => d | None => default end).
Proof.
  intros Hwf Hd. destruct (store_at m i j Hwf Hd) as [s [Hs [Hsw [Hsd Hg]]]].
  exists s. unfold get_store. rewrite Hs. unfold alloc_dist. rewrite Hg. cbn [obind].
  destruct (dget m i j) as [d|] eqn:E.
  - exists s. destruct (set_store_spec m i j s s d Hwf Hs Hsw eq_refl) as [m' [H1 H2]].
    + intros j' Hj'. destruct (idx_eqb_spec j j') as [<-|]; [exact Hg|reflexivity].
    + exists m'. auto.
  - destruct (l_ins ld s j default None Hsw Hsd Hg) as [s' [Hi [Hw' [Hsh Hg']]]].
    exists s'. destruct (set_store_spec m i j s s' default Hwf Hs Hw' Hsh Hg') as [m' [H1 H2]].
    exists m'. auto.
Qed.

(** [m'] is [m] with bundle [b] at [bi]. *)
Definition set_b (m m' : map_t) (bi : idx) (b : bundle) : Prop :=
  mwf m' /\ mshape m' = mshape m /\ stores m' = stores m /\
  min_bi m' = min_bi m /\ max_bi m' = max_bi m /\
  (forall bi', bdom (mshape m) bi' ->
     bget' m' bi' = if idx_eqb bi bi' then Some b else bget' m bi').

Lemma set_bundles_spec (m : map_t) (bi : idx) (s' : st bb) (b : bundle) :
  mwf m -> bwf lb s' -> shape lb s' = shape lb (bundles m) ->
  (forall j, dom lb (shape lb (bundles m)) j ->
     bget bb s' j = if idx_eqb bi j then Ok (Some b) else bget bb (bundles m) j) ->
  set_b m (set_bundles bd bb m s') bi b.
Proof.
  intros [HL [HF HB]] Hw Hsh Hg. split; [|split; [|split; [reflexivity|split; [reflexivity|split; [reflexivity|]]]]].
  - split; [exact HL|]. split; [exact HF|exact Hw].
  - unfold mshape. cbn [stores bundles set_bundles]. rewrite Hsh. reflexivity.
  - intros bi' Hd. unfold bget'. cbn [set_bundles bundles]. rewrite (Hg bi' Hd).
    destruct (idx_eqb bi bi'); reflexivity.
Qed.

Lemma bmod_spec (m : map_t) (bi : idx) (f : bundle -> bundle) (b : bundle) :
  mwf m -> bdom (mshape m) bi -> bget' m bi = Some b ->
  exists s', bmod bb (bundles m) bi f = Ok s' /\ set_b m (set_bundles bd bb m s') bi (f b).
Proof.
  intros Hwf Hd Hb. pose proof (bundle_at m bi Hwf Hd) as Hg. rewrite Hb in Hg.
  destruct (l_mod lb (bundles m) bi f b (proj2 (proj2 Hwf)) Hd Hg) as [s' [Hm [Hw [Hsh Hg']]]].
  exists s'. split; [exact Hm|]. apply set_bundles_spec; assumption.
Qed.

Lemma bins_spec (m : map_t) (bi : idx) (b : bundle) :
  mwf m -> bdom (mshape m) bi -> bget' m bi = None ->
  exists s', bins bb (bundles m) bi b = Ok s' /\ set_b m (set_bundles bd bb m s') bi b.
Proof.
  intros Hwf Hd Hb. pose proof (bundle_at m bi Hwf Hd) as Hg. rewrite Hb in Hg.
  destruct (l_ins lb (bundles m) bi b None (proj2 (proj2 Hwf)) Hd Hg) as [s' [Hm [Hw [Hsh Hg']]]].
  exists s'. split; [exact Hm|]. apply set_bundles_spec; assumption.
Qed.

Lemma dget_stores (m m' : map_t) (i : nat) (j : idx) : stores m' = stores m -> dget m' i j = dget m i j.
Proof. intros H. unfold dget. rewrite H. reflexivity. Qed.
Lemma bget_bundles (m m' : map_t) (bi : idx) : bundles m' = bundles m -> bget' m' bi = bget' m bi.
Proof. intros H. unfold bget'. rewrite H. reflexivity. Qed.

Lemma upd_app_repeat {A : Type} (l : list A) (x y : A) (n : nat) :
  upd (l ++ repeat x (S n)) (length l) y = Some ((l ++ [y]) ++ repeat x n).
Proof.
  induction l as [|a l IH]; [reflexivity|]. cbn [app length upd].
  rewrite IH. reflexivity.
Qed.

(** The allocation loop over the slots [from .. from+fuel-1]. *)
Lemma alloc_loop (bi : idx) (fuel : nat) : forall (from : nat) (m : map_t) (b : bundle),
  mwf m -> bdom (mshape m) bi ->
  (from + fuel = bins_n)%nat ->
  (forall i, (i < bins_n)%nat -> ddom (mshape m) i (gen bi i)) ->
  bget' m bi = Some b ->
  slots b = map (fun i => Some (gen bi i)) (seq 0 from) ++ repeat None fuel ->
  exists m', ofold (alloc_slot default bd bb bi) (apply_indices_from bi from fuel) m = Ok m' /\
    mwf m' /\ mshape m' = mshape m /\ min_bi m' = min_bi m /\ max_bi m' = max_bi m /\
    (forall bi', bdom (mshape m) bi' ->
       bget' m' bi' = if idx_eqb bi bi' then Some {| slots := full_slots bi; expand := expand b |}
                      else bget' m bi') /\
    (forall i j, ddom (mshape m) i j ->
       dget m' i j = if Nat.leb from i && idx_eqb (gen bi i) j
                     then Some (match dget m i j with Some d => d | None => default end)
                     else dget m i j).
Proof.
  induction fuel as [|fuel IH]; intros from m b Hwf Hbd Hn Hdd Hb Hsl; cbn [apply_indices_from ofold].
  - exists m. split; [reflexivity|]. split; [exact Hwf|]. split; [reflexivity|].
    split; [reflexivity|]. split; [reflexivity|]. split.
    + intros bi' Hbi'. destruct (idx_eqb_spec bi bi') as [<-|]; [|reflexivity].
      rewrite Hb. f_equal. destruct b as [sl ex]. cbn [slots expand] in *. f_equal.
      rewrite Hsl. cbn [repeat]. rewrite app_nil_r. unfold full_slots. f_equal. f_equal. lia.
    + intros i j Hij. destruct (Nat.leb_spec from i) as [Hle|Hle]; cbn [andb]; [|reflexivity].
      exfalso. unfold ddom in Hij. destruct (nth_error (fst (mshape m)) i) eqn:E; [|contradiction].
      assert (Hi : (i < length (fst (mshape m)))%nat) by (apply nth_error_Some; congruence).
      unfold mshape in Hi. cbn [fst] in Hi. rewrite map_length in Hi. destruct Hwf as [HL _]. lia.
  - unfold alloc_slot at 1.
    rewrite (bundle_at m bi Hwf Hbd), Hb. cbn [obind]. rewrite Hsl.
    rewrite nth_error_app2 by (rewrite map_length, seq_length; lia).
    rewrite map_length, seq_length, Nat.sub_diag. cbn [repeat nth_error].
    destruct (alloc_dist_spec m from (gen bi from) Hwf (Hdd from ltac:(lia)))
      as [s [s' [m1 [E1 [E2 [E3 [Hwf1 [Hsh1 [Hbs1 [Hmn1 [Hmx1 Hd1]]]]]]]]]]].
    rewrite E1. cbn [obind]. rewrite E2. cbn [obind]. rewrite E3. cbn [obind].
    assert (Hb1 : bget' m1 bi = Some b) by (rewrite (bget_bundles m m1 bi Hbs1); exact Hb).
    assert (Hbd1 : bdom (mshape m1) bi) by (rewrite Hsh1; exact Hbd).
    destruct (bmod_spec m1 bi (set_slot from (gen bi from)) b Hwf1 Hbd1 Hb1)
      as [bs [E4 [Hwf2 [Hsh2 [Hst2 [Hmn2 [Hmx2 Hb2]]]]]]].
    rewrite E4. cbn [obind].
    set (m2 := set_bundles bd bb m1 bs) in *.
    destruct (IH (S from) m2 (set_slot from (gen bi from) b)) as [m' [E5 [Hwf' [Hsh' [Hmn' [Hmx' [Hb' Hd']]]]]]].
    + exact Hwf2.
    + rewrite Hsh2; exact Hbd1.
    + lia.
    + rewrite Hsh2, Hsh1. exact Hdd.
    + rewrite (Hb2 bi Hbd1), idx_eqb_refl. reflexivity.
    + unfold set_slot. cbn [slots]. rewrite Hsl.
      pose proof (upd_app_repeat (map (fun i => Some (gen bi i)) (seq 0 from)) None (Some (gen bi from)) fuel) as Hu.
      rewrite map_length, seq_length in Hu. rewrite Hu. f_equal.
      rewrite seq_S, map_app. reflexivity.
    + exists m'. split; [exact E5|]. split; [exact Hwf'|].
      split; [congruence|]. split; [congruence|]. split; [congruence|]. split.
      * intros bi' Hbi'. rewrite (Hb' bi') by (rewrite Hsh2, Hsh1; exact Hbi').
        cbn [set_slot expand]. destruct (idx_eqb_spec bi bi') as [<-|Hne]; [reflexivity|].
        rewrite (Hb2 bi') by (rewrite Hsh1; exact Hbi').
        destruct (idx_eqb_spec bi bi') as [|_]; [contradiction|].
        apply bget_bundles; exact Hbs1.
      * intros i j Hij. rewrite (Hd' i j) by (rewrite Hsh2, Hsh1; exact Hij).
        rewrite (dget_stores m1 m2 i j Hst2).
        rewrite (Hd1 i j Hij).
        destruct (Nat.leb_spec (S from) i) as [H1|H1], (Nat.leb_spec from i) as [H2|H2]; try lia; cbn [andb].
        -- destruct (Nat.eqb_spec from i) as [|_]; [lia|]. cbn [andb]. reflexivity.
        -- assert (i = from) as -> by lia. rewrite Nat.eqb_refl. cbn [andb].
           destruct (idx_eqb_spec (gen bi from) j) as [<-|]; reflexivity.
        -- destruct (Nat.eqb_spec from i) as [|_]; [lia|]. reflexivity.
Qed.

(** Effect of [getAllocate]. *)
Definition alloc_effect (m m' : map_t) (bi : idx) : Prop :=
  Inv m' /\ mshape m' = mshape m /\
  (forall bi', bdom (mshape m) bi' ->
     bget' m' bi' =
     if idx_eqb bi bi' then Some (match bget' m bi with
                                  | Some b => b
                                  | None => {| slots := full_slots bi; expand := true |} end)
     else bget' m bi') /\
  (forall i j, ddom (mshape m) i j ->
     dget m' i j = if idx_eqb (gen bi i) j
                   then Some (match dget m i j with Some d => d | None => default end)
                   else dget m i j) /\
  match bget' m bi with
  | Some _ => m' = m
  | None => match kd with
            | Static => min_bi m' = min_bi m /\ max_bi m' = max_bi m
            | Dynamic => min_bi m' = amin (min_bi m) bi /\ max_bi m' = amax (max_bi m) bi
            end
  end.

Lemma ddom_lt (m : map_t) (i : nat) (j : idx) : mwf m -> ddom (mshape m) i j -> (i < bins_n)%nat.
Proof.
  intros [HL _] H. unfold ddom in H. destruct (nth_error (fst (mshape m)) i) eqn:E; [|contradiction].
  assert (Hi : (i < length (fst (mshape m)))%nat) by (apply nth_error_Some; congruence).
  unfold mshape in Hi. cbn [fst] in Hi. rewrite map_length in Hi. lia.
Qed.

Lemma getAllocate_spec (m : map_t) (bi : idx) :
  Inv m -> okidx (mshape m) bi ->
  exists m', getAllocate default bd bb dim kd amin amax m bi = Ok m' /\ alloc_effect m m' bi.
Proof.
  intros [Hwf HI] [Hlen [Hbd Hdd]]. unfold getAllocate.
  rewrite (bundle_at m bi Hwf Hbd). cbn [obind]. unfold alloc_effect.
  destruct (bget' m bi) as [b|] eqn:Eb.
  - exists m. split; [reflexivity|]. split; [split; assumption|]. split; [reflexivity|].
    split; [|split; [|reflexivity]].
    + intros bi' _. destruct (idx_eqb_spec bi bi') as [<-|]; [exact Eb|reflexivity].
    + intros i j Hij. destruct (idx_eqb_spec (gen bi i) j) as [<-|]; [|reflexivity].
      destruct (HI bi b Hbd Eb) as [_ [_ Hex]].
      destruct (Hex i (ddom_lt m i _ Hwf Hij)) as [d Hd]. rewrite Hd. reflexivity.
  - destruct (bins_spec m bi (new_bundle dim) Hwf Hbd Eb) as [s' [E1 [Hwf1 [Hsh1 [Hst1 [Hmn1 [Hmx1 Hb1]]]]]]].
    rewrite E1. cbn [obind]. set (m1 := set_bundles bd bb m s') in *.
    destruct (alloc_loop bi bins_n 0 m1 (new_bundle dim)) as [m' [E2 [Hwf' [Hsh' [Hmn' [Hmx' [Hb' Hd']]]]]]].
    + exact Hwf1.
    + rewrite Hsh1; exact Hbd.
    + reflexivity.
    + rewrite Hsh1; exact Hdd.
    + rewrite (Hb1 bi Hbd), idx_eqb_refl. reflexivity.
    + reflexivity.
    + unfold apply_indices. rewrite E2. cbn [obind].
      set (m2 := updateIndices bd bb kd amin amax m' bi).
      assert (Hst2 : stores m2 = stores m') by (unfold m2, updateIndices; destruct kd; reflexivity).
      assert (Hbs2 : bundles m2 = bundles m') by (unfold m2, updateIndices; destruct kd; reflexivity).
      assert (Hsh2 : mshape m2 = mshape m).
      { transitivity (mshape m'); [unfold mshape; rewrite Hst2, Hbs2; reflexivity|congruence]. }
      assert (Hbf : forall bi', bdom (mshape m) bi' ->
                bget' m2 bi' = if idx_eqb bi bi' then Some {| slots := full_slots bi; expand := true |}
                               else bget' m bi').
      { intros bi' Hbi'. rewrite (bget_bundles m' m2 bi' Hbs2).
        rewrite (Hb' bi') by (rewrite Hsh1; exact Hbi'). cbn [new_bundle expand].
        destruct (idx_eqb_spec bi bi') as [|Hne]; [reflexivity|].
        rewrite (Hb1 bi' Hbi'). destruct (idx_eqb_spec bi bi'); [contradiction|reflexivity]. }
      assert (Hdf : forall i j, ddom (mshape m) i j ->
                dget m2 i j = if idx_eqb (gen bi i) j
                   then Some (match dget m i j with Some d => d | None => default end) else dget m i j).
      { intros i j Hij. rewrite (dget_stores m' m2 i j Hst2).
        rewrite (Hd' i j) by (rewrite Hsh1; exact Hij). cbn [Nat.leb andb].
        rewrite (dget_stores m m1 i j Hst1). reflexivity. }
      exists m2. split; [reflexivity|]. split; [split|split; [exact Hsh2|split; [exact Hbf|split; [exact Hdf|]]]].
      * unfold mwf. rewrite Hst2, Hbs2. exact Hwf'.
      * intros bi' b' Hbi' Hb2. rewrite Hsh2 in Hbi'. rewrite (Hbf bi' Hbi') in Hb2. rewrite Hsh2.
        destruct (idx_eqb_spec bi bi') as [<-|Hne].
        -- injection Hb2 as <-. split; [split; [exact Hlen|split; [exact Hbd|exact Hdd]]|].
           split; [reflexivity|]. intros i Hi. rewrite (Hdf i _ (Hdd i Hi)), idx_eqb_refl. eauto.
        -- destruct (HI bi' b' Hbi' Hb2) as [Hok [Hsl Hex]]. split; [exact Hok|]. split; [exact Hsl|].
           intros i Hi. destruct (Hex i Hi) as [d Hd].
           rewrite (Hdf i _ (proj2 (proj2 Hok) i Hi)), Hd.
           destruct (idx_eqb (gen bi i) (gen bi' i)); eauto.
      * unfold m2, updateIndices. destruct kd; cbn [min_bi max_bi]; rewrite Hmn', Hmx'; split; reflexivity.
Qed.

(** Effect of changing all distributions of an allocated bundle. *)
Lemma modify_loop (bi : idx) (f : nat -> P -> P) (b : bundle) (fuel : nat) : forall (from : nat) (m : map_t),
  mwf m -> okidx (mshape m) bi -> (from + fuel = bins_n)%nat ->
  bget' m bi = Some b -> slots b = full_slots bi ->
  (forall i, (i < bins_n)%nat -> exists d, dget m i (gen bi i) = Some d) ->
  exists m', ofold (fun m i => modify_slot bd bb bi (f i) m i) (seq from fuel) m = Ok m' /\
    mwf m' /\ mshape m' = mshape m /\ bundles m' = bundles m /\
    min_bi m' = min_bi m /\ max_bi m' = max_bi m /\
    (forall i j, ddom (mshape m) i j ->
       dget m' i j = if Nat.leb from i && idx_eqb (gen bi i) j then option_map (f i) (dget m i j)
                     else dget m i j).
Proof.
  induction fuel as [|fuel IH]; intros from m Hwf Hok Hn Hb Hsl Hex; cbn [seq ofold].
  - exists m. split; [reflexivity|]. split; [exact Hwf|]. do 4 (split; [reflexivity|]).
    intros i j Hij. destruct (Nat.leb_spec from i) as [Hle|]; cbn [andb]; [|reflexivity].
    pose proof (ddom_lt m i j Hwf Hij). lia.
  - unfold modify_slot at 1. rewrite (bundle_at m bi Hwf (proj1 (proj2 Hok))), Hb. cbn [obind].
    rewrite Hsl. unfold full_slots. rewrite nth_error_map.
    rewrite (nth_error_nth' (seq 0 bins_n) 0%nat) by (rewrite seq_length; lia).
    rewrite seq_nth by lia. cbn [Nat.add option_map].
    assert (Hd : ddom (mshape m) from (gen bi from)) by (apply Hok; lia).
    destruct (store_at m from (gen bi from) Hwf Hd) as [s [Hs [Hsw [Hsd Hg]]]].
    destruct (Hex from ltac:(lia)) as [d Hdv]. rewrite Hdv in Hg.
    unfold get_store. rewrite Hs. cbn [obind].
    destruct (l_mod ld s (gen bi from) (f from) d Hsw Hsd Hg) as [s' [E1 [Hw' [Hsh' Hg']]]].
    rewrite E1. cbn [obind].
    destruct (set_store_spec m from (gen bi from) s s' (f from d) Hwf Hs Hw' Hsh' Hg')
      as [m1 [E2 [Hwf1 [Hsh1 [Hbs1 [Hmn1 [Hmx1 Hd1]]]]]]].
    rewrite E2. cbn [obind].
    destruct (IH (S from) m1) as [m' [E3 [Hwf' [Hsh2 [Hbs2 [Hmn2 [Hmx2 Hd2]]]]]]].
    + exact Hwf1.
    + rewrite Hsh1; exact Hok.
    + lia.
    + rewrite (bget_bundles m m1 bi Hbs1); exact Hb.
    + exact Hsl.
    + intros i Hi. rewrite (Hd1 i _ (proj2 (proj2 Hok) i Hi)).
      destruct (Nat.eqb from i && idx_eqb _ _); [eauto|apply Hex; exact Hi].
    + exists m'. split; [exact E3|]. split; [exact Hwf'|]. split; [congruence|]. split; [congruence|].
      split; [congruence|]. split; [congruence|].
      intros i j Hij. rewrite (Hd2 i j) by (rewrite Hsh1; exact Hij). rewrite (Hd1 i j Hij).
      destruct (Nat.leb_spec (S from) i) as [H1|H1], (Nat.leb_spec from i) as [H2|H2]; try lia; cbn [andb].
      * destruct (Nat.eqb_spec from i) as [|_]; [lia|]. reflexivity.
      * assert (i = from) as -> by lia. rewrite Nat.eqb_refl. cbn [andb].
        destruct (idx_eqb_spec (gen bi from) j) as [<-|]; [|reflexivity]. rewrite Hdv. reflexivity.
      * destruct (Nat.eqb_spec from i) as [|_]; [lia|]. reflexivity.
Qed.

Definition each_effect (m m' : map_t) (bi : idx) (f : nat -> P -> P) : Prop :=
  Inv m' /\ mshape m' = mshape m /\
  (forall bi', bdom (mshape m) bi' ->
     bget' m' bi' =
     if idx_eqb bi bi' then Some (match bget' m bi with
                                  | Some b => b
                                  | None => {| slots := full_slots bi; expand := true |} end)
     else bget' m bi') /\
  (forall i j, ddom (mshape m) i j ->
     dget m' i j = if idx_eqb (gen bi i) j
                   then Some (f i (match dget m i j with Some d => d | None => default end))
                   else dget m i j) /\
  match bget' m bi with
  | Some _ => min_bi m' = min_bi m /\ max_bi m' = max_bi m
  | None => match kd with
            | Static => min_bi m' = min_bi m /\ max_bi m' = max_bi m
            | Dynamic => min_bi m' = amin (min_bi m) bi /\ max_bi m' = amax (max_bi m) bi
            end
  end.

Definition modify_effect (m m' : map_t) (bi : idx) (f : P -> P) : Prop :=
  Inv m' /\ mshape m' = mshape m /\
  (forall bi', bdom (mshape m) bi' ->
     bget' m' bi' =
     if idx_eqb bi bi' then Some (match bget' m bi with
                                  | Some b => b
                                  | None => {| slots := full_slots bi; expand := true |} end)
     else bget' m bi') /\
  (forall i j, ddom (mshape m) i j ->
     dget m' i j = if idx_eqb (gen bi i) j
                   then Some (f (match dget m i j with Some d => d | None => default end))
                   else dget m i j) /\
  match bget' m bi with
  | Some _ => min_bi m' = min_bi m /\ max_bi m' = max_bi m
  | None => match kd with
            | Static => min_bi m' = min_bi m /\ max_bi m' = max_bi m
            | Dynamic => min_bi m' = amin (min_bi m) bi /\ max_bi m' = amax (max_bi m) bi
            end
  end.

Lemma modify_each_spec (m : map_t) (bi : idx) (f : nat -> P -> P) :
  Inv m -> okidx (mshape m) bi ->
  exists m', modify_each default bd bb dim kd amin amax m bi f = Ok m' /\ each_effect m m' bi f.
Proof.
  intros HInv Hok. unfold modify_each.
  destruct (getAllocate_spec m bi HInv Hok) as [m1 [E1 [HI1 [Hsh1 [Hb1 [Hd1 Hmm]]]]]].
  rewrite E1. cbn [obind].
  assert (Hbd : bdom (mshape m) bi) by apply Hok.
  pose proof (Hb1 bi Hbd) as Hbb. rewrite idx_eqb_refl in Hbb.
  destruct HI1 as [Hwf1 HI1].
  assert (Hbd1 : bdom (mshape m1) bi) by (rewrite Hsh1; exact Hbd).
  destruct (HI1 bi _ Hbd1 Hbb) as [Hok1 [Hsl1 Hex1]].
  destruct (modify_loop bi f _ bins_n 0 m1 Hwf1 Hok1 eq_refl Hbb Hsl1 Hex1)
    as [m' [E2 [Hwf' [Hsh' [Hbs' [Hmn' [Hmx' Hd']]]]]]].
  exists m'. split; [exact E2|].
  assert (Hdf : forall i j, ddom (mshape m) i j ->
     dget m' i j = if idx_eqb (gen bi i) j
                   then Some (f i (match dget m i j with Some d => d | None => default end))
                   else dget m i j).
  { intros i j Hij. rewrite (Hd' i j) by (rewrite Hsh1; exact Hij). cbn [Nat.leb andb].
    rewrite (Hd1 i j Hij). destruct (idx_eqb (gen bi i) j); reflexivity. }
  assert (Hbf : forall bi', bdom (mshape m) bi' -> bget' m' bi' = bget' m1 bi')
    by (intros bi' _; apply bget_bundles; exact Hbs').
  split; [split|split; [congruence|split; [|split; [exact Hdf|]]]].
  - exact Hwf'.
  - rewrite Hsh'. intros bi' b' Hbi' Hb'. rewrite (bget_bundles m1 m' bi' Hbs') in Hb'.
    destruct (HI1 bi' b' Hbi' Hb') as [Ho [Hs He]]. split; [exact Ho|]. split; [exact Hs|].
    intros i Hi. rewrite (Hd' i _ (proj2 (proj2 Ho) i Hi)). destruct (He i Hi) as [d Hdd].
    rewrite Hdd. destruct (Nat.leb 0 i && idx_eqb (gen bi i) (gen bi' i)); cbn; eauto.
  - intros bi' Hbi'. rewrite (Hbf bi' Hbi'). apply Hb1; exact Hbi'.
  - destruct (bget' m bi) as [b|]; [subst m1; auto|].
    destruct kd; destruct Hmm; split; congruence.
Qed.

Lemma modify_bundle_spec (m : map_t) (bi : idx) (f : P -> P) :
  Inv m -> okidx (mshape m) bi ->
  exists m', modify_bundle default bd bb dim kd amin amax m bi f = Ok m' /\ modify_effect m m' bi f.
Proof. exact (modify_each_spec m bi (fun _ => f)). Qed.

End Facts.

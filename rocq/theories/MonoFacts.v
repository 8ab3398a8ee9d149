(** Proofs about the single-distribution grid map. *)
From Coq Require Import QArith Qround Lqa.
From Verif Require Import Base SeqModel SeqFacts IndexModel IndexFacts OctreeSpec OctreeModel OctreeFacts
  MapModel MapFacts MapHist BackendModel BackendFacts SysModel SysSpec SysFacts
  InsertModel InsertSpec OpHist InsertFacts MapPropFacts MapLifeFacts ExtentModel ExtentFacts ConvFacts GridModel GridFacts MonoModel MonoSpec.
Open Scope Z_scope.

Lemma list2 {A : Type} (d : A) (l : list A) : length l = 2%nat -> l = [nth 0 l d; nth 1 l d].
Proof. destruct l as [|a [|b [|? ?]]]; try discriminate. reflexivity. Qed.

Lemma forall2_length {A B : Type} (R : A -> B -> Prop) (p : list A) (q : list B) : Forall2 R p q -> length p = length q.
Proof. induction 1; cbn [length]; congruence. Qed.

Section Mono.
Context {V : Type}.
Variable default : V.
Variable merge : V -> V -> V.

Definition mcell (m : mono V) (i : idx) : option V := assoc (a_cells (mo_store m)) i.
(** Every mono map the code can build. *)
Record mono_ok (res : Q) (size : list Z) (min : idx) (m : mono V) : Prop := {
  mk_res : mo_res m = res;
  mk_size : mo_size m = size;
  mk_min : mo_min m = min;
  mk_max : mo_max m = [nth 0 min 0 + nth 0 size 0; nth 1 min 0 + nth 1 size 0];
  mk_asize : a_size (mo_store m) = size;
  mk_aoff : a_offset (mo_store m) = min;
  mk_wf : arr_wf (mo_store m)
}.
Variable res : Q.
Variable size : list Z.
Variable min : idx.
Hypothesis Hargs : mono_args res size min.

Lemma new_ok : exists m, mono_new res size min = Ok m /\ mono_ok res size min m /\ forall i, mcell m i = None.
Proof.
  destruct Hargs as [Hr [L1 [L2 H]]]. pose proof (H 0%nat ltac:(lia)) as H0. pose proof (H 1%nat ltac:(lia)) as H1.
  unfold mono_new. cbn [seq omap].
  rewrite !to_int_ok by (unfold INT_MIN, INT_MAX in *; lia). cbn [obind].
  rewrite !to_int_ok by (unfold INT_MIN, INT_MAX in *; lia). cbn [obind].
  eexists. split; [reflexivity|]. split; [|reflexivity].
  split; cbn; try reflexivity. split; cbn; constructor.
Qed.

Lemma inside_iff (i : idx) : arr_inside size min i = true <-> in_cells size min i.
Proof.
  destruct Hargs as [Hr [L1 [L2 H]]]. rewrite arr_inside_iff, L1, L2. unfold in_cells. split.
  - intros [A [_ B]]. split; [exact A|]. intros d Hd. apply B. lia.
  - intros [A B]. split; [exact A|]. split; [exact A|]. intros d Hd. apply B. lia.
Qed.

Lemma get_ok (m : mono V) (i : idx) : mono_ok res size min m -> in_cells size min i ->
  bget (array_backend merge) (mo_store m) i = Ok (mcell m i).
Proof.
  intros Hm Hi. cbn [bget array_backend]. rewrite (mk_asize _ _ _ _ Hm), (mk_aoff _ _ _ _ Hm).
  apply inside_iff in Hi. rewrite Hi. reflexivity.
Qed.
Lemma get_ub (m : mono V) (i : idx) : mono_ok res size min m -> ~ in_cells size min i ->
  bget (array_backend merge) (mo_store m) i = UB.
Proof.
  intros Hm Hi. cbn [bget array_backend]. rewrite (mk_asize _ _ _ _ Hm), (mk_aoff _ _ _ _ Hm).
  destruct (arr_inside size min i) eqn:E; [|reflexivity]. apply inside_iff in E. contradiction.
Qed.

Lemma set_ok (m : mono V) (i : idx) (v : V) : mono_ok res size min m -> in_cells size min i ->
  mono_ok res size min (with_store m (arr_set (mo_store m) i v)) /\
  forall j, mcell (with_store m (arr_set (mo_store m) i v)) j = if idx_eqb i j then Some v else mcell m j.
Proof.
  intros Hm Hi. apply inside_iff in Hi. split.
  - destruct Hm. split; cbn [with_store mo_res mo_size mo_min mo_max mo_store arr_set a_size a_offset]; auto.
    apply arr_set_wf; [assumption|]. rewrite mk_asize0, mk_aoff0. exact Hi.
  - intros j. unfold mcell. cbn [with_store mo_store arr_set a_cells].
    destruct (idx_eqb_spec i j) as [<-|Hne]; [apply assoc_set_same|apply assoc_set_other; exact Hne].
Qed.

Definition cell_or (m : mono V) (i : idx) : V := match mcell m i with Some v => v | None => default end.

Lemma alloc_ok (m : mono V) (i : idx) : mono_ok res size min m -> in_cells size min i ->
  exists m', mono_getAllocate default merge m i = Ok m' /\ mono_ok res size min m' /\
    forall j, mcell m' j = if idx_eqb i j then Some (cell_or m i) else mcell m j.
Proof.
  intros Hm Hi. unfold mono_getAllocate. rewrite (get_ok m i Hm Hi). cbn [obind]. unfold cell_or.
  destruct (mcell m i) as [v|] eqn:E.
  - exists m. split; [reflexivity|]. split; [exact Hm|]. intros j.
    destruct (idx_eqb_spec i j) as [<-|]; [exact E|reflexivity].
  - cbn [bins array_backend]. rewrite (mk_asize _ _ _ _ Hm), (mk_aoff _ _ _ _ Hm).
    pose proof Hi as Hi'. apply inside_iff in Hi'. rewrite Hi'. unfold mcell in E. rewrite E. cbn [obind].
    eexists. split; [reflexivity|]. apply set_ok; assumption.
Qed.
Lemma write_ok (m : mono V) (i : idx) (f : V -> V) (v : V) : mono_ok res size min m -> in_cells size min i -> mcell m i = Some v ->
  exists m', (let* s := bmod (array_backend merge) (mo_store m) i f in Ok (with_store m s)) = Ok m' /\ mono_ok res size min m' /\
    forall j, mcell m' j = if idx_eqb i j then Some (f v) else mcell m j.
Proof.
  intros Hm Hi E. cbn [bmod array_backend]. rewrite (mk_asize _ _ _ _ Hm), (mk_aoff _ _ _ _ Hm).
  pose proof Hi as Hi'. apply inside_iff in Hi'. rewrite Hi'. unfold mcell in E. rewrite E. cbn [obind].
  eexists. split; [reflexivity|]. apply set_ok; assumption.
Qed.
Lemma modify_ok (m : mono V) (i : idx) (f : V -> V) : mono_ok res size min m -> in_cells size min i ->
  exists m', mono_modify default merge m i f = Ok m' /\ mono_ok res size min m' /\
    forall j, mcell m' j = if idx_eqb i j then Some (f (cell_or m i)) else mcell m j.
Proof.
  intros Hm Hi. unfold mono_modify. destruct (alloc_ok m i Hm Hi) as [m1 [E [H1 C1]]]. rewrite E. cbn [obind].
  destruct (write_ok m1 i f (cell_or m i) H1 Hi) as [m2 [E2 [H2 C2]]].
  { rewrite C1, idx_eqb_refl. reflexivity. }
  exists m2. split; [exact E2|]. split; [exact H2|]. intros j. rewrite C2, C1.
  destruct (idx_eqb i j); reflexivity.
Qed.

Context {W : Type}.
Variable to_m : W -> list Q.
Variable add : V -> W -> V.
Variable dsample : V -> W -> Q.

Lemma index_value (p : list Q) : has_cell res p -> toBundleIndex (/ res) p = Ok (cell_of res p).
Proof.
  intros [_ H]. unfold toBundleIndex, cell_of. apply omap_total. intros x Hx.
  unfold cell_of in H. rewrite Forall_map, Forall_forall in H. apply to_int_ok. apply (H x Hx).
Qed.

Definition within (i : idx) : bool :=
  (nth 0 min 0 <=? nth 0 i 0) && (nth 0 i 0 <=? nth 0 min 0 + nth 0 size 0) &&
  ((nth 1 min 0 <=? nth 1 i 0) && (nth 1 i 0 <=? nth 1 min 0 + nth 1 size 0)).
Lemma within_cases (i : idx) : length i = 2%nat ->
  (within i = true /\ in_cells size min i /\ ~ on_border size min i) \/
  (within i = true /\ ~ in_cells size min i /\ on_border size min i) \/
  (within i = false /\ ~ in_cells size min i /\ ~ on_border size min i).
Proof.
  clear. intros HL. unfold within, in_cells, on_border.
  assert (two : forall R : nat -> Prop, R 0%nat -> R 1%nat -> forall d, (d < 2)%nat -> R d).
  { intros R A B [|[|d]] Hd; [exact A|exact B|lia]. }
  destruct (Z.leb_spec (nth 0 min 0) (nth 0 i 0)).
  2: { right; right. split; [reflexivity|]. split; [intros [_ A]; specialize (A 0%nat ltac:(lia)); lia|].
       intros [A _]; specialize (A 0%nat ltac:(lia)); lia. }
  destruct (Z.leb_spec (nth 0 i 0) (nth 0 min 0 + nth 0 size 0)).
  2: { right; right. split; [reflexivity|]. split; [intros [_ A]; specialize (A 0%nat ltac:(lia)); lia|].
       intros [A _]; specialize (A 0%nat ltac:(lia)); lia. }
  destruct (Z.leb_spec (nth 1 min 0) (nth 1 i 0)).
  2: { right; right. split; [reflexivity|]. split; [intros [_ A]; specialize (A 1%nat ltac:(lia)); lia|].
       intros [A _]; specialize (A 1%nat ltac:(lia)); lia. }
  destruct (Z.leb_spec (nth 1 i 0) (nth 1 min 0 + nth 1 size 0)).
  2: { right; right. split; [reflexivity|]. split; [intros [_ A]; specialize (A 1%nat ltac:(lia)); lia|].
       intros [A _]; specialize (A 1%nat ltac:(lia)); lia. }
  destruct (Z.eq_dec (nth 0 i 0) (nth 0 min 0 + nth 0 size 0)) as [E0|E0].
  { right; left. split; [reflexivity|]. split; [intros [_ A]; specialize (A 0%nat ltac:(lia)); lia|].
    split; [apply two; lia|]. exists 0%nat. split; [lia|exact E0]. }
  destruct (Z.eq_dec (nth 1 i 0) (nth 1 min 0 + nth 1 size 0)) as [E1|E1].
  { right; left. split; [reflexivity|]. split; [intros [_ A]; specialize (A 1%nat ltac:(lia)); lia|].
    split; [apply two; lia|]. exists 1%nat. split; [lia|exact E1]. }
  left. split; [reflexivity|]. split; [split; [exact HL|apply two; lia]|].
  intros [_ [d [Hd A]]]. destruct d as [|[|d]]; [contradiction|contradiction|lia].
Qed.

Lemma toIndex_spec (m : mono V) (p : W) : mono_ok res size min m -> has_cell res (to_m p) ->
  let i := cell_of res (to_m p) in
  length i = 2%nat /\
  mono_toIndex to_m m p = Ok (if within i then Some i else None).
Proof.
  intros Hm Hp i. split; [unfold i, cell_of; rewrite map_length; apply Hp|].
  unfold mono_toIndex. rewrite (mk_res _ _ _ _ Hm), (index_value _ Hp). cbn [obind].
  rewrite (mk_min _ _ _ _ Hm), (mk_max _ _ _ _ Hm). reflexivity.
Qed.

(** One point. *)
Lemma access_spec (m : mono V) (p : W) : mono_ok res size min m -> has_cell res (to_m p) ->
  let i := cell_of res (to_m p) in
  (in_cells size min i ->
     mono_toIndex to_m m p = Ok (Some i) /\ mono_get merge to_m m p = Ok (mcell m i) /\
     mono_sample merge to_m dsample m p = Ok (match mcell m i with Some d => dsample d p | None => 0%Q end) /\
     exists m', mono_insert default merge to_m add m p = Ok m' /\ mono_ok res size min m' /\
       forall j, mcell m' j = if idx_eqb i j then Some (add (cell_or m i) p) else mcell m j) /\
  (on_border size min i ->
     mono_toIndex to_m m p = Ok (Some i) /\ mono_get merge to_m m p = UB /\
     mono_sample merge to_m dsample m p = UB /\ mono_insert default merge to_m add m p = UB) /\
  (~ in_cells size min i -> ~ on_border size min i ->
     mono_toIndex to_m m p = Ok None /\ mono_get merge to_m m p = Ok None /\
     mono_sample merge to_m dsample m p = Ok 0%Q /\ mono_insert default merge to_m add m p = Ok m).
Proof.
  intros Hm Hp i. destruct (toIndex_spec m p Hm Hp) as [HL Ht]. fold i in HL, Ht.
  unfold mono_get, mono_sample, mono_sample_at, mono_insert. rewrite !Ht. cbn [obind].
  destruct (within_cases i HL) as [[E [A B]]|[[E [A B]]|[E [A B]]]]; rewrite E.
  - split; [intros _|split; [intros X; contradiction|intros X; contradiction]].
    rewrite (get_ok m i Hm A). cbn [obind]. split; [reflexivity|]. split; [reflexivity|]. split; [reflexivity|].
    apply (modify_ok m i (fun d => add d p) Hm A).
  - split; [intros X; contradiction|]. split; [intros _|intros _ X; contradiction].
    unfold mono_modify, mono_getAllocate. rewrite (get_ub m i Hm A). cbn [obind]. auto.
  - split; [intros X; contradiction|]. split; [intros X; contradiction|intros _ _]. auto.
Qed.

(** Whole histories. *)
Lemma run_ok (ops : list (mono_op (V:=V) (W:=W))) : forall m, mono_ok res size min m ->
  off_border to_m res size min ops ->
  exists m', mono_run default merge to_m add ops m = Ok m' /\ mono_ok res size min m' /\
    forall i, in_cells size min i ->
      mcell m' i = fold_left (fun o op =>
        let v := match o with Some v => v | None => default end in
        match op with
        | MInsert p => if idx_eqb (cell_of res (to_m p)) i then Some (add v p) else o
        | MModify j f => if idx_eqb j i then Some (f v) else o
        end) ops (mcell m i).
Proof.
  induction ops as [|op ops IH]; intros m Hm HF.
  - exists m. split; [reflexivity|]. split; [exact Hm|]. reflexivity.
  - inversion HF as [|? ? Hop HF']; subst. cbn [mono_run ofold fold_left]. fold (mono_run default merge to_m add).
    assert (Hstep : exists m1, mono_step default merge to_m add m op = Ok m1 /\ mono_ok res size min m1 /\
      forall i, in_cells size min i -> mcell m1 i =
        let v := cell_or m i in
        match op with
        | MInsert p => if idx_eqb (cell_of res (to_m p)) i then Some (add v p) else mcell m i
        | MModify j f => if idx_eqb j i then Some (f v) else mcell m i
        end).
    { destruct op as [p|j f]; cbn [mono_step].
      - destruct Hop as [Hp Hb]. destruct (access_spec m p Hm Hp) as [A [_ C]].
        assert (Hdec : in_cells size min (cell_of res (to_m p)) \/ ~ in_cells size min (cell_of res (to_m p))).
        { destruct (arr_inside size min (cell_of res (to_m p))) eqn:E; [left; apply inside_iff; exact E|right].
          intros X. apply inside_iff in X. congruence. }
        destruct Hdec as [Hin|Hout].
        + destruct (A Hin) as [_ [_ [_ [m1 [E1 [H1 C1]]]]]]. exists m1. split; [exact E1|]. split; [exact H1|].
          intros i Hi. rewrite C1. destruct (idx_eqb_spec (cell_of res (to_m p)) i) as [<-|]; reflexivity.
        + destruct (C Hout Hb) as [_ [_ [_ E1]]]. exists m. split; [exact E1|]. split; [exact Hm|].
          intros i Hi. destruct (idx_eqb_spec (cell_of res (to_m p)) i) as [<-|]; [contradiction|reflexivity].
      - destruct (modify_ok m j f Hm Hop) as [m1 [E1 [H1 C1]]]. exists m1. split; [exact E1|]. split; [exact H1|].
        intros i Hi. rewrite C1. destruct (idx_eqb_spec j i) as [<-|]; reflexivity. }
    destruct Hstep as [m1 [E1 [H1 C1]]]. rewrite E1. cbn [obind].
    destruct (IH m1 H1 HF') as [m2 [E2 [H2 C2]]]. exists m2. split; [exact E2|]. split; [exact H2|].
    intros i Hi. rewrite (C2 i Hi), (C1 i Hi). reflexivity.
Qed.

(** Every map has points that are accepted and have no cell. *)
Lemma border_point : INT_MIN <= nth 0 min 0 + nth 0 size 0 ->
  let p := [inject_Z (nth 0 min 0%Z + nth 0 size 0%Z) * res; inject_Z (nth 1 min 0%Z) * res]%Q in
  has_cell res p /\ on_border size min (cell_of res p).
Proof.
  intros Hi p. destruct Hargs as [Hr [L1 [L2 H]]]. pose proof (H 0%nat ltac:(lia)) as H0. pose proof (H 1%nat ltac:(lia)) as H1.
  assert (C : forall z, Qfloor (inject_Z z * res / res) = z).
  { intros z. rewrite <- (Qfloor_Z z) at 2. apply Qfloor_comp. field. intros E. rewrite E in Hr. discriminate. }
  assert (E : cell_of res p = [nth 0 min 0 + nth 0 size 0; nth 1 min 0]).
  { unfold p, cell_of. cbn [map]. rewrite !C. reflexivity. }
  split.
  - split; [reflexivity|]. rewrite E. unfold INT_MIN, INT_MAX in *. constructor; [lia|]. constructor; [lia|constructor].
  - rewrite E. split.
    + intros [|[|d]] Hd; cbn [nth]; lia.
    + exists 0%nat. split; [lia|]. reflexivity.
Qed.
End Mono.

(** ** Sums *)
Lemma sum_over_ext {A : Type} (f g : A -> Z) (l : list A) : (forall x, In x l -> f x = g x) -> sum_over f l = sum_over g l.
Proof. intros H. unfold sum_over. f_equal. apply map_ext_in. exact H. Qed.
Lemma sum_over_add {A : Type} (f g : A -> Z) (l : list A) : sum_over (fun x => f x + g x) l = sum_over f l + sum_over g l.
Proof. unfold sum_over. induction l as [|x l IH]; cbn [map fold_right]; lia. Qed.
Lemma sum_over_swap {A B : Type} (f : A -> B -> Z) (l : list A) (k : list B) :
  sum_over (fun x => sum_over (f x) k) l = sum_over (fun y => sum_over (fun x => f x y) l) k.
Proof.
  induction l as [|x l IH].
  - unfold sum_over at 1. cbn [map fold_right]. unfold sum_over. cbn [map fold_right].
    induction k as [|y k IHk]; cbn [map fold_right]; lia.
  - change (sum_over (fun x => sum_over (f x) k) (x :: l)) with (sum_over (f x) k + sum_over (fun x => sum_over (f x) k) l).
    rewrite IH, <- sum_over_add. apply sum_over_ext. intros y _. reflexivity.
Qed.
Lemma sum_over_filter {A : Type} (q : A -> bool) (l : list A) :
  Z.of_nat (length (filter q l)) = sum_over (fun x => if q x then 1 else 0) l.
Proof.
  induction l as [|x l IH]; [reflexivity|].
  change (sum_over (fun x => if q x then 1 else 0) (x :: l)) with ((if q x then 1 else 0) + sum_over (fun x => if q x then 1 else 0) l).
  rewrite <- IH. cbn [filter]. destruct (q x); cbn [length]; lia.
Qed.
Lemma sum_over_bounds {A : Type} (f : A -> Z) (lo hi : Z) (l : list A) : (forall x, In x l -> lo <= f x <= hi) ->
  lo * Z.of_nat (length l) <= sum_over f l <= hi * Z.of_nat (length l).
Proof.
  unfold sum_over. induction l as [|x l IH]; intros H; [cbn; lia|]. cbn [map fold_right length].
  specialize (IH ltac:(intros y Hy; apply H; right; exact Hy)). specialize (H x ltac:(left; reflexivity)). nia.
Qed.
Lemma sum_over_map {A B : Type} (f : B -> Z) (g : A -> B) (l : list A) : sum_over f (map g l) = sum_over (fun x => f (g x)) l.
Proof. unfold sum_over. rewrite map_map. reflexivity. Qed.
Lemma sum_over_perm {A : Type} (f : A -> Z) (l l' : list A) : Permutation.Permutation l l' -> sum_over f l = sum_over f l'.
Proof. unfold sum_over. induction 1; cbn [map fold_right]; lia. Qed.

(** A cell of one family is shared by at most four bundles. *)
Lemma sharing_bounds (bs : list idx) (i : nat) (b : idx) :
  NoDup bs -> (forall x, In x bs -> length x = 2%nat) -> In b bs -> (1 <= sharing bs i b <= 4)%nat.
Proof.
  intros Hn HL Hb. unfold sharing. set (q := fun b' => idx_eqb (generate_index b' i) (generate_index b i)).
  assert (Hin : In b (filter q bs)).
  { apply filter_In. split; [exact Hb|]. unfold q. apply idx_eqb_refl. }
  split; [destruct (filter q bs); [destruct Hin|cbn; lia]|].
  set (j := generate_index b i).
  set (x0 := 2 * nth 0 j 0 - shift_of i 0). set (y0 := 2 * nth 1 j 0 - shift_of i 1).
  change 4%nat with (length [[x0; y0]; [x0 + 1; y0]; [x0; y0 + 1]; [x0 + 1; y0 + 1]]).
  apply NoDup_incl_length; [apply NoDup_filter; exact Hn|].
  intros x Hx. apply filter_In in Hx. destruct Hx as [Hx Hq]. unfold q in Hq.
  destruct (idx_eqb_spec (generate_index x i) (generate_index b i)) as [E|]; [|discriminate].
  fold j in E. apply generate_index_iff in E. destruct E as [_ E]. pose proof (HL x Hx) as L.
  pose proof (E 0%nat ltac:(lia)) as E0. pose proof (E 1%nat ltac:(lia)) as E1. fold x0 in E0. fold y0 in E1.
  rewrite (list2 0 x L).
  assert (nth 0 x 0 = x0 \/ nth 0 x 0 = x0 + 1) as [->| ->] by lia;
  assert (nth 1 x 0 = y0 \/ nth 1 x 0 = y0 + 1) as [->| ->] by lia; cbn [In]; auto.
Qed.

Section Merge.
Context {P : Type}.
Variable c : config P.
Hypothesis Hc : config_ok c.
Hypothesis Hdim : dimc c = 2%nat.
Hypothesis Hdyn : kindc c = Dynamic.
Hypothesis Hmin : aminc c = cw_min.
Hypothesis Hmax : amaxc c = cw_max.
Variable bres : Q.
Hypothesis Hb : (0 < bres)%Q.
Variable plus : P -> P -> P.

(** The distribution of family [i] in bundle [bi]. *)
Definition bundle_value (m : cmap c) (bi : idx) (i : nat) : P :=
  match cdget c m i (generate_index bi i) with Some d => d | None => defaultc c end.

Lemma bundle_slots (m : cmap c) (es : list (idx * bundle)) :
  cInv c m -> cbundles c m = Ok es -> forall bi b i, In (bi, b) es -> (i < 4)%nat ->
  exists sl, nth_error (slots b) i = Some sl /\ slot_value (bdc c) (bbc c) m i sl = Ok (Some (bundle_value m bi i)).
Proof.
  intros HI E bi b i Hin Hi. destruct (cbundles_spec c m HI) as [es' [E' [_ Hs]]].
  assert (es' = es) by congruence. subst es'. apply Hs in Hin. destruct Hin as [Hbd Eb].
  pose proof HI as [[[Hwf HIb] _] [Hsh _]].
  assert (Hi' : (i < bin_count (dimc c))%nat) by (rewrite Hdim; exact Hi).
  rewrite <- Hsh in Hbd. destruct (HIb bi b Hbd Eb) as [Hok [Hsl Hex]]. destruct (Hex i Hi') as [d Hd].
  exists (Some (generate_index bi i)). split.
  { rewrite Hsl. unfold full_slots. rewrite nth_error_map.
    rewrite (nth_error_nth' (seq 0 (bin_count (dimc c))) 0%nat) by (rewrite seq_length; exact Hi').
    rewrite seq_nth by exact Hi'. reflexivity. }
  assert (Hdd : cddom c (cshape c m) i (generate_index bi i)) by (apply Hok; exact Hi').
  destruct (store_at _ _ _ _ _ _ _ m i (generate_index bi i) Hwf Hdd) as [s [Hs' [_ [_ Hg]]]].
  unfold slot_value, get_store. rewrite Hs'. cbn [obind]. rewrite Hg. cbn [obind].
  unfold bundle_value, cdget. unfold cdget in Hd. rewrite Hd. reflexivity.
Qed.

Lemma merge_one (m : cmap c) (size : list Z) (mn : idx) (bi : idx) (b : bundle) :
  mono_args bres size mn -> in_cells size mn bi ->
  (forall i, (i < 4)%nat -> exists sl, nth_error (slots b) i = Some sl /\
     slot_value (bdc c) (bbc c) m i sl = Ok (Some (bundle_value m bi i))) ->
  forall k n v dst, (k + n <= 4)%nat -> mono_ok bres size mn dst -> mcell dst bi = Some v ->
  exists dst',
    ofold (fun dst i =>
      match nth_error (slots b) i with
      | None => UB
      | Some sl =>
          let* o := slot_value (bdc c) (bbc c) m i sl in
          match o with
          | None => UB
          | Some v =>
              let* s := bmod (array_backend (mergec c)) (mo_store dst) bi (fun d => plus d v) in
              Ok (with_store dst s)
          end
      end) (seq k n) dst = Ok dst' /\ mono_ok bres size mn dst' /\
    forall j, mcell dst' j = if idx_eqb bi j then Some (fold_left plus (map (bundle_value m bi) (seq k n)) v) else mcell dst j.
Proof.
  intros Ha Hin Hsl k n. revert k. induction n as [|n IH]; intros k v dst Hk Hok Hv.
  - exists dst. split; [reflexivity|]. split; [exact Hok|]. intros j. cbn [seq map fold_left].
    destruct (idx_eqb_spec bi j) as [<-|]; [exact Hv|reflexivity].
  - cbn [seq ofold]. destruct (Hsl k ltac:(lia)) as [sl [E1 E2]]. rewrite E1, E2. cbn [obind].
    destruct (write_ok (mergec c) bres size mn Ha dst bi (fun d => plus d (bundle_value m bi k)) v Hok Hin Hv) as [d1 [F1 [F2 F3]]].
    rewrite F1. cbn [obind].
    destruct (IH (S k) (plus v (bundle_value m bi k)) d1 ltac:(lia) F2) as [d2 [G1 [G2 G3]]].
    { rewrite F3, idx_eqb_refl. reflexivity. }
    exists d2. split; [exact G1|]. split; [exact G2|]. intros j. rewrite G3, F3. destruct (idx_eqb bi j); reflexivity.
Qed.

Definition merged_value (m : cmap c) (bi : idx) : P :=
  fold_left plus (map (bundle_value m bi) (seq 0 4)) (defaultc c).

Lemma merge_all (m : cmap c) (size : list Z) (mn : idx) :
  mono_args bres size mn ->
  forall es dst, mono_ok bres size mn dst ->
  NoDup (map fst es) ->
  (forall bi b, In (bi, b) es -> in_cells size mn bi /\ mcell dst bi = None /\
     forall i, (i < 4)%nat -> exists sl, nth_error (slots b) i = Some sl /\
       slot_value (bdc c) (bbc c) m i sl = Ok (Some (bundle_value m bi i))) ->
  exists dst',
    ofold (fun dst e =>
      let* dst := mono_getAllocate (defaultc c) (mergec c) dst (fst e) in
      ofold (fun dst i =>
        match nth_error (slots (snd e)) i with
        | None => UB
        | Some sl =>
            let* o := slot_value (bdc c) (bbc c) m i sl in
            match o with
            | None => UB
            | Some v =>
                let* s := bmod (array_backend (mergec c)) (mo_store dst) (fst e) (fun d => plus d v) in
                Ok (with_store dst s)
            end
        end) (seq 0 (bin_count (dimc c))) dst) es dst = Ok dst' /\ mono_ok bres size mn dst' /\
    (forall bi, In bi (map fst es) -> mcell dst' bi = Some (merged_value m bi)) /\
    (forall bi, ~ In bi (map fst es) -> mcell dst' bi = mcell dst bi).
Proof.
  intros Ha. induction es as [|[bi b] es IH]; intros dst Hok Hn H.
  - exists dst. split; [reflexivity|]. split; [exact Hok|]. split; [intros ? []|reflexivity].
  - cbn [map fst] in Hn. inversion Hn as [|? ? Hni Hn']; subst. cbn [ofold fst snd].
    destruct (H bi b ltac:(left; reflexivity)) as [Hin [Hnone Hsl]].
    destruct (alloc_ok (defaultc c) (mergec c) bres size mn Ha dst bi Hok Hin) as [d1 [E1 [O1 C1]]]. rewrite E1. cbn [obind].
    unfold cell_or in C1. rewrite Hnone in C1.
    destruct (merge_one m size mn bi b Ha Hin Hsl 0 4 (defaultc c) d1 ltac:(lia) O1) as [d2 [E2 [O2 C2]]].
    { rewrite C1, idx_eqb_refl. reflexivity. }
    rewrite Hdim. change (bin_count 2) with 4%nat. rewrite Hdim in IH. change (bin_count 2) with 4%nat in IH.
    rewrite E2. cbn [obind].
    destruct (IH d2 O2 Hn') as [d3 [E3 [O3 [C3 D3]]]].
    { intros bi' b' Hin'. destruct (H bi' b' ltac:(right; exact Hin')) as [A [B C]]. split; [exact A|]. split; [|exact C].
      rewrite C2, C1. destruct (idx_eqb_spec bi bi') as [<-|]; [|exact B].
      exfalso. apply Hni. apply in_map_iff. exists (bi, b'). auto. }
    exists d3. split; [exact E3|]. split; [exact O3|]. split.
    + intros x [<-|Hx]; [|apply C3; exact Hx]. cbn [fst]. rewrite D3 by exact Hni. rewrite C2, idx_eqb_refl. reflexivity.
    + intros x Hx. cbn [map fst] in Hx. rewrite D3 by (intros X; apply Hx; right; exact X). rewrite C2, C1.
      destruct (idx_eqb_spec bi x) as [<-|]; [exfalso; apply Hx; left; reflexivity|reflexivity].
Qed.

Lemma merge_spec (m : cmap c) (es : list (idx * bundle)) :
  cInv c m -> region c 0 m -> cbundles c m = Ok es -> es <> [] ->
  let size := [nth 0 (max_bi m) 0 - nth 0 (min_bi m) 0 + 1; nth 1 (max_bi m) 0 - nth 1 (min_bi m) 0 + 1] in
  exists dst, merge_map c bres plus m = Ok dst /\ mono_args bres size (min_bi m) /\ mono_ok bres size (min_bi m) dst /\
    (forall bi, In bi (map fst es) -> in_cells size (min_bi m) bi /\ mcell dst bi = Some (merged_value m bi)) /\
    (forall bi, ~ In bi (map fst es) -> mcell dst bi = None) /\
    Permutation.Permutation (a_cells (mo_store dst)) (map (fun bi => (bi, merged_value m bi)) (map fst es)).
Proof.
  intros HI HR E Hne size. pose proof HI as [[_ [_ [_ Hbox]]] [Hsh _]].
  destruct (Hbox Hmin Hmax Hdyn) as [L1 [L2 HQ]]. rewrite Hdim in L1, L2, HQ.
  pose proof (cbundles_in c m es HI E) as Hin.
  destruct (cbundles_spec c m HI) as [es' [E' [Hnd _]]]. assert (es' = es) by congruence. subst es'.
  assert (Hrange : forall b d, has_b c m b -> (d < 2)%nat -> length b = 2%nat /\ -32768 <= nth d b 0 <= 32767).
  { intros b d [Hbd Hb'] Hd. rewrite Hsh in Hbd. specialize (HR b Hbd Hb'). unfold usable in HR. rewrite Hdyn in HR.
    destruct HR as [HL HF]. rewrite Hdim in HL. rewrite Forall_forall in HF.
    specialize (HF (nth d b 0) ltac:(apply nth_In; lia)). split; [exact HL|lia]. }
  assert (Hsome : exists b, has_b c m b).
  { destruct es as [|[b x] es']; [congruence|]. exists b. apply Hin. left; reflexivity. }
  destruct Hsome as [b0 Hb0].
  assert (Hr : forall d, (d < 2)%nat -> -32768 <= nth d (min_bi m) 0 /\ nth d (min_bi m) 0 <= nth d (max_bi m) 0 <= 32767).
  { intros d Hd. destruct (HQ d Hd) as [A [B C]]. pose proof (A b0 Hb0) as A0. pose proof (Hrange b0 d Hb0 Hd) as [_ R0].
    unfold INT_MAX, INT_MIN in *.
    destruct B as [B|[b [B1 B2]]]; [lia|]. destruct C as [C|[b' [C1 C2]]]; [lia|].
    pose proof (Hrange b d B1 Hd). pose proof (Hrange b' d C1 Hd). lia. }
  pose proof (Hr 0%nat ltac:(lia)) as R0. pose proof (Hr 1%nat ltac:(lia)) as R1.
  assert (Ha : mono_args bres size (min_bi m)).
  { split; [exact Hb|]. split; [reflexivity|]. split; [exact L1|]. unfold INT_MIN, INT_MAX in *.
    intros [|[|d]] Hd; unfold size; cbn [nth]; lia. }
  unfold merge_map. cbn [seq omap].
  rewrite !to_int_ok by (unfold INT_MIN, INT_MAX in *; lia). cbn [obind].
  rewrite !to_int_ok by (unfold INT_MIN, INT_MAX in *; lia). cbn [obind].
  rewrite !Z.mod_small by lia. fold size.
  destruct (new_ok (V:=P) bres size (min_bi m) Ha) as [d0 [E0 [O0 C0]]]. rewrite E0. cbn [obind]. rewrite E. cbn [obind].
  assert (Hcells : forall bi, In bi (map fst es) -> in_cells size (min_bi m) bi).
  { intros bi Hbi. apply Hin in Hbi. split; [apply (Hrange bi 0%nat Hbi); lia|]. intros d Hd.
    destruct (HQ d Hd) as [A _]. specialize (A bi Hbi). unfold size. destruct d as [|[|d]]; cbn [nth] in *; lia. }
  destruct (merge_all m size (min_bi m) Ha es d0 O0 Hnd) as [dst [F1 [F2 [F3 F4]]]].
  { intros bi b Hbi. split; [apply Hcells; apply in_map_iff; exists (bi, b); auto|]. split; [apply C0|].
    intros i Hi. eapply bundle_slots; eassumption. }
  exists dst. split; [exact F1|]. split; [exact Ha|]. split; [exact F2|].
  split; [intros bi Hbi; split; [apply Hcells; exact Hbi|apply F3; exact Hbi]|].
  split; [intros bi Hbi; rewrite F4 by exact Hbi; apply C0|].
  apply Permutation.NoDup_Permutation.
  - apply (NoDup_map_inv fst). apply (mk_wf _ _ _ _ F2).
  - apply (NoDup_map_inv fst). rewrite map_map. cbn [fst]. rewrite map_id. exact Hnd.
  - intros [bi v]. rewrite (assoc_in _ bi v (proj1 (mk_wf _ _ _ _ F2))). fold (mcell dst bi). rewrite in_map_iff.
    destruct (in_dec (list_eq_dec Z.eq_dec) bi (map fst es)) as [Hbi|Hbi].
    + rewrite (F3 bi Hbi). split; [intros X; injection X as <-; exists bi; auto|].
      intros [x [X Hx]]. injection X as -> <-. reflexivity.
    + rewrite (F4 bi Hbi), C0. split; [discriminate|]. intros [x [X Hx]]. injection X as -> _. contradiction.
Qed.

(** The counts. *)
Context {Pose X W Pt S : Type}.
Variable geo : geometry Pose X W Pt.
Variable sta : statistics Pt S.
Variable upd_d : P -> S -> P.
Variable countP : P -> Z.
Variable countS : S -> Z.
Hypothesis c_default : countP (defaultc c) = 0.
Hypothesis c_upd : forall d s, countP (upd_d d s) = countP d + countS s.
Hypothesis c_empty : countS (s_empty sta) = 0.
Hypothesis c_add : forall s p, countS (s_add sta s p) = countS s + 1.
Hypothesis c_plus : forall a b, countP (plus a b) = countP a + countP b.

Lemma count_merged (m : cmap c) (bi : idx) : countP (merged_value m bi) = sum_over (fun i => countP (bundle_value m bi i)) (seq 0 4).
Proof. unfold merged_value, sum_over. cbn [seq map fold_left fold_right]. rewrite !c_plus, c_default. lia. Qed.

Lemma merge_counts (ops : list (grid_op (Pose:=Pose) (X:=X))) :
  grid_fits geo c (usable c) ops ->
  exists m es, grid_run geo sta c upd_d ops (new_map c) = Ok m /\ cbundles c m = Ok es /\
    (es <> [] ->
     exists dst cells, merge_map c bres plus m = Ok dst /\ mono_cells (mergec c) dst = Ok cells /\
       NoDup (map fst cells) /\ Permutation.Permutation (map fst cells) (map fst es) /\
       let pts := history_points geo c ops in
       sum_over (fun e => countP (snd e)) cells =
         sum_over (fun e => sum_over (fun i => Z.of_nat (sharing (map fst es) i (fst e))) (seq 0 4)) pts /\
       4 * Z.of_nat (length pts) <= sum_over (fun e => countP (snd e)) cells <= 16 * Z.of_nat (length pts)) /\
    (es = [] -> merge_map c bres plus m = UB).
Proof.
  intros Hf. destruct (grid_run_spec geo sta c Hc upd_d ops Hf) as [m [E [HI [HR [HC [Hp _]]]]]].
  destruct (cbundles_spec c m HI) as [es [Ees [Hnd Hmem]]]. exists m, es. split; [exact E|]. split; [exact Ees|].
  pose proof (cbundles_in c m es HI Ees) as Hin.
  assert (H0 : 0 <= expand_calls ops)
    by (rewrite <- (actions_expansions geo sta c upd_d); apply expansions_nonneg).
  split.
  - intros Hne. destruct (merge_spec m es HI HR Ees Hne) as [dst [F1 [F2 [F3 [F4 [F5 F6]]]]]].
    exists dst, (a_cells (mo_store dst)). split; [exact F1|]. split; [reflexivity|].
    split; [apply (mk_wf _ _ _ _ F3)|].
    split; [rewrite F6, !map_map; cbn [fst]; reflexivity|].
    set (pts := history_points geo c ops).
    assert (Hcount : sum_over (fun e => countP (snd e)) (a_cells (mo_store dst)) =
         sum_over (fun e => sum_over (fun i => Z.of_nat (sharing (map fst es) i (fst e))) (seq 0 4)) pts).
    { rewrite (sum_over_perm _ _ _ F6), sum_over_map. cbn [snd].
      transitivity (sum_over (fun bi => sum_over (fun i => sum_over (fun e =>
         if idx_eqb (generate_index (fst e) i) (generate_index bi i) then 1 else 0) pts) (seq 0 4)) (map fst es)).
      - apply sum_over_ext. intros bi Hbi. rewrite count_merged. apply sum_over_ext. intros i Hi.
        apply in_seq in Hi. rewrite <- sum_over_filter.
        change (Z.of_nat (length (filter (fun e => idx_eqb (generate_index (fst e) i) (generate_index bi i)) pts)))
          with (cell_count geo c ops i (generate_index bi i)).
        rewrite <- (count_cell geo sta c upd_d countP countS c_default c_upd c_empty c_add ops i (generate_index bi i)).
        assert (Hi' : (i < bin_count (dimc c))%nat) by (rewrite Hdim; change (bin_count 2) with 4%nat; lia).
        apply Hin in Hbi. pose proof (has_b_usable c 0 m bi HI HR Hbi) as Hu.
        assert (Hd : cddom c (cshape c (new_map c)) i (generate_index bi i))
          by (apply (usable_okidx c Hc 0 bi ltac:(lia) Hu); exact Hi').
        assert (Hcell : cell_exists c i (generate_index bi i)) by (apply (dom_cell c Hc); assumption).
        specialize (HC i _ Hcell). unfold ccontent, content in HC. fold (cdget c m i (generate_index bi i)) in HC.
        unfold bundle_value. f_equal.
        destruct Hbi as [Hbd Hbb]. destruct (cbget c m bi) as [b|] eqn:Eb; [|contradiction].
        pose proof HI as [[[Hwf HIb] _] _]. destruct (HIb bi b Hbd Eb) as [_ [_ Hex]]. destruct (Hex i Hi') as [d Hd'].
        unfold cdget in *. rewrite Hd' in *. exact HC.
      - rewrite (sum_over_swap (fun bi i => sum_over (fun e =>
           if idx_eqb (generate_index (fst e) i) (generate_index bi i) then 1 else 0) pts) (map fst es) (seq 0 4)).
        rewrite (sum_over_swap (fun e i => Z.of_nat (sharing (map fst es) i (fst e))) pts (seq 0 4)).
        apply sum_over_ext. intros i _.
        rewrite (sum_over_swap (fun bi (e : idx * Pt) => if idx_eqb (generate_index (fst e) i) (generate_index bi i) then 1 else 0)).
        apply sum_over_ext. intros e _. unfold sharing. rewrite sum_over_filter. apply sum_over_ext. intros bi _.
        destruct (idx_eqb_spec (generate_index (fst e) i) (generate_index bi i)) as [->|A].
        + rewrite idx_eqb_refl. reflexivity.
        + destruct (idx_eqb_spec (generate_index bi i) (generate_index (fst e) i)) as [B|]; [congruence|reflexivity]. }
    split; [exact Hcount|]. rewrite Hcount. apply sum_over_bounds. intros [bi p] Hbp. cbn [fst].
    assert (Hbi : In bi (map fst es)).
    { apply Hin. assert (Hu : usable c (expand_calls ops) bi) by (eapply (history_points_usable geo c Hc); eassumption).
      split; [|eapply Hp; exact Hbp]. destruct HI as [_ [Hsh _]]. rewrite Hsh. apply (usable_bdom c Hc _ _ H0 Hu). }
    assert (HL : forall x, In x (map fst es) -> length x = 2%nat).
    { intros x Hx. apply Hin in Hx. pose proof (has_b_usable c 0 m x HI HR Hx) as [L _]. congruence. }
    cbn [seq]. unfold sum_over. cbn [map fold_right].
    pose proof (sharing_bounds _ 0 bi Hnd HL Hbi). pose proof (sharing_bounds _ 1 bi Hnd HL Hbi).
    pose proof (sharing_bounds _ 2 bi Hnd HL Hbi). pose proof (sharing_bounds _ 3 bi Hnd HL Hbi). lia.
  - intros He. pose proof HI as [[_ [_ [_ Hbox]]] _].
    destruct (Hbox Hmin Hmax Hdyn) as [L1 [L2 HQ]]. destruct (HQ 0%nat ltac:(lia)) as [_ [[B|[b [B _]]] C]].
    2: { apply Hin in B. rewrite He in B. destruct B. }
    destruct C as [C|[b [C _]]]; [|apply Hin in C; rewrite He in C; destruct C].
    unfold merge_map. cbn [seq omap]. rewrite B, C. reflexivity.
Qed.
End Merge.

(** ** Conversion to a probability grid *)
Lemma ofold_optional {B : Type} (F : B -> option (Z * Z * Q)) (l : list B) : forall g,
  ofold (fun g x => match F x with Some w => set3 g w | None => Ok g end) l g =
  ofold set3 (flat_map (fun x => match F x with Some w => [w] | None => [] end) l) g.
Proof.
  induction l as [|x l IH]; intros g; [reflexivity|]. cbn [ofold flat_map]. destruct (F x) as [w|]; cbn [app obind ofold].
  - destruct (set3 g w); cbn [obind]; [apply IH|reflexivity|reflexivity].
  - apply IH.
Qed.

Lemma pixel_cell (res sres : Q) (n u : Z) : (0 < res)%Q -> (0 < sres)%Q -> 0 <= u < Qceiling (inject_Z n * res / sres) ->
  qtrunc (inject_Z u * sres / res) = Qfloor (inject_Z u * sres / res) /\ 0 <= Qfloor (inject_Z u * sres / res) < n.
Proof.
  intros Hr Hs [H0 H1].
  assert (Hu : (0 <= inject_Z u)%Q) by (change 0%Q with (inject_Z 0); rewrite <- Zle_Qle; exact H0).
  assert (A : (0 <= inject_Z u * sres / res)%Q).
  { apply Qle_shift_div_l; [exact Hr|]. setoid_replace (0 * res)%Q with 0%Q by ring.
    setoid_replace 0%Q with (0 * sres)%Q by ring. apply Qmult_le_compat_r; [exact Hu|lra]. }
  split; [unfold qtrunc; rewrite (proj2 (Qle_bool_iff _ _) A); reflexivity|]. split.
  - rewrite <- (Qfloor_Z 0). apply Qfloor_resp_le. exact A.
  - assert (B : (inject_Z u * sres / res < inject_Z n)%Q).
    { apply Qlt_shift_div_r; [exact Hr|].
      assert (C : (inject_Z u < inject_Z n * res / sres)%Q).
      { eapply Qle_lt_trans; [|apply Qceiling_lt]. rewrite <- Zle_Qle. lia. }
      apply (Qmult_lt_r _ _ sres Hs) in C. eapply Qlt_le_trans; [exact C|].
      apply Qle_lteq. right. field. intros E. rewrite E in Hs. discriminate. }
    pose proof (Qfloor_le (inject_Z u * sres / res)) as D.
    assert (E : (inject_Z (Qfloor (inject_Z u * sres / res)) < inject_Z n)%Q) by (eapply Qle_lt_trans; eassumption).
    rewrite <- Zlt_Qlt in E. exact E.
Qed.

Section ToGrid.
Context {V W : Type}.
Variable merge : V -> V -> V.
Variable dsample : V -> W -> Q.
Variable from_grid : list Q -> W.
Variable res : Q.
Variable size : list Z.
Variable mn : idx.
Hypothesis Hargs : mono_args res size mn.
Variable sres : Q.
Hypothesis Hs : (0 < sres)%Q.

Definition grid_cell (u v : Z) : idx :=
  [nth 0 mn 0 + Qfloor (inject_Z u * sres / res); nth 1 mn 0 + Qfloor (inject_Z v * sres / res)].
Definition grid_point (u v : Z) : list Q := [inject_Z u * sres; inject_Z v * sres]%Q.
Definition grid_score (m : mono V) (u v : Z) : Q :=
  match mcell m (grid_cell u v) with Some d => dsample d (from_grid (grid_point u v)) | None => 0%Q end.

Lemma mono_grid_spec (m : mono V) : mono_ok res size mn m ->
  let ext d := Qceiling (inject_Z (nth d size 0%Z) * res / sres) in
  ext 0%nat < 2 ^ 64 -> ext 1%nat < 2 ^ 64 ->
  exists g, mono_to_grid merge dsample from_grid sres m = Ok g /\ g_width g = ext 0%nat /\ g_height g = ext 1%nat /\
    forall u v, 0 <= u < g_width g -> 0 <= v < g_height g ->
      in_cells size mn (grid_cell u v) /\ (g_at g u v == probability (grid_score m u v))%Q.
Proof.
  intros Hm ext X0 X1. pose proof Hargs as [Hr [L1 [L2 Hi]]].
  pose proof (Hi 0%nat ltac:(lia)) as I0. pose proof (Hi 1%nat ltac:(lia)) as I1.
  assert (Hext : forall d, (d < 2)%nat -> 0 <= ext d).
  { intros d Hd. unfold ext. rewrite <- (Qceiling_Z 0). apply Qceiling_resp_le. apply Qle_shift_div_l; [exact Hs|].
    setoid_replace (inject_Z 0 * sres)%Q with (0 * res)%Q by ring. apply Qmult_le_compat_r; [|lra].
    change 0%Q with (inject_Z 0). rewrite <- Zle_Qle. apply (Hi d Hd). }
  assert (Hin : forall u v, 0 <= u < ext 0%nat -> 0 <= v < ext 1%nat -> in_cells size mn (grid_cell u v)).
  { intros u v Hu Hv. destruct (pixel_cell res sres _ u Hr Hs Hu) as [_ A]. destruct (pixel_cell res sres _ v Hr Hs Hv) as [_ B].
    split; [reflexivity|]. intros [|[|d]] Hd; unfold grid_cell; cbn [nth]; lia. }
  unfold mono_to_grid. rewrite (mk_size _ _ _ _ Hm).
  rewrite (mk_res _ _ _ _ Hm). fold (ext 0%nat) (ext 1%nat).
  assert (Hsz : forall z, 0 <= z -> z < 2 ^ 64 -> to_size z = Ok z).
  { intros z A B. unfold to_size. destruct (Z.leb_spec 0 z); [|lia]. destruct (Z.ltb_spec z (2 ^ 64)); [reflexivity|lia]. }
  rewrite (Hsz (ext 1%nat)) by (auto; apply Hext; lia). cbn [obind].
  rewrite (Hsz (ext 0%nat)) by (auto; apply Hext; lia). cbn [obind].
  set (F := fun w : Z * Z => let y := validate_score (grid_score m (fst w) (snd w)) in
              if Qle_bool 0 y then Some (fst w, snd w, y) else None).
  set (g0 := {| g_width := ext 0%nat; g_height := ext 1%nat; g_at := fun _ _ => 0%Q |}).
  set (ws := flat_map (fun x => match F x with Some w => [w] | None => [] end)
               (flat_map (fun v => map (fun u => (u, v)) (int_range (ext 0%nat))) (int_range (ext 1%nat)))).
  match goal with |- exists g, ofold ?f ?l ?a = _ /\ _ => assert (EQ : ofold f l a = ofold set3 ws g0) end.
  { unfold ws. rewrite <- ofold_optional, <- ofold_concat. apply ofold_ext. intros g v Hv. apply int_range_in in Hv.
    rewrite <- (ofold_map_in (fun g x => match F x with Some w => set3 g w | None => Ok g end) (fun u => (u, v))).
    apply ofold_ext. clear g. intros g u Hu. apply int_range_in in Hu.
    destruct (pixel_cell res sres _ u Hr Hs Hu) as [A1 A2]. destruct (pixel_cell res sres _ v Hr Hs Hv) as [B1 B2].
    rewrite A1, B1. rewrite !to_int_ok by (unfold INT_MIN, INT_MAX in *; lia). cbn [obind].
    rewrite (mk_min _ _ _ _ Hm). rewrite !to_int_ok by (unfold INT_MIN, INT_MAX in *; lia). cbn [obind].
    unfold mono_sample_at. fold (grid_cell u v). rewrite (get_ok merge res size mn Hargs m _ Hm (Hin u v Hu Hv)). cbn [obind].
    fold (grid_point u v). fold (grid_score m u v). unfold F. cbn [fst snd].
    destruct (Qle_bool 0 (validate_score (grid_score m u v))); reflexivity. }
  rewrite EQ.
  assert (Hmem : forall u v x, In (u, v, x) ws <-> (0 <= u < ext 0%nat /\ 0 <= v < ext 1%nat /\
      x = validate_score (grid_score m u v) /\ Qle_bool 0 x = true)).
  { intros u v x. unfold ws. rewrite in_flat_map. split.
    - intros [[u' v'] [A B]]. apply in_flat_map in A. destruct A as [v1 [A1 A2]]. apply in_map_iff in A2.
      destruct A2 as [u1 [A2 A3]]. injection A2 as -> ->. apply int_range_in in A1. apply int_range_in in A3.
      unfold F in B. cbn [fst snd] in B. destruct (Qle_bool 0 (validate_score (grid_score m u' v'))) eqn:E; [|destruct B].
      destruct B as [B|[]]. injection B as <- <- <-. auto.
    - intros [A [B [-> E]]]. exists (u, v). split.
      + apply in_flat_map. exists v. split; [apply int_range_in; exact B|]. apply in_map_iff. exists u.
        split; [reflexivity|apply int_range_in; exact A].
      + unfold F. cbn [fst snd]. rewrite E. left; reflexivity. }
  destruct (writes_spec ws g0) as [g [E [Wd [Hh [A B]]]]].
  { intros u v x Hx. apply Hmem in Hx. destruct Hx as [A [B _]]. split; assumption. }
  exists g. split; [exact E|]. split; [exact Wd|]. split; [exact Hh|].
  rewrite Wd, Hh. cbn [g0 g_width g_height]. intros u v Hu Hv. split; [apply Hin; assumption|].
  unfold probability.
  destruct (Qle_bool 0 (validate_score (grid_score m u v))) eqn:E0.
  - rewrite (B u v (validate_score (grid_score m u v))).
    + unfold validate_score in *. destruct (Qle_bool (grid_score m u v) 1) eqn:E1.
      * rewrite E0. reflexivity.
      * rewrite andb_false_r. reflexivity.
    + apply Hmem. auto.
    + intros y Hy. apply Hmem in Hy. apply Hy.
  - rewrite A; [|intros x Hx; apply Hmem in Hx; destruct Hx as [_ [_ [-> X]]]; congruence].
    cbn [g0 g_at]. unfold validate_score in E0. destruct (Qle_bool (grid_score m u v) 1) eqn:E1; [|discriminate E0].
    rewrite E0. reflexivity.
Qed.
End ToGrid.

Lemma cell_of_proper (res : Q) (p q : list Q) : Forall2 Qeq p q -> cell_of res p = cell_of res q.
Proof.
  unfold cell_of. induction 1 as [|x y p q H _ IH]; [reflexivity|]. cbn [map]. f_equal; [|exact IH].
  apply Qfloor_comp. rewrite H. reflexivity.
Qed.

Lemma mono_border {V W : Type} (default : V) (merge : V -> V -> V) (to_m : W -> list Q) (from_m : list Q -> W)
  (add : V -> W -> V) (dsample : V -> W -> Q) (res : Q) (size : list Z) (min : idx) (ops : list (mono_op (V:=V) (W:=W))) (m0 m : mono V) :
  mono_args res size min -> (forall q, length q = 2%nat -> Forall2 Qeq (to_m (from_m q)) q) ->
  off_border to_m res size min ops ->
  mono_new res size min = Ok m0 -> mono_run default merge to_m add ops m0 = Ok m ->
  exists p i, mono_toIndex to_m m p = Ok (Some i) /\ ~ in_cells size min i /\
    mono_get merge to_m m p = UB /\ mono_sample merge to_m dsample m p = UB /\
    mono_insert default merge to_m add m p = UB.
Proof.
  intros Ha Hf HF E0 E. destruct (new_ok (V:=V) res size min Ha) as [m0' [E0' [O0 _]]].
  assert (m0' = m0) by congruence. subst m0'.
  destruct (run_ok default merge res size min Ha to_m add dsample ops m0 O0 HF) as [m' [E' [O _]]].
  assert (m' = m) by congruence. subst m'.
  pose proof Ha as [_ [_ [_ Hi]]]. pose proof (Hi 0%nat ltac:(lia)) as I0.
  destruct (border_point res size min Ha ltac:(lia)) as [B1 B2].
  match type of B1 with has_cell _ ?q => set (q0 := q) in * end.
  pose proof (cell_of_proper res _ _ (Hf q0 eq_refl)) as EC.
  exists (from_m q0), (cell_of res (to_m (from_m q0))).
  assert (Hc : has_cell res (to_m (from_m q0))).
  { split; [rewrite (forall2_length _ _ _ (Hf q0 eq_refl)); apply B1|rewrite EC; apply B1]. }
  destruct (access_spec default merge res size min Ha to_m add dsample m (from_m q0) O Hc) as [A [B _]].
  rewrite EC in *. destruct (B B2) as [X1 [X2 [X3 X4]]]. split; [exact X1|]. split; [|auto].
  intros Hin. destruct (A Hin) as [_ [Y _]]. congruence.
Qed.

Section MergedSample.
Context {P : Type}.
Variable c : config P.
Hypothesis Hc : config_ok c.
Hypothesis Hdim : dimc c = 2%nat.
Hypothesis Hdyn : kindc c = Dynamic.
Hypothesis Hmin : aminc c = cw_min.
Hypothesis Hmax : amaxc c = cw_max.
Variable bres : Q.
Hypothesis Hb : (0 < bres)%Q.
Variable plus : P -> P -> P.
Variable to_m : list Q -> list Q.
Variable dsample : P -> list Q -> Q.

Lemma merged_sample (l : list (map_action (P:=P))) : fits c l ->
  exists m es, cact_all c l (new_map c) = Ok m /\ cbundles c m = Ok es /\
    (es <> [] -> exists dst, merge_map c bres plus m = Ok dst /\
       forall p, has_cell bres (to_m p) -> 
       let bi := cell_of bres (to_m p) in
       (In bi (map fst es) -> exists vs, length vs = 4%nat /\
          (forall i, (i < 4)%nat -> cstored c m i (generate_index bi i) = Ok (Some (nth i vs (defaultc c)))) /\
          mono_sample (mergec c) to_m dsample dst p = Ok (dsample (fold_left plus vs (defaultc c)) p)) /\
       (~ In bi (map fst es) -> (forall d, (d < 2)%nat -> nth d bi 0 <= nth d (max_bi m) 0) ->
          mono_sample (mergec c) to_m dsample dst p = Ok 0%Q)).
Proof.
  intros Hf. destruct (run_spec c Hc l Hf) as [m [E [HI [HR _]]]].
  destruct (cbundles_spec c m HI) as [es [Ees [Hnd Hmem]]]. exists m, es. split; [exact E|]. split; [exact Ees|].
  intros Hne. destruct (merge_spec c Hdim Hdyn Hmin Hmax bres Hb plus m es HI HR Ees Hne) as [dst [F1 [Ha [O [F4 [F5 _]]]]]].
  exists dst. split; [exact F1|]. intros p Hp bi.
  destruct (access_spec (defaultc c) (mergec c) bres _ _ Ha to_m (fun d _ => d) dsample dst p O Hp) as [A [_ C]]. fold bi in A, C.
  pose proof (cbundles_in c m es HI Ees) as Hin. split.
  - intros Hbi. destruct (F4 bi Hbi) as [G1 G2]. exists (map (bundle_value c m bi) (seq 0 4)). split; [reflexivity|]. split.
    + intros i Hi. apply Hin in Hbi. pose proof (has_b_usable c 0 m bi HI HR Hbi) as Hu.
      assert (Hi' : (i < bin_count (dimc c))%nat) by (rewrite Hdim; exact Hi).
      assert (Hd : cddom c (cshape c (new_map c)) i (generate_index bi i))
        by (apply (usable_okidx c Hc 0 bi ltac:(lia) Hu); exact Hi').
      rewrite (cstored_spec c Hc m i _ HI (dom_cell c Hc i _ Hi' Hd)).
      rewrite (nth_indep _ (defaultc c) (bundle_value c m bi 0%nat)) by (rewrite map_length, seq_length; exact Hi).
      rewrite (map_nth (bundle_value c m bi) _ 0%nat), seq_nth by exact Hi. cbn [Nat.add]. unfold bundle_value.
      destruct Hbi as [Hbd Hbb]. destruct (cbget c m bi) as [b|] eqn:Eb; [|contradiction].
      pose proof HI as [[[Hwf HIb] _] _]. destruct (HIb bi b Hbd Eb) as [_ [_ Hex]]. destruct (Hex i Hi') as [d Hd'].
      unfold cdget. rewrite Hd'. reflexivity.
    + destruct (A G1) as [_ [_ [S _]]]. rewrite S, G2. reflexivity.
  - intros Hbi Hle.
    assert (Hdec : arr_inside [nth 0 (max_bi m) 0 - nth 0 (min_bi m) 0 + 1; nth 1 (max_bi m) 0 - nth 1 (min_bi m) 0 + 1] (min_bi m) bi = true \/
                   ~ in_cells [nth 0 (max_bi m) 0 - nth 0 (min_bi m) 0 + 1; nth 1 (max_bi m) 0 - nth 1 (min_bi m) 0 + 1] (min_bi m) bi).
    { match goal with |- ?b = true \/ _ => destruct b eqn:X end; [left; reflexivity|right].
      intros Y. apply (inside_iff bres _ _ Ha) in Y. congruence. }
    destruct Hdec as [Hi|Ho].
    + apply (inside_iff bres _ _ Ha) in Hi. destruct (A Hi) as [_ [_ [S _]]]. rewrite S, (F5 bi Hbi). reflexivity.
    + destruct (C Ho) as [_ [_ [S _]]]; [|exact S].
      intros [_ [d [Hd X]]]. specialize (Hle d Hd). destruct d as [|[|d]]; cbn [nth] in X, Hle; lia.
Qed.
End MergedSample.

Section GridOfMono.
Context {V : Type}.
Variable default : V.
Variable merge : V -> V -> V.
Variable dsample : V -> list Q -> Q.
Variable to_m from_grid : list Q -> list Q.
Variable res sres : Q.
Variable size : list Z.
Variable mn : idx.
Hypothesis Hargs : mono_args res size mn.
Hypothesis Hs : (0 < sres)%Q.

Lemma mono_grid_scores (m : mono V) : mono_ok res size mn m ->
  let ext d := Qceiling (inject_Z (nth d size 0%Z) * res / sres) in
  ext 0%nat < 2 ^ 64 -> ext 1%nat < 2 ^ 64 ->
  exists g, mono_to_grid merge dsample from_grid sres m = Ok g /\ g_width g = ext 0%nat /\ g_height g = ext 1%nat /\
    forall u v, 0 <= u < g_width g -> 0 <= v < g_height g ->
      let p := [inject_Z u * sres; inject_Z v * sres]%Q in
      Forall2 Qeq (to_m (from_grid p)) [inject_Z (nth 0 mn 0%Z) * res + inject_Z u * sres; inject_Z (nth 1 mn 0%Z) * res + inject_Z v * sres]%Q ->
      exists s, mono_sample merge to_m dsample m (from_grid p) = Ok s /\ (g_at g u v == probability s)%Q.
Proof.
  intros Hm ext X0 X1. destruct (mono_grid_spec merge dsample from_grid res size mn Hargs sres Hs m Hm X0 X1) as [g [E [W [H G]]]].
  exists g. split; [exact E|]. split; [exact W|]. split; [exact H|]. intros u v Hu Hv p Hp.
  destruct (G u v Hu Hv) as [Hin Hg]. pose proof Hargs as [Hr [L1 [L2 Hi]]].
  assert (F : forall z q, Qfloor ((inject_Z z * res + q) / res) = z + Qfloor (q / res)).
  { intros z q. setoid_replace ((inject_Z z * res + q) / res)%Q with (q / res + inject_Z z)%Q.
    - rewrite Z.add_comm. clear. destruct (q / res)%Q as [a b]. unfold Qplus, inject_Z, Qfloor. cbn [Qnum Qden].
      rewrite Pos.mul_1_r, Z.mul_1_r. apply Z.div_add. lia.
    - field. intros X. rewrite X in Hr. discriminate. }
  assert (EC : cell_of res (to_m (from_grid p)) = grid_cell res mn sres u v).
  { rewrite (cell_of_proper res _ _ Hp). unfold cell_of, grid_cell. cbn [map]. rewrite !F. reflexivity. }
  assert (Hc : has_cell res (to_m (from_grid p))).
  { split; [rewrite (forall2_length _ _ _ Hp); reflexivity|]. rewrite EC. destruct Hin as [_ Hin]. unfold INT_MIN, INT_MAX in *.
    pose proof (Hi 0%nat ltac:(lia)). pose proof (Hi 1%nat ltac:(lia)).
    pose proof (Hin 0%nat ltac:(lia)) as A0. pose proof (Hin 1%nat ltac:(lia)) as A1. unfold grid_cell in *. cbn [nth] in A0, A1.
    constructor; [lia|]. constructor; [lia|constructor]. }
  destruct (access_spec (V:=V) (W:=list Q) default merge res size mn Hargs to_m (fun d _ => d) dsample m (from_grid p) Hm Hc) as [A _].
  rewrite EC in A. destruct (A Hin) as [_ [_ [S _]]]. eexists. split; [exact S|]. exact Hg.
Qed.
End GridOfMono.

(** ** Statements over histories *)
Section History.
Context {V W : Type}.
Variable default : V.
Variable merge : V -> V -> V.
Variable to_m : W -> list Q.
Variable add : V -> W -> V.
Variable dsample : V -> W -> Q.
Variable res : Q.
Variable size : list Z.
Variable min : idx.
Hypothesis Hargs : mono_args res size min.
Notation run := (mono_run default merge to_m add).

Lemma mono_history (ops : list (mono_op (V:=V) (W:=W))) : off_border to_m res size min ops ->
  exists m0 m, mono_new res size min = Ok m0 /\ run ops m0 = Ok m /\ mono_ok res size min m /\
    forall i, in_cells size min i -> mcell m i = cell_history default to_m add res ops i.
Proof.
  intros HF. destruct (new_ok (V:=V) res size min Hargs) as [m0 [E0 [O0 C0]]].
  destruct (run_ok default merge res size min Hargs to_m add dsample ops m0 O0 HF) as [m [E [O C]]].
  exists m0, m. split; [exact E0|]. split; [exact E|]. split; [exact O|]. intros i Hi. rewrite (C i Hi), C0. reflexivity.
Qed.

Lemma mono_points (ops : list (mono_op (V:=V) (W:=W))) : off_border to_m res size min ops ->
  exists m0 m, mono_new res size min = Ok m0 /\ run ops m0 = Ok m /\
    forall p, has_cell res (to_m p) ->
      let i := cell_of res (to_m p) in
      (in_cells size min i ->
         mono_toIndex to_m m p = Ok (Some i) /\ mono_get merge to_m m p = Ok (cell_history default to_m add res ops i) /\
         mono_sample merge to_m dsample m p =
           Ok (match cell_history default to_m add res ops i with Some d => dsample d p | None => 0%Q end) /\
         exists m', mono_insert default merge to_m add m p = Ok m') /\
      (on_border size min i ->
         mono_toIndex to_m m p = Ok (Some i) /\ mono_get merge to_m m p = UB /\
         mono_sample merge to_m dsample m p = UB /\ mono_insert default merge to_m add m p = UB) /\
      (~ in_cells size min i -> ~ on_border size min i ->
         mono_toIndex to_m m p = Ok None /\ mono_get merge to_m m p = Ok None /\
         mono_sample merge to_m dsample m p = Ok 0%Q /\ mono_insert default merge to_m add m p = Ok m).
Proof.
  intros HF. destruct (mono_history ops HF) as [m0 [m [E0 [E [O C]]]]]. exists m0, m. split; [exact E0|]. split; [exact E|].
  intros p Hp i. destruct (access_spec default merge res size min Hargs to_m add dsample m p O Hp) as [A B]. fold i in A, B.
  split; [|exact B]. intros Hi. destruct (A Hi) as [A1 [A2 [A3 [m' [A4 _]]]]]. rewrite <- (C i Hi).
  split; [exact A1|]. split; [exact A2|]. split; [exact A3|]. exists m'. exact A4.
Qed.
End History.

Lemma mono_grid_history {V : Type} (default : V) (merge : V -> V -> V) (dsample : V -> list Q -> Q) (add : V -> list Q -> V)
  (to_m from_grid : list Q -> list Q) (res sres : Q) (size : list Z) (mn : idx) (ops : list (mono_op (V:=V) (W:=list Q))) :
  mono_args res size mn -> (0 < sres)%Q -> off_border to_m res size mn ops ->
  let ext d := Qceiling (inject_Z (nth d size 0%Z) * res / sres) in
  ext 0%nat < 2 ^ 64 -> ext 1%nat < 2 ^ 64 ->
  exists m0 m g, mono_new res size mn = Ok m0 /\ mono_run default merge to_m add ops m0 = Ok m /\
    mono_to_grid merge dsample from_grid sres m = Ok g /\ g_width g = ext 0%nat /\ g_height g = ext 1%nat /\
    forall u v, 0 <= u < g_width g -> 0 <= v < g_height g ->
      let p := [inject_Z u * sres; inject_Z v * sres]%Q in
      Forall2 Qeq (to_m (from_grid p)) [inject_Z (nth 0 mn 0%Z) * res + inject_Z u * sres; inject_Z (nth 1 mn 0%Z) * res + inject_Z v * sres]%Q ->
      exists s, mono_sample merge to_m dsample m (from_grid p) = Ok s /\ (g_at g u v == probability s)%Q.
Proof.
  intros Ha Hs HF ext X0 X1. destruct (mono_history default merge to_m add dsample res size mn Ha ops HF) as [m0 [m [E0 [E [O _]]]]].
  destruct (mono_grid_scores default merge dsample to_m from_grid res sres size mn Ha Hs m O X0 X1) as [g G].
  exists m0, m, g. split; [exact E0|]. split; [exact E|]. exact G.
Qed.

From Coq Require Import Sorted Permutation.
From Verif Require Import Base OctreeSpec OctreeModel OctreeFacts OctreeHist OctreeSize BytesSpec BytesModel.
Open Scope Z_scope.

Notation ldec := (list_eq_dec Z.eq_dec).

(** ** Counting different values *)
Lemma nodup_len_app (l1 l2 : list (list Z)) :
  (forall x, In x l1 -> ~ In x l2) ->
  length (nodup ldec (l1 ++ l2)) = (length (nodup ldec l1) + length (nodup ldec l2))%nat.
Proof.
  induction l1 as [|a l1 IH]; intros H; [reflexivity|]. cbn [app nodup].
  assert (Hl : forall x, In x l1 -> ~ In x l2) by (intros x Hx; apply H; right; exact Hx).
  destruct (in_dec ldec a (l1 ++ l2)) as [Hi|Hi], (in_dec ldec a l1) as [Hj|Hj]; cbn [length]; rewrite ?IH by exact Hl.
  - reflexivity.
  - exfalso. apply in_app_iff in Hi. destruct Hi as [Hi|Hi]; [contradiction|].
    exact (H a (or_introl eq_refl) Hi).
  - exfalso. apply Hi, in_app_iff. left; exact Hj.
  - reflexivity.
Qed.

Lemma nodup_len_const (a : list Z) (l : list (list Z)) :
  l <> [] -> (forall x, In x l -> x = a) -> length (nodup ldec l) = 1%nat.
Proof.
  intros Hne H. destruct l as [|b l]; [contradiction|].
  assert (Hb : b = a) by (apply H; left; reflexivity). subst b. clear Hne.
  induction l as [|b l IH]; [reflexivity|].
  assert (b = a) by (apply H; right; left; reflexivity). subst b.
  cbn [nodup]. destruct (in_dec ldec a (a :: l)) as [Hi|Hi]; [|exfalso; apply Hi; left; reflexivity].
  apply IH. intros x [Hx|Hx]; apply H; [left; exact Hx|right; right; exact Hx].
Qed.

Lemma nodup_len_set (l1 l2 : list (list Z)) :
  (forall x, In x l1 -> In x l2) -> (length (nodup ldec l1) <= length (nodup ldec l2))%nat.
Proof.
  intros H. apply NoDup_incl_length; [apply NoDup_nodup|].
  intros x Hx. apply nodup_In. apply H. apply nodup_In in Hx. exact Hx.
Qed.

Lemma blocks_mono (s : nat) (k1 k2 : list idx) :
  (forall i, In i k1 -> In i k2) -> blocks s k1 <= blocks s k2.
Proof.
  intros H. unfold blocks. apply inj_le, nodup_len_set.
  intros x Hx. apply in_map_iff in Hx. destruct Hx as [i [<- Hi]]. apply in_map, H, Hi.
Qed.

Lemma blocks_from_mono (a : nat) (k1 k2 : list idx) :
  (forall i, In i k1 -> In i k2) -> blocks_from a k1 <= blocks_from a k2.
Proof.
  intros H. unfold blocks_from. induction (seq a (17 - a)) as [|s l IH]; cbn [map fold_right]; [lia|].
  pose proof (blocks_mono s k1 k2 H). lia.
Qed.

(** ** Blocks and child positions *)
Lemma block_length (s : nat) (i : idx) : length (block s i) = length i.
Proof. apply map_length. Qed.

Lemma block_nth (s : nat) (i : idx) (d : nat) : (d < length i)%nat ->
  nth d (block s i) 0 = (nth d i 0 + 32768) / 2 ^ Z.of_nat s.
Proof.
  unfold block. revert d. induction i as [|x i IH]; intros d H; [cbn in H; lia|].
  destruct d as [|d]; [reflexivity|]. apply IH. cbn in H. lia.
Qed.

Lemma testbit_div (x : Z) (s r : nat) : (s <= r)%nat ->
  Z.testbit x (Z.of_nat r) = Z.testbit (x / 2 ^ Z.of_nat s) (Z.of_nat (r - s)).
Proof.
  intros H. rewrite Z.div_pow2_bits by lia. f_equal. lia.
Qed.

Lemma block_cidx (s r : nat) (i j : idx) : length i = length j -> (s <= r)%nat ->
  block s i = block s j -> cidx i r = cidx j r.
Proof.
  intros HL Hs H. apply cidx_eq_iff; [exact HL|]. intros d Hd.
  rewrite !(testbit_div _ s r Hs). rewrite <- !block_nth by lia. rewrite H. reflexivity.
Qed.

Lemma cidx_block (dims s : nat) (i j : idx) :
  in_tree_range dims i -> in_tree_range dims j ->
  (forall r, (s <= r < 16)%nat -> cidx i r = cidx j r) -> block s i = block s j.
Proof.
  intros [Li Ri] [Lj Rj] H. apply (nth_ext _ _ 0 0).
  - rewrite !block_length. congruence.
  - rewrite block_length. intros d Hd.
    assert (Hd' : (d < length j)%nat) by (rewrite Lj, <- Li; exact Hd).
    rewrite (block_nth s i d Hd), (block_nth s j d Hd').
    rewrite Forall_forall in Ri, Rj.
    pose proof (Ri (nth d i 0) (nth_In _ _ Hd)) as Bi.
    pose proof (Rj (nth d j 0) (nth_In _ _ Hd')) as Bj.
    apply Z.bits_inj'. intros n Hn. rewrite !Z.div_pow2_bits by lia.
    destruct (Z.lt_ge_cases (n + Z.of_nat s) 16) as [Hlt|Hge].
    + specialize (H (Z.to_nat (n + Z.of_nat s)) ltac:(lia)).
      rewrite cidx_eq_iff in H by congruence. specialize (H d Hd).
      rewrite Z2Nat.id in H by lia. exact H.
    + assert (T : forall x, -32768 <= x <= 32767 -> Z.testbit (x + 32768) (n + Z.of_nat s) = false).
      { intros x Hx. destruct (Z.eq_dec (x + 32768) 0) as [->|Hne]; [apply Z.bits_0|].
        apply Z.bits_above_log2; [lia|]. apply Z.log2_lt_pow2; [lia|].
        eapply Z.lt_le_trans with (2 ^ 16); [lia|]. apply Z.pow_le_mono_r; lia. }
      rewrite !T by lia. reflexivity.
Qed.

(** ** Summing over the nodes of a tree *)
Section Tally.
Context {V : Type}.
Variable dims : nat.
(** Weight of a node with [r] levels beneath it; weight of a stored pair. *)
Variable w : nat -> Z.
Variable d : idx * V -> Z.

Fixpoint tally (r : nat) (nd : node V) : Z :=
  match r with
  | O => match nd with NData i v => w 0 + d (i, v) | _ => 0 end
  | S r' =>
      match nd with
      | NChildren l =>
          w (S r') + fold_right (fun x acc => match x with Some c => tally r' c + acc | None => acc end) 0 l
      | _ => 0
      end
  end.

Fixpoint total (r : nat) (keys : list idx) : Z :=
  match r with
  | O => w 0 * blocks 0 keys
  | S r' => w (S r') * blocks (S r') keys + total r' keys
  end.

Definition dsum (es : list (idx * V)) : Z := fold_right Z.add 0 (map d es).

Lemma dsum_app (a b : list (idx * V)) : dsum (a ++ b) = dsum a + dsum b.
Proof. unfold dsum. rewrite map_app. induction a as [|x a IH]; cbn [map app fold_right]; [lia|]. rewrite IH. lia. Qed.

Lemma blocks_app (s : nat) (k1 k2 : list idx) :
  (forall i j, In i k1 -> In j k2 -> block s i <> block s j) -> blocks s (k1 ++ k2) = blocks s k1 + blocks s k2.
Proof.
  intros H. unfold blocks. rewrite map_app, nodup_len_app; [lia|].
  intros x H1 H2. apply in_map_iff in H1. apply in_map_iff in H2.
  destruct H1 as [i [<- Hi]], H2 as [j [Hj Hin]]. apply (H i j Hi Hin). congruence.
Qed.

Lemma total_app (r : nat) (k1 k2 : list idx) :
  (forall i j s, (s <= r)%nat -> In i k1 -> In j k2 -> block s i <> block s j) ->
  total r (k1 ++ k2) = total r k1 + total r k2.
Proof.
  intros H. induction r as [|r IH]; cbn [total].
  - rewrite blocks_app; [lia|]. intros i j. apply H. lia.
  - rewrite IH, blocks_app; [lia| |].
    + intros i j. apply H. lia.
    + intros i j s Hs. apply H. lia.
Qed.

Lemma total_nil (r : nat) : total r [] = 0.
Proof.
  induction r as [|r IH]; cbn [total]; [|rewrite IH]; change (blocks _ []) with 0; lia.
Qed.

Lemma tally_spec (r : nat) (P : idx -> Prop) (nd : node V) : (r <= 16)%nat ->
  wf dims r P nd -> (forall i, P i -> in_tree_range dims i) ->
  (forall i j, P i -> P j -> forall k, (r <= k < 16)%nat -> cidx i k = cidx j k) ->
  exists es, node_traverse r nd = Ok es /\ es <> [] /\ Forall (fun e => P (fst e)) es /\
    tally r nd = total r (map fst es) + dsum es.
Proof.
  revert P nd; induction r as [|r IH]; intros P nd Hr Hwf HP Hk.
  - cbn [wf node_traverse tally] in *. destruct nd as [|l|i v]; try contradiction.
    exists [(i, v)]. split; [reflexivity|]. split; [discriminate|]. split; [repeat constructor; apply Hwf|].
    cbn [total map fst]. unfold dsum. cbn [map fold_right].
    change (blocks 0 [i]) with 1. lia.
  - cbn [wf] in Hwf. destruct nd as [|l|i v]; try contradiction.
    destruct Hwf as [_ [[p0 [c0 Hp0]] Hc]]. rewrite node_traverse_S. cbn [tally].
    assert (Hgo : forall (l : list (option (node V))) (off : nat),
      (forall p c, nth_error l p = Some (Some c) -> wf dims r (fun i => P i /\ cidx i r = (off + p)%nat) c) ->
      exists es, go_list r l = Ok es /\ Forall (fun e => P (fst e) /\ (off <= cidx (fst e) r)%nat) es /\
        ((exists p c, nth_error l p = Some (Some c)) -> es <> []) /\
        fold_right (fun x acc => match x with Some c => tally r c + acc | None => acc end) 0 l
          = total r (map fst es) + dsum es).
    { clear l p0 c0 Hp0 Hc. induction l as [|x l IHl]; intros off H.
      - exists []. split; [reflexivity|]. split; [constructor|]. split.
        + intros [[|p] [c Hp]]; discriminate.
        + cbn [map fold_right]. rewrite total_nil. reflexivity.
      - destruct (IHl (S off)) as [es [E [HF [Hne Hsum]]]].
        { intros p c Hp. specialize (H (S p) c Hp). eapply wf_ext; [|exact H]. cbn.
          intros i [Hi Hci]. split; [exact Hi|lia]. }
        destruct x as [c|]; cbn [fold_right go_list].
        + destruct (IH _ c ltac:(lia) (H O c eq_refl)) as [es1 [E1 [Hne1 [HF1 Hs1]]]].
          { cbn. intros i [Hi _]. auto. }
          { cbn. intros i j [Hi Ci] [Hj Cj] k Hkr. destruct (Nat.eq_dec k r) as [->|Hn]; [congruence|].
            apply Hk; [exact Hi|exact Hj|lia]. }
          cbn beta in HF1. rewrite Forall_forall in HF, HF1.
          exists (es1 ++ es). rewrite E1. cbn [obind]. rewrite E. cbn [obind]. split; [reflexivity|].
          split; [|split].
          * apply Forall_app. split; apply Forall_forall; intros e He.
            -- destruct (HF1 e He) as [Hp Hci]. split; [exact Hp|lia].
            -- destruct (HF e He) as [Hp Hci]. split; [exact Hp|lia].
          * intros _ Hn. apply app_eq_nil in Hn. destruct Hn. contradiction.
          * rewrite Hsum, Hs1, map_app, dsum_app, total_app; [lia|].
            intros i j s Hs Hi Hj Hb. apply in_map_iff in Hi. apply in_map_iff in Hj.
            destruct Hi as [ei [<- Hi]], Hj as [ej [<- Hj]].
            destruct (HF1 ei Hi) as [Pi Ci], (HF ej Hj) as [Pj Cj].
            assert (cidx (fst ei) r = cidx (fst ej) r); [|lia].
            apply (block_cidx s); [|exact Hs|exact Hb].
            destruct (HP _ Pi) as [-> _], (HP _ Pj) as [-> _]. reflexivity.
        + exists es. split; [exact E|]. split; [|split].
          * eapply Forall_impl; [|exact HF]. cbn. intros e [He Hce]. split; [exact He|lia].
          * intros [[|p] [c Hp]]; [discriminate|]. apply Hne. exists p, c. exact Hp.
          * exact Hsum. }
    destruct (Hgo l O Hc) as [es [E [HF [Hne Hsum]]]].
    assert (Hnn : es <> []) by (apply Hne; exists p0, c0; exact Hp0).
    exists es. split; [exact E|]. split; [exact Hnn|]. split.
    { eapply Forall_impl; [|exact HF]. cbn. tauto. }
    rewrite Hsum. cbn [total].
    assert (B1 : blocks (S r) (map fst es) = 1); [|rewrite B1; lia].
    unfold blocks. destruct es as [|e es]; [contradiction|].
    rewrite (nodup_len_const (block (S r) (fst e))); [reflexivity|discriminate|].
    intros x Hx. apply in_map_iff in Hx. destruct Hx as [i [<- Hi]].
    apply in_map_iff in Hi. destruct Hi as [e' [<- He']]. rewrite Forall_forall in HF.
    destruct (HF e' He') as [P' _], (HF e (or_introl eq_refl)) as [P0 _].
    apply (cidx_block dims); auto.
Qed.

End Tally.

(** ** Node count *)
Lemma below_tally {V : Type} (dims : nat) (r : nat) (P : idx -> Prop) (nd : node V) :
  wf dims r P nd -> 1 + below r nd = tally (fun _ => 1) (fun _ => 0) r nd.
Proof.
  revert P nd; induction r as [|r IH]; intros P nd H; cbn [wf below tally] in *.
  - destruct nd; try contradiction. lia.
  - destruct nd as [|l|]; try contradiction. destruct H as [_ [_ H]].
    f_equal.
    assert (G : forall (l : list (option (node V))),
      (forall c, In (Some c) l -> 1 + below r c = tally (fun _ => 1) (fun _ => 0) r c) ->
      fold_right (fun x acc => match x with Some c => 1 + below r c + acc | None => acc end) 0 l =
      fold_right (fun x acc => match x with Some c => tally (fun _ => 1) (fun _ => 0) r c + acc | None => acc end) 0 l).
    { clear. induction l as [|[c|] l IH]; intros H; cbn [fold_right]; [reflexivity| |].
      - rewrite (H c) by (left; reflexivity). rewrite IH; [reflexivity|]. intros; apply H; right; assumption.
      - apply IH. intros; apply H; right; assumption. }
    apply G. intros c Hc. apply In_nth_error in Hc. destruct Hc as [p Hp].
    eapply IH. apply (H p c Hp).
Qed.

Lemma total_const (a : Z) (keys : list idx) : total (fun _ => a) 16 keys = a * blocks_from 0 keys.
Proof. unfold blocks_from. cbn [total seq map fold_right Nat.sub]. ring. Qed.

Lemma all_nodes_blocks {V : Type} (dims : nat) (t : octree V) (es : list (idx * V)) :
  otree_wf dims (in_tree_range dims) t -> octree_traverse t = Ok es -> all_nodes t = blocks_from 0 (map fst es).
Proof.
  unfold otree_wf, octree_traverse, all_nodes. destruct (root t) as [nd|].
  - intros Hw He. destruct (tally_spec dims (fun _ => 1) (fun _ : idx * V => 0) tree_depth _ nd (le_n _) Hw (fun i H => H))
      as [es' [E [_ [_ Hs]]]].
    { intros i j _ _ k Hk. unfold tree_depth in Hk. lia. }
    rewrite E in He. injection He as ->. rewrite (below_tally dims _ _ _ Hw), Hs.
    unfold tree_depth. rewrite total_const. unfold dsum.
    assert (Z0 : fold_right Z.add 0 (map (fun _ : idx * V => 0) es) = 0); [|rewrite Z0; lia].
    clear. induction es as [|e es IH]; cbn [map fold_right]; lia.
  - intros _ He. injection He as <-. reflexivity.
Qed.

(** ** Bytes *)
Section Bytes.
Context {V : Type}.
Variable sz : sizes.
Variable dims : nat.
Variable vbytes : V -> Z.

Definition wbytes (r : nat) : Z :=
  sz_node sz + match r with O => 0 | S _ => 2 ^ Z.of_nat dims * sz_ptr sz end.
Definition dbytes (e : idx * V) : Z := sz_index sz + vbytes (snd e).

Lemma node_bytes_tally (r : nat) (P : idx -> Prop) (nd : node V) :
  wf dims r P nd -> node_bytes sz dims vbytes r nd = Ok (tally wbytes dbytes r nd).
Proof.
  revert P nd; induction r as [|r IH]; intros P nd H; cbn [wf node_bytes tally] in *.
  - destruct nd as [|l|i v]; try contradiction. unfold wbytes, dbytes. cbn [snd]. f_equal. lia.
  - destruct nd as [|l|]; try contradiction. destruct H as [_ [[p0 [c0 Hp0]] H]].
    cbn [hasChildren obind].
    assert (Hex : existsb (fun x : option (node V) => match x with Some _ => true | None => false end) l = true).
    { apply existsb_exists. exists (Some c0). split; [apply (nth_error_In _ _ Hp0)|reflexivity]. }
    rewrite Hex. clear Hex p0 c0 Hp0.
    change (sz_node sz + 2 ^ Z.of_nat dims * sz_ptr sz) with (wbytes (S r)).
    generalize (wbytes (S r)) as a.
    assert (G : forall (c : node V), In (Some c) l -> node_bytes sz dims vbytes r c = Ok (tally wbytes dbytes r c)).
    { intros c Hc. apply In_nth_error in Hc. destruct Hc as [p Hp]. eapply IH. apply (H p c Hp). }
    clear H IH. induction l as [|[c|] l IHl]; intros a; cbn [fold_right].
    + f_equal. lia.
    + rewrite (G c) by (left; reflexivity). cbn [obind]. rewrite IHl; [f_equal; lia|].
      intros c' Hc'. apply G. right; exact Hc'.
    + apply IHl. intros c' Hc'. apply G. right; exact Hc'.
Qed.

Lemma total_bytes (keys : list idx) :
  total wbytes 16 keys = sz_node sz * blocks_from 0 keys + 2 ^ Z.of_nat dims * sz_ptr sz * blocks_from 1 keys.
Proof. unfold blocks_from, wbytes. cbn [total seq map fold_right Nat.sub]. ring. Qed.

Lemma octree_bytes_spec (t : octree V) (es : list (idx * V)) :
  otree_wf dims (in_tree_range dims) t -> octree_traverse t = Ok es ->
  octree_bytes sz dims vbytes t =
    Ok (tree_cost (sz_tree sz) (sz_node sz) (sz_ptr sz) (sz_index sz) dims vbytes es).
Proof.
  unfold otree_wf, octree_traverse, octree_bytes, tree_cost. destruct (root t) as [nd|].
  - intros Hw He. destruct (tally_spec dims wbytes dbytes tree_depth _ nd (le_n _) Hw (fun i H => H))
      as [es' [E [_ [_ Hs]]]].
    { intros i j _ _ k Hk. unfold tree_depth in Hk. lia. }
    rewrite E in He. injection He as ->. rewrite (node_bytes_tally _ _ _ Hw), Hs. cbn [obind].
    unfold tree_depth. rewrite total_bytes. unfold dsum, dbytes. f_equal. ring.
  - intros _ He. injection He as <-. f_equal.
    change (blocks_from 0 (map fst [])) with 0. change (blocks_from 1 (map fst [])) with 0.
    cbn [map fold_right]. ring.
Qed.
End Bytes.

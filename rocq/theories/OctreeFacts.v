From Coq Require Import Sorted.
From Verif Require Import Base OctreeModel OctreeSpec.
Open Scope Z_scope.

(** ** Child positions *)
Fixpoint cidx_from (i : idx) (k r : nat) : nat :=
  match i with
  | [] => 0%nat
  | x :: i' => ((if Z.testbit (x + 32768) (Z.of_nat r) then 2 ^ k else 0) + cidx_from i' (S k) r)%nat
  end.
Definition cidx (i : idx) (r : nat) : nat := cidx_from i 0 r.

Lemma computeChildIdx_from_ok (i : idx) (k r : nat) :
  Forall (fun z => INT_MIN <= z + 32768 <= INT_MAX) i ->
  computeChildIdx_from i k r = Ok (cidx_from i k r).
Proof.
  revert k; induction i as [|x i IH]; intros k H; cbn [computeChildIdx_from cidx_from]; [reflexivity|].
  inversion H as [|y l Hx Hi]; subst. unfold int_ok, tree_max_val.
  destruct (Z.leb_spec INT_MIN (x + 32768)); [|lia].
  destruct (Z.leb_spec (x + 32768) INT_MAX); [|lia]. cbn [andb].
  rewrite IH by exact Hi. cbn [obind]. reflexivity.
Qed.

Lemma computeChildIdx_ok (dims : nat) (i : idx) (r : nat) :
  key_computable dims i -> computeChildIdx i r = Ok (cidx i r).
Proof. intros [_ H]. apply computeChildIdx_from_ok; exact H. Qed.

Lemma cidx_from_S (i : idx) (k r : nat) : cidx_from i (S k) r = (2 * cidx_from i k r)%nat.
Proof.
  revert k; induction i as [|x i IH]; intros k; cbn [cidx_from]; [reflexivity|].
  rewrite (IH (S k)), Nat.pow_succ_r'. destruct (Z.testbit _ _); lia.
Qed.

Lemma cidx_cons (x : Z) (i : idx) (r : nat) :
  cidx (x :: i) r = ((if Z.testbit (x + 32768) (Z.of_nat r) then 1 else 0) + 2 * cidx i r)%nat.
Proof. unfold cidx; cbn [cidx_from]. rewrite cidx_from_S. reflexivity. Qed.

Lemma cidx_bound (i : idx) (r : nat) : (cidx i r < 2 ^ length i)%nat.
Proof.
  induction i as [|x i IH]; [cbn; lia|].
  rewrite cidx_cons. cbn [length]. rewrite Nat.pow_succ_r'. destruct (Z.testbit _ _); lia.
Qed.

Lemma cidx_eq_iff (i j : idx) (r : nat) :
  length i = length j ->
  (cidx i r = cidx j r <->
   forall d, (d < length i)%nat ->
     Z.testbit (nth d i 0 + 32768) (Z.of_nat r) = Z.testbit (nth d j 0 + 32768) (Z.of_nat r)).
Proof.
  revert j; induction i as [|x i IH]; intros [|y j] HL; try discriminate.
  - cbn. split; [intros _ d Hd; lia|reflexivity].
  - injection HL as HL. rewrite !cidx_cons. split.
    + intros H.
      assert (Z.testbit (x + 32768) (Z.of_nat r) = Z.testbit (y + 32768) (Z.of_nat r)
              /\ cidx i r = cidx j r) as [Hb Hc]
        by (destruct (Z.testbit (x + 32768) _), (Z.testbit (y + 32768) _); split; try reflexivity; lia).
      intros [|d] Hd; cbn [nth]; [exact Hb|].
      apply (IH j HL); [exact Hc|cbn in Hd; lia].
    + intros H. pose proof (H O ltac:(cbn; lia)) as H0. cbn [nth] in H0. rewrite H0.
      f_equal. f_equal. apply (IH j HL). intros d Hd. apply (H (S d)). cbn; lia.
Qed.

Lemma column_cidx (i : idx) (k r : nat) : column i k r = Z.of_nat (cidx_from i k r).
Proof.
  revert k; induction i as [|x i IH]; intros k; cbn [column cidx_from]; [reflexivity|].
  rewrite IH. destruct (Z.testbit _ _); [|lia].
  rewrite Nat2Z.inj_add, Nat2Z.inj_pow. reflexivity.
Qed.

(** ** Paths *)
Fixpoint path_eqb (r : nat) (i j : idx) : bool :=
  match r with
  | O => true
  | S r' => Nat.eqb (cidx i r') (cidx j r') && path_eqb r' i j
  end.

Lemma path_eqb_refl (r : nat) (i : idx) : path_eqb r i i = true.
Proof. induction r; cbn [path_eqb]; [reflexivity|]. rewrite Nat.eqb_refl; assumption. Qed.

Lemma path_eqb_sym (r : nat) (i j : idx) : path_eqb r i j = path_eqb r j i.
Proof. induction r as [|r IH]; cbn [path_eqb]; [reflexivity|]. rewrite Nat.eqb_sym, IH. reflexivity. Qed.

Lemma path_eqb_iff (r : nat) (i j : idx) :
  path_eqb r i j = true <-> forall b, (b < r)%nat -> cidx i b = cidx j b.
Proof.
  induction r as [|r IH]; cbn [path_eqb]; [split; [intros _ b Hb; lia|reflexivity]|].
  rewrite andb_true_iff, IH, Nat.eqb_eq. split.
  - intros [H1 H2] b Hb. destruct (Nat.eq_dec b r) as [->|]; [exact H1|apply H2; lia].
  - intros H. split; [apply H; lia|intros b Hb; apply H; lia].
Qed.

Lemma path_eqb_trans (r : nat) (i j k : idx) :
  path_eqb r i j = true -> path_eqb r j k = true -> path_eqb r i k = true.
Proof.
  rewrite !path_eqb_iff. intros H1 H2 b Hb. rewrite H1, H2 by exact Hb. reflexivity.
Qed.

Lemma low_bits_mod (a b : Z) (n : nat) :
  (forall k, (k < n)%nat -> Z.testbit a (Z.of_nat k) = Z.testbit b (Z.of_nat k)) <->
  a mod 2 ^ Z.of_nat n = b mod 2 ^ Z.of_nat n.
Proof.
  split.
  - intros H. apply Z.bits_inj'. intros m Hm.
    destruct (Z.lt_ge_cases m (Z.of_nat n)) as [Hlt|Hge].
    + rewrite !Z.mod_pow2_bits_low by lia.
      specialize (H (Z.to_nat m) ltac:(lia)). rewrite Z2Nat.id in H by lia. exact H.
    + rewrite !Z.mod_pow2_bits_high by lia. reflexivity.
  - intros H k Hk.
    rewrite <- (Z.mod_pow2_bits_low a (Z.of_nat n)) by lia. rewrite H.
    apply Z.mod_pow2_bits_low. lia.
Qed.

Lemma mod_add_iff (a b : Z) : (a + 32768) mod 65536 = (b + 32768) mod 65536 <-> a mod 65536 = b mod 65536.
Proof. Z.div_mod_to_equations; lia. Qed.

Lemma path_same_place (i j : idx) :
  length i = length j -> (path_eqb tree_depth i j = true <-> same_place i j).
Proof.
  intros HL. rewrite path_eqb_iff. unfold same_place. split.
  - intros H. split; [exact HL|]. intros d Hd. apply mod_add_iff.
    change 65536 with (2 ^ Z.of_nat tree_depth). apply low_bits_mod. intros k Hk.
    apply (proj1 (cidx_eq_iff i j k HL)); [apply H; exact Hk|exact Hd].
  - intros [_ H] b Hb. apply (cidx_eq_iff i j b HL). intros d Hd.
    apply (proj2 (low_bits_mod (nth d i 0 + 32768) (nth d j 0 + 32768) tree_depth)); [|exact Hb].
    change (2 ^ Z.of_nat tree_depth) with 65536. apply mod_add_iff. apply H. exact Hd.
Qed.

Lemma same_place_range (dims : nat) (i j : idx) :
  in_tree_range dims i -> in_tree_range dims j -> (same_place i j <-> i = j).
Proof.
  intros [HLi Hi] [HLj Hj]. split.
  - intros [HL H]. apply (nth_ext i j 0 0 HL). intros d Hd. specialize (H d Hd).
    rewrite Forall_forall in Hi, Hj.
    pose proof (Hi (nth d i 0) (nth_In i 0 Hd)) as A.
    assert (Hdj : (d < length j)%nat) by lia. pose proof (Hj (nth d j 0) (nth_In j 0 Hdj)) as B.
    cbn beta in A, B. Z.div_mod_to_equations; lia.
  - intros ->. split; [reflexivity|]. intros; reflexivity.
Qed.

Lemma in_range_computable (dims : nat) (i : idx) : in_tree_range dims i -> key_computable dims i.
Proof.
  intros [HL H]. split; [exact HL|]. eapply Forall_impl; [|exact H].
  intros z Hz. cbn beta in Hz. unfold INT_MIN, INT_MAX. lia.
Qed.

(** ** Nodes *)
Section Facts.
Context {V : Type}.
Variable merge : V -> V -> V.
Variable dims : nat.
Notation good := (key_computable dims).
Notation node := (node V).

Fixpoint wf (r : nat) (P : idx -> Prop) (nd : node) : Prop :=
  match r with
  | O => match nd with NData i _ => good i /\ P i | _ => False end
  | S r' =>
      match nd with
      | NChildren l =>
          length l = (2 ^ dims)%nat /\ (exists p c, nth_error l p = Some (Some c)) /\
          forall p c, nth_error l p = Some (Some c) -> wf r' (fun i => P i /\ cidx i r' = p) c
      | _ => False
      end
  end.

(** Pure lookup returning the stored index too. *)
Fixpoint find (r : nat) (nd : node) (i : idx) : option (idx * V) :=
  match r with
  | O => match nd with NData j v => Some (j, v) | _ => None end
  | S r' =>
      match nd with
      | NChildren l =>
          match nth_error l (cidx i r') with
          | Some (Some c) => find r' c i
          | _ => None
          end
      | _ => None
      end
  end.

Lemma nth_error_in_range {A : Type} (l : list A) (n : nat) :
  (n < length l)%nat -> exists x, nth_error l n = Some x.
Proof.
  intros H. destruct (nth_error l n) eqn:E; [eauto|]. apply nth_error_None in E. lia.
Qed.

Lemma cidx_good (i : idx) (r : nat) : good i -> (cidx i r < 2 ^ dims)%nat.
Proof. intros [<- _]. apply cidx_bound. Qed.

Lemma node_get_find (r : nat) (P : idx -> Prop) (nd : node) (i : idx) :
  wf r P nd -> good i -> node_get r nd i = Ok (option_map snd (find r nd i)).
Proof.
  revert P nd; induction r as [|r IH]; intros P nd Hwf Hi; cbn [node_get find wf] in *.
  - destruct nd; try contradiction. reflexivity.
  - rewrite (computeChildIdx_ok dims) by exact Hi. cbn [obind].
    destruct nd as [|l|]; try contradiction.
    destruct Hwf as [HL [_ Hc]].
    destruct (nth_error_in_range l (cidx i r)) as [x Hx]; [rewrite HL; apply cidx_good; exact Hi|].
    rewrite Hx. destruct x as [c|]; [|reflexivity].
    eapply IH; [apply Hc; exact Hx|exact Hi].
Qed.

Lemma find_wf (r : nat) (P : idx -> Prop) (nd : node) (i j : idx) (v : V) :
  wf r P nd -> find r nd i = Some (j, v) -> good j /\ P j /\ path_eqb r i j = true.
Proof.
  revert P nd; induction r as [|r IH]; intros P nd Hwf Hf; cbn [find wf path_eqb] in *.
  - destruct nd; try contradiction. injection Hf as <- <-. destruct Hwf; auto.
  - destruct nd as [|l|]; try discriminate.
    destruct Hwf as [HL [_ Hc]].
    destruct (nth_error l (cidx i r)) as [[c|]|] eqn:E; try discriminate.
    destruct (IH _ c (Hc _ _ E) Hf) as [Hg [[HP Hci] Hp]].
    split; [exact Hg|]. split; [exact HP|]. rewrite Hci, Nat.eqb_refl. exact Hp.
Qed.

Lemma find_path (r : nat) (nd : node) (i j : idx) :
  path_eqb r i j = true -> find r nd i = find r nd j.
Proof.
  revert nd; induction r as [|r IH]; intros nd H; cbn [find path_eqb] in *; [reflexivity|].
  apply andb_true_iff in H. destruct H as [Hc Hp]. apply Nat.eqb_eq in Hc.
  destruct nd as [|l|]; try reflexivity. rewrite Hc.
  destruct (nth_error l (cidx j r)) as [[c|]|]; auto.
Qed.

Lemma nth_error_repeat_none (n p : nat) (c : node) : nth_error (repeat None n) p <> Some (Some c).
Proof.
  intros H. apply nth_error_In in H. apply repeat_spec in H. discriminate.
Qed.

(** Effect of insert on one node. *)
Definition ins_result (old : option (idx * V)) (i : idx) (v : V) : idx * V :=
  match old with None => (i, v) | Some (j, w) => (j, merge w v) end.

Lemma children_alloc (r : nat) (P : idx -> Prop) (nd : node) :
  (nd = NNull \/ wf (S r) P nd) -> exists cs,
    children_or_alloc dims nd = Ok cs /\ length cs = (2 ^ dims)%nat /\
    (forall p c, nth_error cs p = Some (Some c) -> wf r (fun i => P i /\ cidx i r = p) c) /\
    (forall i, find (S r) nd i =
       match nth_error cs (cidx i r) with Some (Some c) => find r c i | _ => None end).
Proof.
  intros H. cbn [wf] in H. destruct nd as [|l|]; try (destruct H; [discriminate|contradiction]); cbn [children_or_alloc].
  - eexists; split; [reflexivity|]. split; [apply repeat_length|]. split.
    + intros p c Hp. exfalso; eapply nth_error_repeat_none; exact Hp.
    + intros i. cbn [find].
      destruct (nth_error (repeat None _) (cidx i r)) as [[c|]|] eqn:E; try reflexivity.
      exfalso; eapply nth_error_repeat_none; exact E.
  - destruct H as [H|[HL [_ Hc]]]; [discriminate|]. eexists; split; [reflexivity|].
    split; [exact HL|]. split; [exact Hc|]. reflexivity.
Qed.

Lemma node_insert_spec (r : nat) (P : idx -> Prop) (nd : node) (created : bool) (i : idx) (v : V) :
  (created = true /\ nd = NNull \/ created = false /\ wf r P nd) ->
  good i -> P i ->
  exists nd' n,
    node_insert merge dims r nd created i v = Ok (nd', n) /\
    wf r P nd' /\
    (forall j, good j ->
       find r nd' j = if path_eqb r i j then Some (ins_result (find r nd i) i v) else find r nd j).
Proof.
  revert P nd created; induction r as [|r IH]; intros P nd created Hpre Hi HP.
  - cbn [node_insert path_eqb find]. destruct Hpre as [[-> ->]|[-> Hwf]].
    + do 2 eexists; split; [reflexivity|]. split; [cbn; auto|]. intros; reflexivity.
    + cbn [wf] in Hwf. destruct nd as [|l|i0 v0]; try contradiction.
      do 2 eexists; split; [reflexivity|]. split; [exact Hwf|]. intros; reflexivity.
  - assert (Hwf : nd = NNull \/ wf (S r) P nd) by (destruct Hpre as [[-> ->]|[_ H]]; auto).
    destruct (children_alloc r P nd Hwf) as [cs [Ecs [HLcs [Hcs Hfind]]]].
    cbn [node_insert]. rewrite (computeChildIdx_ok dims) by exact Hi. cbn [obind].
    rewrite Ecs. cbn [obind].
    destruct (nth_error_in_range cs (cidx i r)) as [x Hx]; [rewrite HLcs; apply cidx_good; exact Hi|].
    rewrite Hx.
    assert (Hsub : exists c' n', node_insert merge dims r (match x with Some c => c | None => NNull end)
                 (match x with Some _ => false | None => true end) i v = Ok (c', n') /\
               wf r (fun j => P j /\ cidx j r = cidx i r) c' /\
               (forall j, good j -> find r c' j =
                  if path_eqb r i j
                  then Some (ins_result (match x with Some c => find r c i | None => None end) i v)
                  else match x with Some c => find r c j | None => None end)).
    { destruct x as [c|].
      - apply IH; [right; split; [reflexivity|apply Hcs; exact Hx]|exact Hi|auto].
      - destruct (IH (fun j => P j /\ cidx j r = cidx i r) NNull true) as [c' [n' [E [W F]]]];
          [left; auto|exact Hi|auto|].
        exists c', n'. split; [exact E|]. split; [exact W|]. intros j Hj.
        rewrite (F j Hj). destruct r; reflexivity. }
    destruct Hsub as [c' [n' [E [W F]]]].
    assert (Hlt : (cidx i r < length cs)%nat) by (rewrite HLcs; apply cidx_good; exact Hi).
    destruct (upd_some cs (cidx i r) (Some c') Hlt) as [cs' Hupd].
    assert (Hgoal : exists n, (match x with
      | Some c => let* res := node_insert merge dims r c false i v in
          match upd cs (cidx i r) (Some (fst res)) with Some cs' => Ok (NChildren cs', snd res) | None => UB end
      | None => let* res := node_insert merge dims r NNull true i v in
          match upd cs (cidx i r) (Some (fst res)) with Some cs' => Ok (NChildren cs', snd res + 1) | None => UB end
      end) = Ok (NChildren cs', n)).
    { destruct x as [c|]; rewrite E; cbn [obind fst snd]; rewrite Hupd; eauto. }
    destruct Hgoal as [n Hn]. exists (NChildren cs'), n. split.
    { destruct x; exact Hn. }
    split.
    + cbn [wf]. split; [rewrite (upd_length _ _ _ _ Hupd); exact HLcs|]. split.
      { exists (cidx i r), c'. rewrite (upd_nth_error _ _ _ _ _ Hupd), Nat.eqb_refl. reflexivity. }
      intros p c Hp. rewrite (upd_nth_error _ _ _ _ _ Hupd) in Hp.
      destruct (Nat.eqb_spec (cidx i r) p) as [<-|Hne].
      * injection Hp as <-. exact W.
      * apply Hcs. exact Hp.
    + intros j Hj. cbn [path_eqb]. rewrite !Hfind. cbn [find].
      rewrite (upd_nth_error _ _ _ _ _ Hupd).
      destruct (Nat.eqb_spec (cidx i r) (cidx j r)) as [Hc|Hc]; cbn [andb].
      * rewrite (F j Hj). rewrite Hx. rewrite <- Hc, Hx. destruct x; reflexivity.
      * reflexivity.
Qed.

Lemma node_modify_spec (r : nat) (P : idx -> Prop) (nd : node) (i : idx) (f : V -> V) (e : idx * V) :
  wf r P nd -> good i -> find r nd i = Some e ->
  exists nd',
    node_modify r nd i f = Ok nd' /\ wf r P nd' /\
    (forall j, find r nd' j = if path_eqb r i j then Some (fst e, f (snd e)) else find r nd j).
Proof.
  revert P nd; induction r as [|r IH]; intros P nd Hwf Hi Hf.
  - cbn [wf find node_modify path_eqb] in *. destruct nd as [|l|i0 v0]; try discriminate.
    injection Hf as <-. eexists; split; [reflexivity|]. split; [exact Hwf|]. reflexivity.
  - cbn [wf find node_modify path_eqb] in *.
    rewrite (computeChildIdx_ok dims) by exact Hi. cbn [obind].
    destruct nd as [|l|i0 v0]; try discriminate. destruct Hwf as [HL [_ Hc]].
    destruct (nth_error l (cidx i r)) as [[c|]|] eqn:E; try discriminate.
    destruct (IH _ c (Hc _ _ E) Hi Hf) as [c' [Ec [Wc Fc]]].
    rewrite Ec. cbn [obind].
    assert (Hlt : (cidx i r < length l)%nat) by (rewrite HL; apply cidx_good; exact Hi).
    destruct (upd_some l (cidx i r) (Some c') Hlt) as [l' Hupd]. rewrite Hupd.
    eexists; split; [reflexivity|]. split.
    + split; [rewrite (upd_length _ _ _ _ Hupd); exact HL|]. split.
      { exists (cidx i r), c'. rewrite (upd_nth_error _ _ _ _ _ Hupd), Nat.eqb_refl. reflexivity. }
      intros p d Hp. rewrite (upd_nth_error _ _ _ _ _ Hupd) in Hp.
      destruct (Nat.eqb_spec (cidx i r) p) as [<-|Hne]; [injection Hp as <-; exact Wc|].
      apply Hc; exact Hp.
    + intros j. rewrite (upd_nth_error _ _ _ _ _ Hupd).
      destruct (Nat.eqb_spec (cidx i r) (cidx j r)) as [He|He]; cbn [andb]; [|reflexivity].
      rewrite (Fc j). rewrite <- He, E. reflexivity.
Qed.

Lemma wf_ext (r : nat) (P Q : idx -> Prop) (nd : node) :
  (forall i, P i -> Q i) -> wf r P nd -> wf r Q nd.
Proof.
  revert P Q nd; induction r as [|r IH]; intros P Q nd H Hwf; cbn [wf] in *.
  - destruct nd; try contradiction. destruct Hwf; auto.
  - destruct nd as [|l|]; auto. destruct Hwf as [HL [Hne Hc]]. split; [exact HL|]. split; [exact Hne|].
    intros p c Hp. eapply IH; [|apply Hc; exact Hp]. cbn. intros i [Hi Hq]; auto.
Qed.

(** ** Traversal *)
Fixpoint go_list (r : nat) (l : list (option node)) : outcome (list (idx * V)) :=
  match l with
  | [] => Ok []
  | None :: l' => go_list r l'
  | Some c :: l' =>
      let* a := node_traverse r c in
      let* b := go_list r l' in
      Ok (a ++ b)
  end.

Lemma node_traverse_S (r : nat) (l : list (option node)) :
  node_traverse (S r) (NChildren l) = go_list r l.
Proof.
  cbn [node_traverse]. induction l as [|[c|] l IH]; cbn [go_list]; [reflexivity| |exact IH].
  rewrite IH. reflexivity.
Qed.

Definition code_lt (r : nat) (a b : idx * V) : Prop := morton r (fst a) < morton r (fst b).

Lemma morton_S (r : nat) (i : idx) :
  morton (S r) i = Z.of_nat (cidx i r) * 2 ^ (Z.of_nat (length i) * Z.of_nat r) + morton r i.
Proof. cbn [morton]. rewrite column_cidx. reflexivity. Qed.

Lemma morton_bound (r : nat) (i : idx) :
  0 <= morton r i < 2 ^ (Z.of_nat (length i) * Z.of_nat r).
Proof.
  induction r as [|r IH]; [cbn [morton]; rewrite Z.mul_0_r; cbn; lia|].
  rewrite morton_S.
  replace (Z.of_nat (length i) * Z.of_nat (S r))
    with (Z.of_nat (length i) + Z.of_nat (length i) * Z.of_nat r) by lia.
  rewrite Z.pow_add_r by lia.
  pose proof (cidx_bound i r) as Hc.
  assert (Hc' : Z.of_nat (cidx i r) < 2 ^ Z.of_nat (length i)).
  { change 2 with (Z.of_nat 2). rewrite <- Nat2Z.inj_pow. lia. }
  set (M := 2 ^ (Z.of_nat (length i) * Z.of_nat r)) in *.
  assert (0 < M) by (unfold M; apply Z.pow_pos_nonneg; lia).
  nia.
Qed.

Lemma morton_path (r : nat) (i j : idx) :
  length i = length j -> (morton r i = morton r j <-> path_eqb r i j = true).
Proof.
  intros HL. induction r as [|r IH]; cbn [path_eqb]; [split; reflexivity|].
  rewrite !morton_S, andb_true_iff, Nat.eqb_eq, <- IH, HL.
  pose proof (morton_bound r i) as Bi. pose proof (morton_bound r j) as Bj. rewrite HL in Bi.
  set (M := 2 ^ (Z.of_nat (length j) * Z.of_nat r)) in *.
  split.
  - intros H. assert (Z.of_nat (cidx i r) = Z.of_nat (cidx j r)) by nia. split; [lia|nia].
  - intros [-> ->]. reflexivity.
Qed.

Lemma go_list_spec (r : nat) (P : idx -> Prop)
  (IHn : forall Q nd, wf r Q nd -> exists es, node_traverse r nd = Ok es /\
      (forall j v, In (j, v) es <-> find r nd j = Some (j, v)) /\
      Forall (fun e => good (fst e) /\ Q (fst e)) es /\
      StronglySorted (code_lt r) es) :
  forall (l : list (option node)) (off : nat),
  (forall p c, nth_error l p = Some (Some c) -> wf r (fun i => P i /\ cidx i r = (off + p)%nat) c) ->
  exists es, go_list r l = Ok es /\
    (forall j v, In (j, v) es <->
       exists p c, nth_error l p = Some (Some c) /\ cidx j r = (off + p)%nat /\ find r c j = Some (j, v)) /\
    Forall (fun e => good (fst e) /\ P (fst e) /\ (off <= cidx (fst e) r)%nat) es /\
    StronglySorted (code_lt (S r)) es.
Proof.
  induction l as [|x l IH]; intros off H.
  - exists []. split; [reflexivity|]. split; [|split; constructor].
    intros j v. split; [intros []|]. intros [p [c [Hp _]]]. destruct p; discriminate.
  - destruct (IH (S off)) as [es [E [Hin [Hall Hs]]]].
    { intros p c Hp. specialize (H (S p) c Hp).
      eapply wf_ext; [|exact H]. cbn. intros i [Hi Hc]. split; [exact Hi|lia]. }
    destruct x as [c|].
    + destruct (IHn _ c (H O c eq_refl)) as [es1 [E1 [Hin1 [Hall1 Hs1]]]].
      exists (es1 ++ es). cbn [go_list]. rewrite E1. cbn [obind]. rewrite E. cbn [obind].
      split; [reflexivity|]. split; [|split].
      * intros j v. rewrite in_app_iff, Hin1, Hin. split.
        -- intros [Hf|[p [d [Hp [Hc Hf]]]]].
           ++ exists O, c. split; [reflexivity|]. split; [|exact Hf].
              destruct (find_wf _ _ _ _ _ _ (H O c eq_refl) Hf) as [_ [[_ Hc] _]]. exact Hc.
           ++ exists (S p), d. split; [exact Hp|]. split; [lia|exact Hf].
        -- intros [[|p] [d [Hp [Hc Hf]]]].
           ++ injection Hp as <-. left; exact Hf.
           ++ right. exists p, d. split; [exact Hp|]. split; [lia|exact Hf].
      * apply Forall_app. split.
        -- eapply Forall_impl; [|exact Hall1]. cbn. intros e [Hg [HP Hc]]. split; [exact Hg|].
           split; [exact HP|lia].
        -- eapply Forall_impl; [|exact Hall]. cbn. intros e [Hg [HP Hc]]. split; [exact Hg|].
           split; [exact HP|lia].
      * clear E E1 IH IHn Hin Hin1.
        induction Hs1 as [|e es1 Hs1 IH1 Hlt]; cbn [app]; [exact Hs|].
        inversion Hall1 as [|e' es' He Hall1']; subst.
        constructor; [apply IH1; exact Hall1'|].
        apply Forall_app. split.
        -- rewrite Forall_forall in *. intros e' Hin'. specialize (Hlt e' Hin').
           specialize (Hall1' e' Hin'). unfold code_lt in *. rewrite !morton_S.
           destruct He as [[HLe _] [_ Hce]], Hall1' as [[HLe' _] [_ Hce']].
           rewrite Hce, Hce', HLe, HLe'. lia.
        -- rewrite Forall_forall in *. intros e' Hin'. specialize (Hall e' Hin').
           unfold code_lt. rewrite !morton_S.
           destruct He as [[HLe _] [_ Hce]], Hall as [[HLe' _] [_ Hce']].
           pose proof (morton_bound r (fst e)) as B. pose proof (morton_bound r (fst e')) as B'.
           rewrite HLe in *. rewrite HLe' in *.
           set (M := 2 ^ (Z.of_nat dims * Z.of_nat r)) in *. nia.
    + exists es. cbn [go_list]. split; [exact E|]. split; [|split].
      * intros j v. rewrite Hin. split.
        -- intros [p [d [Hp [Hc Hf]]]]. exists (S p), d. split; [exact Hp|]. split; [lia|exact Hf].
        -- intros [[|p] [d [Hp [Hc Hf]]]]; [discriminate|].
           exists p, d. split; [exact Hp|]. split; [lia|exact Hf].
      * eapply Forall_impl; [|exact Hall]. cbn. intros e [Hg [HP Hc]]. split; [exact Hg|].
        split; [exact HP|lia].
      * exact Hs.
Qed.

Lemma node_traverse_spec (r : nat) (P : idx -> Prop) (nd : node) :
  wf r P nd -> exists es, node_traverse r nd = Ok es /\
    (forall j v, In (j, v) es <-> find r nd j = Some (j, v)) /\
    Forall (fun e => good (fst e) /\ P (fst e)) es /\
    StronglySorted (code_lt r) es.
Proof.
  revert P nd; induction r as [|r IH]; intros P nd Hwf.
  - cbn [wf node_traverse find] in *. destruct nd as [|l|i v]; try contradiction.
    eexists; split; [reflexivity|]. split; [|split].
    + intros j w. cbn [In]. split; [intros [H|[]]; congruence|intros H; left; congruence].
    + repeat constructor; apply Hwf.
    + repeat constructor.
  - cbn [wf] in Hwf. destruct nd as [|l|i v]; try contradiction.
    + destruct Hwf as [HL [_ Hc]]. rewrite node_traverse_S.
      destruct (go_list_spec r P IH l 0 Hc) as [es [E [Hin [Hall Hs]]]].
      exists es. split; [exact E|]. split; [|split; [|exact Hs]].
      * intros j v. rewrite Hin. cbn [find Nat.add]. split.
        -- intros [p [c [Hp [Hcp Hf]]]]. rewrite Hcp, Hp. exact Hf.
        -- destruct (nth_error l (cidx j r)) as [[c|]|] eqn:Ex; try discriminate.
           intros Hf. exists (cidx j r), c. auto.
      * eapply Forall_impl; [|exact Hall]. cbn. intros e [Hg [HP _]]. auto.
Qed.

(** ** Octree *)
Definition otree_wf (P : idx -> Prop) (t : octree V) : Prop :=
  match root t with None => True | Some nd => wf tree_depth P nd end.
Definition otree_find (t : octree V) (i : idx) : option (idx * V) :=
  match root t with None => None | Some nd => find tree_depth nd i end.

Lemma octree_new_wf (P : idx -> Prop) (g : Z) : otree_wf P (octree_new g).
Proof. exact I. Qed.

Lemma octree_insert_spec (P : idx -> Prop) (t : octree V) (i : idx) (v : V) :
  otree_wf P t -> good i -> P i ->
  exists t', octree_insert merge dims t i v = Ok t' /\ otree_wf P t' /\ forall j, good j -> otree_find t' j =
      if path_eqb tree_depth i j then Some (ins_result (otree_find t i) i v) else otree_find t j.
Proof.
  unfold otree_wf, otree_find, octree_insert. intros Hwf Hi HP. destruct (root t) as [nd|] eqn:Er.
  - destruct (node_insert_spec tree_depth P nd false i v (or_intror (conj eq_refl Hwf)) Hi HP)
      as [nd' [n [E [W F]]]].
    rewrite E. cbn [obind]. eexists; split; [reflexivity|]. cbn [root fst]. split; [exact W|].
    exact F.
  - destruct (node_insert_spec tree_depth P NNull true i v (or_introl (conj eq_refl eq_refl)) Hi HP)
      as [nd' [n [E [W F]]]].
    rewrite E. cbn [obind]. eexists; split; [reflexivity|]. cbn [root fst]. split; [exact W|].
    intros j Hj. rewrite (F j Hj). reflexivity.
Qed.

Lemma octree_get_spec (P : idx -> Prop) (t : octree V) (i : idx) :
  otree_wf P t -> good i -> octree_get t i = Ok (option_map snd (otree_find t i)).
Proof.
  unfold otree_wf, otree_find, octree_get. intros Hwf Hi. destruct (root t); [|reflexivity].
  eapply node_get_find; eassumption.
Qed.

Lemma octree_modify_spec (P : idx -> Prop) (t : octree V) (i : idx) (f : V -> V) (e : idx * V) :
  otree_wf P t -> good i -> otree_find t i = Some e ->
  exists t', octree_modify t i f = Ok t' /\ otree_wf P t' /\ forall j, otree_find t' j =
      if path_eqb tree_depth i j then Some (fst e, f (snd e)) else otree_find t j.
Proof.
  unfold otree_wf, otree_find, octree_modify. intros Hwf Hi Hf. destruct (root t) as [nd|]; [|discriminate].
  destruct (node_modify_spec tree_depth P nd i f e Hwf Hi Hf) as [nd' [E [W F]]].
  rewrite E. cbn [obind]. eexists; split; [reflexivity|]. cbn [root]. split; [exact W|exact F].
Qed.

Lemma node_modify_none (r : nat) (P : idx -> Prop) (nd : node) (i : idx) (f : V -> V) :
  wf r P nd -> good i -> find r nd i = None -> node_modify r nd i f = UB.
Proof.
  revert P nd; induction r as [|r IH]; intros P nd Hwf Hi Hf; cbn [wf find node_modify] in *.
  - destruct nd; try contradiction; discriminate.
  - rewrite (computeChildIdx_ok dims) by exact Hi. cbn [obind].
    destruct nd as [|l|]; try reflexivity. destruct Hwf as [HL [_ Hc]].
    destruct (nth_error l (cidx i r)) as [[c|]|] eqn:E; try reflexivity.
    rewrite (IH _ c (Hc _ _ E) Hi Hf). reflexivity.
Qed.

Lemma octree_modify_none (P : idx -> Prop) (t : octree V) (i : idx) (f : V -> V) :
  otree_wf P t -> good i -> otree_find t i = None -> octree_modify t i f = UB.
Proof.
  unfold otree_wf, otree_find, octree_modify. intros Hwf Hi Hf. destruct (root t) as [nd|]; [|reflexivity].
  rewrite (node_modify_none _ _ _ _ _ Hwf Hi Hf). reflexivity.
Qed.

Lemma octree_traverse_spec (P : idx -> Prop) (t : octree V) :
  otree_wf P t -> exists es, octree_traverse t = Ok es /\ (forall j v, In (j, v) es <-> otree_find t j = Some (j, v)) /\ Forall (fun e => good (fst e) /\ P (fst e)) es /\ StronglySorted (code_lt tree_depth) es.
Proof.
  unfold otree_wf, otree_find, octree_traverse. intros Hwf. destruct (root t) as [nd|].
  - destruct (node_traverse_spec _ _ _ Hwf) as [es [E [H1 [H2 H3]]]].
    exists es. auto.
  - exists []. split; [reflexivity|]. split; [|split; constructor].
    intros j v. split; [intros []|discriminate].
Qed.

Lemma otree_find_path (t : octree V) (i j : idx) :
  path_eqb tree_depth i j = true -> otree_find t i = otree_find t j.
Proof.
  unfold otree_find. destruct (root t); [|reflexivity]. apply find_path.
Qed.

Lemma otree_find_wf (P : idx -> Prop) (t : octree V) (i j : idx) (v : V) :
  otree_wf P t -> otree_find t i = Some (j, v) -> good j /\ P j /\ path_eqb tree_depth i j = true.
Proof.
  unfold otree_wf, otree_find. destruct (root t); [|discriminate]. intros Hwf Hf.
  exact (find_wf _ _ _ _ _ _ Hwf Hf).
Qed.

End Facts.

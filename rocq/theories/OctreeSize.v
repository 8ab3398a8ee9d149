(** [size()] of the octree counts nodes, not elements. *)
From Verif Require Import Base OctreeModel OctreeSpec OctreeFacts OctreeHist.
Open Scope Z_scope.

Section Size.
Context {V : Type}.
Variable merge : V -> V -> V.
Variable dims : nat.

(** Number of nodes strictly below a node with [r] levels beneath it. *)
Fixpoint below (r : nat) (nd : node V) : Z :=
  match r with
  | O => 0
  | S r' =>
      match nd with
      | NChildren l =>
          fold_right (fun x acc => match x with Some c => 1 + below r' c + acc | None => acc end) 0 l
      | _ => 0
      end
  end.
Definition all_nodes (t : octree V) : Z :=
  match root t with None => 0 | Some nd => 1 + below tree_depth nd end.

Definition sumc (r : nat) (l : list (option (node V))) : Z :=
  fold_right (fun x acc => match x with Some c => 1 + below r c + acc | None => acc end) 0 l.

Lemma sumc_upd (r : nat) (l l' : list (option (node V))) (p : nat) (x y : option (node V)) :
  nth_error l p = Some x -> upd l p y = Some l' ->
  sumc r l' = sumc r l - sumc r [x] + sumc r [y].
Proof.
  revert p l'; induction l as [|z l IH]; intros p l' Hx Hu; [destruct p; discriminate|].
  destruct p as [|p]; cbn [upd nth_error] in *.
  - injection Hx as ->. injection Hu as <-. unfold sumc. cbn [fold_right].
    destruct x, y; lia.
  - destruct (upd l p y) as [l0|] eqn:E; [|discriminate]. injection Hu as <-.
    specialize (IH p l0 Hx E). unfold sumc in *. cbn [fold_right] in *. destruct z; lia.
Qed.

Lemma sumc_repeat (r n : nat) : sumc r (repeat None n) = 0.
Proof. unfold sumc. induction n as [|n IH]; cbn [repeat fold_right]; [reflexivity|exact IH]. Qed.

Lemma node_insert_below (r : nat) (nd : node V) (created : bool) (i : idx) (v : V) (nd' : node V) (n : Z) :
  node_insert merge dims r nd created i v = Ok (nd', n) -> below r nd' = below r nd + n.
Proof.
  revert nd created nd' n; induction r as [|r IH]; intros nd created nd' n H.
  - cbn [node_insert below] in *. destruct created; [injection H as <- <-; reflexivity|].
    destruct nd; try discriminate. injection H as <- <-. reflexivity.
  - cbn [node_insert] in H.
    destruct (computeChildIdx i r) as [pos| |]; cbn [obind] in H; try discriminate.
    destruct (children_or_alloc dims nd) as [cs| |] eqn:Ecs; cbn [obind] in H; try discriminate.
    assert (Hb : below (S r) nd = sumc r cs).
    { destruct nd; cbn [children_or_alloc] in Ecs; try discriminate; injection Ecs as <-.
      - cbn [below]. symmetry; apply sumc_repeat.
      - reflexivity. }
    destruct (nth_error cs pos) as [[c|]|] eqn:Ep; try discriminate.
    + destruct (node_insert merge dims r c false i v) as [[c' n']| |] eqn:Ei; cbn [obind fst snd] in H; try discriminate.
      destruct (upd cs pos (Some c')) as [cs'|] eqn:Eu; [|discriminate].
      injection H as <- <-. apply IH in Ei. rewrite Hb.
      change (below (S r) (NChildren cs')) with (sumc r cs').
      rewrite (sumc_upd r cs cs' pos (Some c) (Some c') Ep Eu). unfold sumc; cbn [fold_right]. lia.
    + destruct (node_insert merge dims r NNull true i v) as [[c' n']| |] eqn:Ei; cbn [obind fst snd] in H; try discriminate.
      destruct (upd cs pos (Some c')) as [cs'|] eqn:Eu; [|discriminate].
      injection H as <- <-. apply IH in Ei. rewrite Hb.
      change (below (S r) (NChildren cs')) with (sumc r cs').
      rewrite (sumc_upd r cs cs' pos None (Some c') Ep Eu). unfold sumc; cbn [fold_right].
      assert (below r NNull = 0) by (destruct r; reflexivity). lia.
Qed.

Lemma octree_insert_nodes (t t' : octree V) (i : idx) (v : V) :
  octree_insert merge dims t i v = Ok t' ->
  tree_size t' - all_nodes t' = tree_size t - all_nodes t.
Proof.
  unfold octree_insert, all_nodes. destruct (root t) as [nd|] eqn:Er.
  - destruct (node_insert merge dims tree_depth nd false i v) as [[nd' n]| |] eqn:E; cbn [obind]; try discriminate.
    intros H; injection H as <-. cbn [root tree_size fst snd]. apply node_insert_below in E. lia.
  - destruct (node_insert merge dims tree_depth NNull true i v) as [[nd' n]| |] eqn:E; cbn [obind]; try discriminate.
    intros H; injection H as <-. cbn [root tree_size fst snd]. apply node_insert_below in E.
    assert (below tree_depth (@NNull V) = 0) by reflexivity. lia.
Qed.

Lemma node_modify_below (r : nat) (nd nd' : node V) (i : idx) (f : V -> V) :
  node_modify r nd i f = Ok nd' -> below r nd' = below r nd.
Proof.
  revert nd nd'; induction r as [|r IH]; intros nd nd' H; cbn [node_modify] in H.
  - reflexivity.
  - destruct (computeChildIdx i r) as [pos| |]; cbn [obind] in H; try discriminate.
    destruct nd as [|cs|]; try discriminate.
    destruct (nth_error cs pos) as [[c|]|] eqn:Ep; try discriminate.
    destruct (node_modify r c i f) as [c'| |] eqn:E; cbn [obind] in H; try discriminate.
    destruct (upd cs pos (Some c')) as [cs'|] eqn:Eu; [|discriminate]. injection H as <-.
    apply IH in E.
    change (sumc r cs' = sumc r cs).
    rewrite (sumc_upd r cs cs' pos (Some c) (Some c') Ep Eu). unfold sumc; cbn [fold_right]. lia.
Qed.

Lemma octree_run_nodes (ops : list (map_op V)) (t t' : octree V) :
  octree_run merge dims ops t = Ok t' ->
  tree_size t' - all_nodes t' = tree_size t - all_nodes t.
Proof.
  unfold octree_run. revert t; induction ops as [|o ops IH]; intros t H; cbn [ofold] in H.
  - injection H as ->. reflexivity.
  - destruct (octree_step merge dims t o) as [t1| |] eqn:E; cbn [obind] in H; try discriminate.
    rewrite (IH t1 H). destruct o as [i v|i f]; cbn [octree_step] in E.
    + eapply octree_insert_nodes; exact E.
    + unfold octree_modify in E. unfold all_nodes. destruct (root t) as [nd|] eqn:Er; [|discriminate].
      destruct (node_modify tree_depth nd i f) as [nd'| |] eqn:Em; cbn [obind] in E; try discriminate.
      injection E as <-. cbn [root tree_size]. apply node_modify_below in Em. lia.
Qed.

Lemma octree_size_nodes (g : Z) (ops : list (map_op V)) (t : octree V) :
  octree_run merge dims ops (octree_new g) = Ok t -> octree_size t = g + all_nodes t.
Proof.
  intros H. apply octree_run_nodes in H. unfold octree_size. cbn in H. lia.
Qed.

End Size.

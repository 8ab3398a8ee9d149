(** Loading never rejects the contents of a file. *)
From Verif Require Import Base SeqModel IndexModel OctreeSpec OctreeModel MapModel BackendModel SysModel LoaderModel
  HeapFacts SerialModel SerialSpec ThreadModel ThreadSpec ThreadFacts FileModel ReportFacts.
Open Scope Z_scope.

Lemma bind_no_throw {A B : Type} (x : outcome A) (f : A -> outcome B) :
  x <> Throw -> (forall a, x = Ok a -> f a <> Throw) -> obind x f <> Throw.
Proof. intros H K. destruct x as [a| |]; cbn [obind]; [apply K; reflexivity|discriminate|congruence]. Qed.
Lemma fold_no_throw {A B : Type} (f : A -> B -> outcome A) (l : list B) : (forall a b, f a b <> Throw) ->
  forall a, ofold f l a <> Throw.
Proof.
  intros H. induction l as [|b l IH]; intros a; cbn [ofold]; [discriminate|]. apply bind_no_throw; [apply H|]. intros; apply IH.
Qed.

Lemma child_no_throw (index : idx) : forall i depth, computeChildIdx_from index i depth <> Throw.
Proof.
  induction index as [|x index IH]; intros i depth; cbn [computeChildIdx_from]; [discriminate|].
  destruct (int_ok _); [|discriminate]. apply bind_no_throw; [apply IH|discriminate].
Qed.
Lemma node_insert_no_throw {V : Type} (merge : V -> V -> V) (dims rem : nat) : forall nd j index v,
  node_insert merge dims rem nd j index v <> Throw.
Proof.
  induction rem as [|r IH]; intros nd j index v; cbn [node_insert].
  - destruct j; [discriminate|]. destruct nd; discriminate.
  - apply bind_no_throw; [apply child_no_throw|]. intros pos _.
    apply bind_no_throw; [destruct nd; discriminate|]. intros cs _. destruct (nth_error cs pos) as [[k|]|]; [| |discriminate];
      (apply bind_no_throw; [apply IH|]; intros a _; destruct (upd _ _ _); discriminate).
Qed.
Lemma octree_insert_no_throw {V : Type} (merge : V -> V -> V) (dims : nat) (t : octree V) i v :
  octree_insert merge dims t i v <> Throw.
Proof.
  unfold octree_insert. destruct (root t); (apply bind_no_throw; [apply node_insert_no_throw|discriminate]).
Qed.
Lemma node_get_no_throw {V : Type} (rem : nat) : forall (nd : @node V) (index : idx), node_get rem nd index <> Throw.
Proof.
  induction rem as [|r IH]; intros nd index; cbn [node_get]; [destruct nd; discriminate|].
  apply bind_no_throw; [apply child_no_throw|]. intros pos _. destruct nd as [|cs|]; try discriminate.
  destruct (nth_error cs pos) as [[k|]|]; try discriminate. apply IH.
Qed.
Lemma octree_get_no_throw {V : Type} (t : octree V) i : octree_get t i <> Throw.
Proof. unfold octree_get. destruct (root t); [apply node_get_no_throw|discriminate]. Qed.

Section Map.
Variable junk : list Z -> nat -> list Z.
Context {P Po T : Type}.
Variable po : codec Po.
Variable tp : codec T.
Variable fmt : format P.
Variable c : config P.
Notation n := (bin_count (dimc c)).

Lemma store_insert_no_throw (s : st (bdc c)) i v : bins (bdc c) s i v <> Throw.
Proof.
  revert s. unfold bdc, dist_backend. destruct (kindc c); intros s; cbn [bins array_backend octree_backend];
    first [apply octree_insert_no_throw|destruct (arr_inside _ _ _); discriminate].
Qed.
Lemma bundle_insert_no_throw (s : st (bbc c)) i v : bins (bbc c) s i v <> Throw.
Proof.
  revert s. unfold bbc, bundle_backend. destruct (kindc c); intros s; cbn [bins array_backend octree_backend];
    first [apply octree_insert_no_throw|destruct (arr_inside _ _ _); discriminate].
Qed.
Lemma store_get_no_throw (s : st (bdc c)) i : bget (bdc c) s i <> Throw.
Proof.
  revert s. unfold bdc, dist_backend. destruct (kindc c); intros s; cbn [bget array_backend octree_backend];
    first [apply octree_get_no_throw|destruct (arr_inside _ _ _); discriminate].
Qed.

Lemma load_loop_no_throw (fuel : nat) : forall size read s acc,
  load_loop junk (bdc c) (dimc c) fmt fuel size read s acc <> Throw.
Proof.
  induction fuel as [|k IH]; intros size read s acc; cbn [load_loop]; destruct (read <? size); try discriminate.
  destruct (get_array _ _ _) as [i s1]. destruct (f_read fmt s1) as [d s2].
  apply bind_no_throw; [apply store_insert_no_throw|]. intros; apply IH.
Qed.
Lemma header_loop_no_throw (fuel : nat) : forall size read s, header_loop junk (dimc c) fuel size read s <> Throw.
Proof.
  induction fuel as [|k IH]; intros size read s; cbn [header_loop]; destruct (read <? size); try discriminate.
  destruct (get_array _ _ _) as [i s1]. apply bind_no_throw; [apply IH|discriminate].
Qed.
Lemma dynamic_max_no_throw (mn : idx) : forall size, dynamic_max mn size <> Throw.
Proof.
  induction mn as [|a mn IH]; intros [|k size]; cbn [dynamic_max]; try discriminate.
  destruct (int_ok _); [|discriminate]. apply bind_no_throw; [apply IH|discriminate].
Qed.
Lemma header_load_no_throw (file : list Z) : header_load junk po tp (dimc c) file <> Throw.
Proof.
  unfold header_load. destruct (get_coded junk po file) as [o s1]. destruct (get_coded junk tp s1) as [r s2].
  destruct (get_array _ _ s2) as [z s3]. destruct (get_array _ _ s3) as [mn s4].
  apply bind_no_throw; [apply header_loop_no_throw|discriminate].
Qed.
Lemma map_header_no_throw (file : list Z) : map_header_load junk po tp c file <> Throw.
Proof.
  unfold map_header_load. destruct (kindc c).
  2:{ apply bind_no_throw; [|intros [[[o r] [mn mx]] l] _; discriminate].
      unfold dynamic_header_load. apply bind_no_throw; [apply header_load_no_throw|]. intros h _.
      apply bind_no_throw; [apply dynamic_max_no_throw|discriminate]. }
  - apply bind_no_throw; [apply header_load_no_throw|discriminate].
Qed.

Lemma workers_no_throw {R : Type} (ops : list (operation R)) (sched : list nat) :
  (forall o, In o ops -> o <> Throw) -> workers_run ops sched <> Throw.
Proof.
  intros H. unfold workers_run. apply fold_no_throw. intros w i. unfold worker_step.
  destruct (nth_error (phases w) i) as [[| |b|]|]; try discriminate.
  destruct (nth_error ops i) as [o|] eqn:E; [|discriminate]. apply bind_no_throw; [|discriminate].
  apply H. apply nth_error_In in E. exact E.
Qed.
Lemma slots_no_throw storages bi : forall is, bundle_slots c storages bi is <> Throw.
Proof.
  induction is as [|i is IH]; cbn [bundle_slots]; [discriminate|].
  destruct (nth_error storages i) as [[s|]|]; try discriminate.
  apply bind_no_throw; [apply store_get_no_throw|]. intros d _. apply bind_no_throw; [exact IH|discriminate].
Qed.
Lemma not_null_no_throw {A : Type} (l : list (option A)) : not_null l <> Throw.
Proof.
  induction l as [|[x|] l IH]; cbn [not_null]; try discriminate. apply bind_no_throw; [exact IH|discriminate].
Qed.

(** The operations of [load] return true if the files are there. *)
Lemma load_no_false (e : environment) (fresh : nat -> st (bdc c)) (files : list (option (list Z))) (i : nat) (r : option (st (bdc c))) :
  open_store e i = true -> (exists f, nth_error files i = Some (Some f)) ->
  load_operation junk fmt c e fresh files i <> Ok (false, r).
Proof.
  intros Ho [f Hf]. unfold load_operation. rewrite Hf, Ho. destruct (storage_load _ _ _ _ _ _); discriminate.
Qed.

Lemma nothing_rejected (e : environment) (sched : list nat) (g : nat -> Z) (h : list Z) (fs : list (list Z)) :
  length fs = n -> open_header e = true -> (forall i, (i < n)%nat -> open_store e i = true) -> complete n sched ->
  map_load junk po tp fmt c e sched g (Some {| header_file := Some h; store_files := map Some fs |}) <> Ok None /\
  map_load junk po tp fmt c e sched g (Some {| header_file := Some h; store_files := map Some fs |}) <> Throw.
Proof.
  intros HL Hh Ho Hs. unfold map_load. cbn [header_file store_files]. rewrite Hh.
  assert (HF : forallb (fun f : option (list Z) => match f with Some _ => true | None => false end) (map Some fs) = true).
  { apply forallb_forall. intros x Hx. apply in_map_iff in Hx. destruct Hx as [y [<- _]]. reflexivity. }
  rewrite HF. clear HF.
  assert (Hfile : forall i, (i < n)%nat -> exists f, nth_error (map Some fs) i = Some (Some f)).
  { intros i Hi. rewrite nth_error_map. destruct (nth_error fs i) as [f|] eqn:E; [exists f; reflexivity|].
    apply nth_error_None in E. lia. }
  destruct (map_header_load junk po tp c h) as [[[[o r] [[sz mn] mx]] l]| |] eqn:Eh.
  2:{ split; discriminate. }
  2:{ exfalso. exact (map_header_no_throw h Eh). }
  cbn [obind]. set (ops := map (load_operation junk fmt c e (fresh_store c g sz mn) (map Some fs)) (seq 0 n)).
  assert (Hops : forall i r', nth_error ops i <> Some (Ok (false, r'))).
  { intros i r' K. unfold ops in K. destruct (Nat.lt_ge_cases i n) as [Hi|Hi].
    - rewrite nth_error_seq_map in K by exact Hi. injection K as K. revert K. apply load_no_false; [apply Ho; exact Hi|apply Hfile; exact Hi].
    - assert (L : (i < length ops)%nat) by (apply nth_error_Some; unfold ops; rewrite K; discriminate).
      unfold ops in L. rewrite map_length, seq_length in L. lia. }
  destruct (workers_run ops sched) as [w| |] eqn:Ew.
  2:{ split; discriminate. }
  2:{ exfalso. revert Ew. apply workers_no_throw. intros op Hop. apply in_map_iff in Hop. destruct Hop as [i [<- Hi]].
      unfold load_operation. destruct (nth_error (map Some fs) i) as [[f|]|]; try discriminate. destruct (open_store e i); [|discriminate].
      apply bind_no_throw; [apply load_loop_no_throw|discriminate]. }
  cbn [obind].
  assert (Hf : flag w = true).
  { destruct (flag w) eqn:Ef; [reflexivity|]. exfalso. destruct (false_failed ops sched w Ew Ef) as [i [r' K]]. exact (Hops i r' K). }
  rewrite Hf.
  destruct (ofold _ l _) as [bs| |] eqn:Eb; cbn [obind].
  2:{ split; discriminate. }
  2:{ exfalso. revert Eb. apply fold_no_throw. intros a b. unfold allocate_bundle.
      apply bind_no_throw; [apply slots_no_throw|]. intros; apply bundle_insert_no_throw. }
  destruct (not_null (made w)) as [ss| |] eqn:En; cbn [obind].
  - split; discriminate.
  - split; discriminate.
  - exfalso. exact (not_null_no_throw _ En).
Qed.
End Map.

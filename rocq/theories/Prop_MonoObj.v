(** C78, C79: extents of the single-distribution grid map; copying, moving and looking up. *)
From Coq Require Import QArith Qround.
From Verif Require Import Base SeqModel IndexModel OctreeSpec MapModel BackendModel SysModel ExtentModel
  MonoModel MonoSpec MonoFacts MonoObjModel MonoObjSpec MonoObjFacts Prop_Mono.
Open Scope Z_scope.

(** C78, what holds after every history of every map with any rigid transform [t]: (1) the points that
    have a cell are those between [getMin] and [getMin + (getWidth, getHeight)], (2) the points that
    [toIndex] accepts are those between [getMin] and [getMax]; (3) [validate] accepts a pose exactly if
    [toIndex] accepts its position; (4) the position [fromIndex] gives for a cell is in this cell; (5)
    [getMax - getMin] is one cell more than [(getWidth, getHeight)]; (6) [getOrigin] is at the world
    position of [getMin] exactly if the rotation leaves [getMin] where it is. *)
Theorem C78_extent_partial {V : Type} (default : V) (merge : V -> V -> V) (add : V -> list Q -> V) (t : rigid)
  (res : Q) (size : list Z) (min : idx) (ops : list (mono_op (V:=V) (W:=list Q))) :
  let to_m := rapply (rinverse t) in
  mono_args res size min -> rigid_ok t -> off_border to_m res size min ops ->
  nth 0 min 0 + nth 0 size 0 < INT_MAX -> nth 1 min 0 + nth 1 size 0 < INT_MAX ->
  exists m0 m hi, mono_new res size min = Ok m0 /\ mono_run default merge to_m add ops m0 = Ok m /\ mono_getMax m = Ok hi /\
    let lo := mono_getMin m in
    (forall p, has_cell res (to_m p) ->
       (in_cells size min (cell_of res (to_m p)) <->
        in_box lo [nth 0 lo 0 + mono_getWidth m; nth 1 lo 0 + mono_getHeight m]%Q (to_m p)) /\
       ((exists i, mono_toIndex to_m m p = Ok (Some i)) <-> in_box lo hi (to_m p))) /\
    (forall pose, mono_validate t m pose =
       (let* o := mono_toIndex to_m m [rx pose; ry pose] in Ok (match o with Some _ => true | None => false end))) /\
    (forall i, in_cells size min i -> mono_toIndex to_m m (mono_fromIndex t m i) = Ok (Some i)) /\
    (forall d, (d < 2)%nat -> (nth d hi 0 - nth d lo 0 == (if Nat.eqb d 0 then mono_getWidth m else mono_getHeight m) + res)%Q) /\
    (let o := mono_getOrigin t m in
     Forall2 Qeq [rx o; ry o] (rapply t lo) <->
     (rc t * nth 0 lo 0 - rs t * nth 1 lo 0 == nth 0 lo 0)%Q /\ (rs t * nth 0 lo 0 + rc t * nth 1 lo 0 == nth 1 lo 0)%Q).
Proof. exact (extent_all default merge add t res size min ops). Qed.
Print Assumptions C78_extent_partial.

(** C78 is false: for every map, whatever its arguments, [getMax - getMin] is not the width. *)
Theorem C78_width_refuted {V : Type} (res : Q) (size : list Z) (min : idx) :
  mono_args res size min -> nth 0 min 0 + nth 0 size 0 < INT_MAX -> nth 1 min 0 + nth 1 size 0 < INT_MAX ->
  exists (m : mono V) (hi : list Q), mono_new res size min = Ok m /\ mono_getMax m = Ok hi /\
    ~ (nth 0 hi 0 - nth 0 (mono_getMin m) 0 == mono_getWidth m)%Q.
Proof.
  intros Ha B0 B1. destruct (new_ok (V:=V) res size min Ha) as [m [E [O _]]]. exists m. eexists.
  split; [exact E|]. split; [exact (max_value res size min Ha m O B0 B1)|].
  unfold mono_getMin, mono_getWidth. rewrite (mk_res _ _ _ _ O), (mk_min _ _ _ _ O), (mk_size _ _ _ _ O). cbn [nth].
  rewrite !inject_Z_plus. intros X. assert (Y : (res == 0)%Q).
  { transitivity ((inject_Z (nth 0 min 0%Z) + inject_Z (nth 0 size 0%Z) + inject_Z 1) * res - inject_Z (nth 0 min 0%Z) * res - inject_Z (nth 0 size 0%Z) * res)%Q;
      [ring|rewrite <- X; ring]. }
  destruct Ha as [Hr _]. rewrite Y in Hr. discriminate Hr.
Qed.
Print Assumptions C78_width_refuted.

(** C78 is false: with a quarter turn the origin of a map that begins at cell (3, 0) is not at its minimum. *)
Theorem C78_origin_refuted : exists (t : rigid) (m : mono unit), rigid_ok t /\ mono_new 1 [2; 2] [3; 0] = Ok m /\
  let o := mono_getOrigin t m in ~ Forall2 Qeq [rx o; ry o] (rapply t (mono_getMin m)).
Proof.
  exists {| rc := 0; rs := 1; rx := 0; ry := 0 |}%Q. eexists. split; [reflexivity|]. split; [reflexivity|].
  intros o X. inversion X as [|? ? ? ? X0 _]; subst. vm_compute in X0. discriminate X0.
Qed.
Print Assumptions C78_origin_refuted.

(** A map turned by the angle with cosine 3/5 and sine 4/5 and displaced by (1, 2); points are counted. *)
Definition turned : rigid := {| rc := 3 # 5; rs := 4 # 5; rx := 1; ry := 2 |}%Q.
Definition turned_ops : list (mono_op (V:=Z) (W:=list Q)) :=
  [MInsert (rapply turned [1 # 4; 1 # 3]%Q); MModify [1; 1] (fun n => n + 10)].
Example C78_example :
  mono_args (1 # 2) [3; 2] [-1; 0] /\ rigid_ok turned /\ off_border (rapply (rinverse turned)) (1 # 2) [3; 2] [-1; 0] turned_ops /\
  (let* m0 := mono_new (1 # 2) [3; 2] [-1; 0] in
   let* m := mono_run 0 Z.add (rapply (rinverse turned)) count_point turned_ops m0 in
   let* hi := mono_getMax m in
   let* a := mono_get Z.add (rapply (rinverse turned)) m (rapply turned [1 # 8; 1 # 8]%Q) in
   let* ok := mono_validate turned m turned in
   Ok (map Qred (mono_getMin m), map Qred hi, map Qred [mono_getWidth m; mono_getHeight m], a, ok)) =
  Ok ([-1 # 2; 0]%Q, [3 # 2; 3 # 2]%Q, [3 # 2; 1]%Q, Some 1, true).
Proof.
  split. { split; [reflexivity|]. split; [reflexivity|]. split; [reflexivity|].
    intros [|[|d]] Hd; unfold INT_MIN, INT_MAX; cbn [nth]; lia. }
  split; [reflexivity|]. split; [|vm_compute; reflexivity].
  constructor; [apply (off_cell _ _ _ 0 0); [reflexivity|vm_compute; reflexivity|cbn [nth]; lia..]|].
  constructor; [split; [reflexivity|intros [|[|d]] Hd; [cbn [nth]; lia|cbn [nth]; lia|lia]]|constructor].
Qed.

(** C78: [traverse] and [getIndices] visit exactly the cells changed by the history, each once, with
    their contents. *)
Theorem C78_traversal {V W : Type} (default : V) (merge : V -> V -> V) (to_m : W -> list Q) (add : V -> W -> V)
  (res : Q) (size : list Z) (min : idx) (ops : list (mono_op (V:=V) (W:=W))) :
  mono_args res size min -> off_border to_m res size min ops ->
  exists m0 m es, mono_new res size min = Ok m0 /\ mono_run default merge to_m add ops m0 = Ok m /\
    mono_cells merge m = Ok es /\ mono_getIndices merge m = Ok (map fst es) /\ NoDup (map fst es) /\
    forall i v, In (i, v) es <-> in_cells size min i /\ cell_history default to_m add res ops i = Some v.
Proof. exact (fun Ha => mono_traversal default merge to_m add res size min Ha ops). Qed.
Print Assumptions C78_traversal.

(** C79, what holds: every program of constructions, copies, moves, changes and lookups runs, and
    every object shows exactly its own history: the changes made to it, to the object it was copied or
    moved from before that, and to objects with which it shares its storage by moves. *)
Theorem C79_objects_partial {V W : Type} (default : V) (merge : V -> V -> V) (to_m : W -> list Q) (add : V -> W -> V)
  (l : list (mstmt (V:=V) (W:=W))) :
  prog_ok to_m (rev l) ->
  exists h, mprog default merge to_m add l = Ok h /\ length (h_objs h) = objects (rev l) /\
    forall k, (k < objects (rev l))%nat ->
    exists res size min ops m, story (rev l) k = Some ((res, size, min), ops) /\ view h k = Ok m /\
      forall p, has_cell res (to_m p) -> in_cells size min (cell_of res (to_m p)) ->
        mono_get merge to_m m p = Ok (cell_history default to_m add res ops (cell_of res (to_m p))).
Proof. exact (objects_show default merge to_m add (fun _ _ => 0%Q) l). Qed.
Print Assumptions C79_objects_partial.

(** A statement leaves every object as it is that exists already and does not share the storage of the
    object it is applied to; objects share a storage by moves only ([shared]). *)
Theorem C79_others_unchanged {V W : Type} (default : V) (merge : V -> V -> V) (to_m : W -> list Q) (add : V -> W -> V)
  (l : list (mstmt (V:=V) (W:=W))) (s : mstmt) (j k : nat) (h h' : mheap V) :
  prog_ok to_m (s :: rev l) -> (match s with SOp i _ | SLookup i _ => i = j | _ => True end) ->
  (k < objects (rev l))%nat -> (creates s = false -> shared (rev l) j k = false) ->
  mprog default merge to_m add l = Ok h -> mprog default merge to_m add (l ++ [s]) = Ok h' -> view h' k = view h k.
Proof. exact (others_unchanged default merge to_m add l s j k h h'). Qed.
Print Assumptions C79_others_unchanged.

(** Looking up a cell through the const member function: scores stay the same at all points if a new
    distribution scores 0. *)
Theorem C79_lookup_scores_partial {V W : Type} (default : V) (merge : V -> V -> V) (to_m : W -> list Q) (add : V -> W -> V)
  (dsample : V -> W -> Q) (res : Q) (size : list Z) (min : idx) (ops : list (mono_op (V:=V) (W:=W))) (i : idx) :
  mono_args res size min -> off_border to_m res size min ops -> in_cells size min i ->
  (forall p, dsample default p = 0%Q) ->
  exists m0 m m', mono_new res size min = Ok m0 /\ mono_run default merge to_m add ops m0 = Ok m /\
    mono_getAllocate default merge m i = Ok m' /\
    forall p, has_cell res (to_m p) -> mono_sample merge to_m dsample m' p = mono_sample merge to_m dsample m p.
Proof.
  intros Ha Hoff Hi Hd.
  destruct (mono_history default merge to_m add dsample res size min Ha ops Hoff) as [m0 [m [E0 [E [O _]]]]].
  destruct (lookup_cells default merge res size min m i Ha O Hi) as [m' [E' [O' C]]].
  exists m0, m, m'. split; [exact E0|]. split; [exact E|]. split; [exact E'|]. intros p Hp.
  exact (lookup_sample default merge to_m add dsample res size min m m' i p Ha O O' C Hd Hp).
Qed.
Print Assumptions C79_lookup_scores_partial.

(** C79 is false: a const lookup makes a cell exist that did not exist before. *)
Theorem C79_lookup_const_refuted : exists (m m' : mono Z) (i : idx) (before after : list idx),
  mono_new 1 [2; 2] [0; 0] = Ok m /\ in_cells [2; 2] [0; 0] i /\ mono_getAllocate 0 Z.add m i = Ok m' /\
  mono_getIndices Z.add m = Ok before /\ mono_getIndices Z.add m' = Ok after /\ before <> after.
Proof.
  eexists. eexists. exists [1; 0]. eexists. eexists. split; [reflexivity|].
  split; [split; [reflexivity|intros [|[|d]] Hd; cbn [nth]; lia]|].
  split; [vm_compute; reflexivity|]. split; [vm_compute; reflexivity|]. split; [vm_compute; reflexivity|]. discriminate.
Qed.
Print Assumptions C79_lookup_const_refuted.

(** C79 is false of moved objects: points inserted into the new object appear in the old one. Object 0
    is constructed, object 1 moved from it, object 2 copied from it; then a point is inserted into 1. *)
Definition unit_square (p : list Q) : list Q := [nth 0 p 0; nth 1 p 0]%Q.
Definition moved : list (mstmt (V:=Z) (W:=list Q)) :=
  [SNew 1 [2; 2] [0; 0]; SOp 0 (MInsert [1 # 2; 1 # 2]%Q); SMove 0; SCopy 0; SOp 1 (MInsert [1 # 2; 1 # 3]%Q)].
Definition shown (l : list (mstmt (V:=Z) (W:=list Q))) (k : nat) : outcome (option Z) :=
  let* h := mprog 0 Z.add unit_square count_point l in
  let* m := view h k in mono_get Z.add unit_square m [1 # 2; 1 # 2]%Q.
Lemma moved_ok : prog_ok unit_square (rev moved).
Proof.
  assert (H : forall x y : Q, Qfloor (x / 1) = 0 -> Qfloor (y / 1) = 0 ->
    off_border (V:=Z) unit_square 1 [2; 2] [0; 0] [MInsert [x; y]]).
  { intros x y Hx Hy. constructor; [|constructor].
    assert (E : cell_of 1 (unit_square [x; y]) = [0; 0]) by (unfold unit_square, cell_of; cbn [map nth]; rewrite Hx, Hy; reflexivity).
    apply (off_cell _ _ _ 0 0); [reflexivity|exact E|lia|lia|cbn [nth]; lia]. }
  assert (Ha : mono_args 1 [2; 2] [0; 0]).
  { split; [reflexivity|]. split; [reflexivity|]. split; [reflexivity|].
    intros [|[|d]] Hd; unfold INT_MIN, INT_MAX; cbn [nth]; lia. }
  cbn [moved rev app prog_ok stmt_ok].
  split; [split; [split; [split; [split; [exact I|exact Ha]|]|]|]|].
  - eexists. eexists. split; [reflexivity|]. apply H; reflexivity.
  - unfold objects. cbn. lia.
  - unfold objects. cbn. lia.
  - eexists. eexists. split; [reflexivity|]. apply H; reflexivity.
Qed.
Theorem C79_move_shares_refuted : exists (l : list (mstmt (V:=Z) (W:=list Q))) (op : mono_op) (a b : Z),
  prog_ok unit_square (rev (l ++ [SOp 1 op])) /\ shown l 0 = Ok (Some a) /\ shown (l ++ [SOp 1 op]) 0 = Ok (Some b) /\ a <> b.
Proof.
  exists [SNew 1 [2; 2] [0; 0]; SOp 0 (MInsert [1 # 2; 1 # 2]%Q); SMove 0; SCopy 0], (MInsert [1 # 2; 1 # 3]%Q). eexists. eexists.
  split; [exact moved_ok|]. split; [vm_compute; reflexivity|]. split; [vm_compute; reflexivity|]. discriminate.
Qed.
Print Assumptions C79_move_shares_refuted.

Example C79_example :
  prog_ok unit_square (rev moved) /\
  shown moved 0 = Ok (Some 2) /\ shown moved 1 = Ok (Some 2) /\ shown moved 2 = Ok (Some 1) /\
  shared (rev moved) 1 0 = true /\ shared (rev moved) 1 2 = false /\
  match story (rev moved) 2 with Some (_, ops) => length ops = 1%nat | None => False end.
Proof.
  split; [exact moved_ok|]. split; [vm_compute; reflexivity|]. split; [vm_compute; reflexivity|]. split; [vm_compute; reflexivity|].
  repeat split.
Qed.

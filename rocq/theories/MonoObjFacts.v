(** Proofs about accessors and programs of the single-distribution grid map. *)
From Coq Require Import QArith Qround Lqa.
From Verif Require Import Base SeqModel SeqFacts IndexModel OctreeSpec MapModel BackendModel BackendFacts SysModel
  ExtentModel ExtentFacts MonoModel MonoSpec MonoFacts MonoObjModel MonoObjSpec.
Open Scope Z_scope.

(** Cells and coordinates. *)
Lemma floor_range (res x : Q) (a b : Z) : (0 < res)%Q ->
  (a <= Qfloor (x / res) /\ Qfloor (x / res) < b <-> (inject_Z a * res <= x)%Q /\ (x < inject_Z b * res)%Q).
Proof.
  intros Hr.
  assert (E : (x == x / res * res)%Q) by (field; intros E; rewrite E in Hr; discriminate).
  pose proof (Qfloor_le (x / res)) as F1. pose proof (Qlt_floor (x / res)) as F2.
  set (y := (x / res)%Q) in *. set (f := Qfloor y) in *. split.
  - intros [Ha Hb]. split.
    + rewrite E. apply Qmult_le_compat_r; [|lra]. apply Qle_trans with (inject_Z f); [rewrite <- Zle_Qle; exact Ha|exact F1].
    + rewrite E. apply Qmult_lt_compat_r; [exact Hr|]. apply Qlt_le_trans with (inject_Z (f + 1)); [exact F2|]. rewrite <- Zle_Qle. lia.
  - intros [Ha Hb]. rewrite E in Ha, Hb. apply Qmult_lt_r in Hb; [|exact Hr].
    apply Qmult_le_r in Ha; [|exact Hr]. split.
    + enough (a < f + 1) by lia. rewrite Zlt_Qlt. apply Qle_lt_trans with y; assumption.
    + rewrite Zlt_Qlt. apply Qle_lt_trans with y; assumption.
Qed.

Section Accessors.
Context {V : Type}.
Variable res : Q.
Variable size : list Z.
Variable min : idx.
Hypothesis Hargs : mono_args res size min.
Variable m : mono V.
Hypothesis Hm : mono_ok res size min m.

Lemma res_pos : (0 < res)%Q.
Proof. apply Hargs. Qed.

Lemma max_value : nth 0 min 0 + nth 0 size 0 < INT_MAX -> nth 1 min 0 + nth 1 size 0 < INT_MAX ->
  mono_getMax m = Ok [inject_Z (nth 0 min 0%Z + nth 0 size 0%Z + 1) * res; inject_Z (nth 1 min 0%Z + nth 1 size 0%Z + 1) * res]%Q.
Proof.
  intros H0 H1. destruct Hargs as [_ [_ [_ H]]]. pose proof (H 0%nat ltac:(lia)). pose proof (H 1%nat ltac:(lia)).
  unfold mono_getMax. rewrite (mk_max _ _ _ _ Hm), (mk_res _ _ _ _ Hm). cbn [nth].
  rewrite !to_int_ok by (unfold INT_MIN, INT_MAX in *; lia). reflexivity.
Qed.

Lemma cells_box (p : list Q) : length p = 2%nat ->
  (in_cells size min (cell_of res p) <->
   in_box (mono_getMin m) [nth 0 (mono_getMin m) 0 + mono_getWidth m; nth 1 (mono_getMin m) 0 + mono_getHeight m]%Q p).
Proof.
  intros L. rewrite (list2 0%Q p L). set (x := nth 0 p 0%Q). set (y := nth 1 p 0%Q).
  unfold in_cells, in_box, mono_getMin, mono_getWidth, mono_getHeight.
  rewrite (mk_res _ _ _ _ Hm), (mk_min _ _ _ _ Hm), (mk_size _ _ _ _ Hm). cbn [cell_of map length].
  pose proof (floor_range res x (nth 0 min 0) (nth 0 min 0 + nth 0 size 0) res_pos) as F0.
  pose proof (floor_range res y (nth 1 min 0) (nth 1 min 0 + nth 1 size 0) res_pos) as F1.
  rewrite inject_Z_plus, Qmult_plus_distr_l in F0. rewrite inject_Z_plus, Qmult_plus_distr_l in F1.
  split.
  - intros [_ A] [|[|d]] Hd; [|  |lia]; cbn [nth].
    + apply F0. exact (A 0%nat Hd).
    + apply F1. exact (A 1%nat Hd).
  - intros A. split; [reflexivity|]. intros [|[|d]] Hd; [| |lia]; cbn [nth].
    + apply F0. exact (A 0%nat Hd).
    + apply F1. exact (A 1%nat Hd).
Qed.

Lemma within_box (p : list Q) (hi : list Q) : length p = 2%nat ->
  mono_getMax m = Ok hi -> nth 0 min 0 + nth 0 size 0 < INT_MAX -> nth 1 min 0 + nth 1 size 0 < INT_MAX ->
  (within size min (cell_of res p) = true <-> in_box (mono_getMin m) hi p).
Proof.
  intros L Hhi B0 B1. rewrite (max_value B0 B1) in Hhi. injection Hhi as <-.
  rewrite (list2 0%Q p L). set (x := nth 0 p 0%Q). set (y := nth 1 p 0%Q).
  unfold within, in_box, mono_getMin. rewrite (mk_res _ _ _ _ Hm), (mk_min _ _ _ _ Hm). cbn [cell_of map nth].
  pose proof (floor_range res x (nth 0 min 0) (nth 0 min 0 + nth 0 size 0 + 1) res_pos) as F0.
  pose proof (floor_range res y (nth 1 min 0) (nth 1 min 0 + nth 1 size 0 + 1) res_pos) as F1.
  rewrite !Bool.andb_true_iff, !Z.leb_le. split.
  - intros A [|[|d]] Hd; [| |lia]; cbn [nth]; [apply F0; lia|apply F1; lia].
  - intros A. pose proof (A 0%nat ltac:(lia)) as A0. pose proof (A 1%nat ltac:(lia)) as A1. cbn [nth] in A0, A1.
    apply F0 in A0. apply F1 in A1. lia.
Qed.

Lemma rapply_inverse (t : rigid) (p : list Q) : rigid_ok t -> length p = 2%nat -> Forall2 Qeq (rapply (rinverse t) (rapply t p)) p.
Proof.
  intros Ht L. rewrite (list2 0%Q p L). set (x := nth 0 p 0%Q). set (y := nth 1 p 0%Q). unfold rapply, rinverse, rigid_ok in *.
  cbn [nth rc rs rx ry]. constructor; [|constructor; [|constructor]].
  - transitivity ((rc t * rc t + rs t * rs t) * x)%Q; [ring|rewrite Ht; ring].
  - transitivity ((rc t * rc t + rs t * rs t) * y)%Q; [ring|rewrite Ht; ring].
Qed.
Lemma rinverse_apply (t : rigid) (p : list Q) : rigid_ok t -> length p = 2%nat -> Forall2 Qeq (rapply t (rapply (rinverse t) p)) p.
Proof.
  intros Ht L. rewrite (list2 0%Q p L). set (x := nth 0 p 0%Q). set (y := nth 1 p 0%Q). unfold rapply, rinverse, rigid_ok in *.
  cbn [nth rc rs rx ry]. constructor; [|constructor; [|constructor]].
  - transitivity ((rc t * rc t + rs t * rs t) * (x - rx t) + rx t)%Q; [ring|rewrite Ht; ring].
  - transitivity ((rc t * rc t + rs t * rs t) * (y - ry t) + ry t)%Q; [ring|rewrite Ht; ring].
Qed.

Lemma cell_corner (i : idx) : length i = 2%nat -> cell_of res [inject_Z (nth 0 i 0%Z) * res; inject_Z (nth 1 i 0%Z) * res]%Q = i.
Proof.
  intros L. rewrite (list2 0 i L) at 3. cbn [cell_of map].
  assert (C : forall z, Qfloor (inject_Z z * res / res) = z).
  { intros z. rewrite <- (Qfloor_Z z) at 2. apply Qfloor_comp. field. pose proof res_pos as Hr. intros E. rewrite E in Hr. discriminate. }
  rewrite !C. reflexivity.
Qed.

Lemma from_to (t : rigid) (i : idx) : rigid_ok t -> length i = 2%nat -> within size min i = true ->
  mono_toIndex (rapply (rinverse t)) m (mono_fromIndex t m i) = Ok (Some i).
Proof.
  intros Ht L Hw. unfold mono_fromIndex. rewrite (mk_res _ _ _ _ Hm).
  set (q := [inject_Z (nth 0 i 0%Z) * res; inject_Z (nth 1 i 0%Z) * res]%Q).
  assert (EC : cell_of res (rapply (rinverse t) (rapply t q)) = i).
  { rewrite (cell_of_proper _ _ _ (rapply_inverse t q Ht eq_refl)). apply cell_corner. exact L. }
  assert (Hc : has_cell res (rapply (rinverse t) (rapply t q))).
  { split; [reflexivity|]. rewrite EC, (list2 0 i L). destruct Hargs as [_ [_ [_ H]]].
    pose proof (H 0%nat ltac:(lia)). pose proof (H 1%nat ltac:(lia)). unfold within in Hw.
    rewrite !Bool.andb_true_iff, !Z.leb_le in Hw. constructor; [lia|]. constructor; [lia|constructor]. }
  destruct (toIndex_spec res size min (rapply (rinverse t)) m (rapply t q) Hm Hc) as [_ E].
  rewrite E, EC, Hw. reflexivity.
Qed.

Lemma validate_toIndex (t pose : rigid) :
  mono_validate t m pose =
  (let* o := mono_toIndex (rapply (rinverse t)) m [rx pose; ry pose] in Ok (match o with Some _ => true | None => false end)).
Proof.
  unfold mono_validate, mono_toIndex. destruct (toBundleIndex _ _) as [i| |]; cbn [obind]; try reflexivity.
  match goal with |- Ok ?b = _ => destruct b end; reflexivity.
Qed.
End Accessors.

(** Programs. *)
Lemma nth_error_lt {A : Type} (l : list A) (n : nat) (x : A) : nth_error l n = Some x -> (n < length l)%nat.
Proof. intros H. apply nth_error_Some. congruence. Qed.

Section Programs.
Context {V W : Type}.
Variable default : V.
Variable merge : V -> V -> V.
Variable to_m : W -> list Q.
Variable add : V -> W -> V.

Notation stmt := (mstmt (V:=V) (W:=W)).
Notation prog := (mprog default merge to_m add).
Notation history := (cell_history default to_m add).

Lemma mprog_snoc (l : list stmt) (s : stmt) :
  prog (l ++ [s]) = let* h := prog l in mexec default merge to_m add h s.
Proof.
  unfold mprog. rewrite ofold_app. destruct (ofold _ l _) as [h| |]; cbn [obind ofold]; try reflexivity.
  destruct (mexec _ _ _ _ h s); reflexivity.
Qed.

Lemma history_snoc (res : Q) (ops : list (mono_op (V:=V) (W:=W))) (op : mono_op (V:=V) (W:=W)) (i : idx) :
  history res (ops ++ [op]) i =
    (let o := history res ops i in
     let v := match o with Some v => v | None => default end in
     match op with
     | MInsert p => if idx_eqb (cell_of res (to_m p)) i then Some (add v p) else o
     | MModify j f => if idx_eqb j i then Some (f v) else o
     end).
Proof. unfold cell_history. rewrite fold_left_app. reflexivity. Qed.

Lemma objects_cons (s : stmt) (rl : list stmt) : objects (s :: rl) = if creates s then S (objects rl) else objects rl.
Proof. unfold objects. cbn [filter]. destruct (creates s); reflexivity. Qed.

(** What is known about object [k]. *)
Definition shows (rl : list stmt) (h : mheap V) (k : nat) : Prop :=
  exists res size min ops m, story rl k = Some ((res, size, min), ops) /\ mono_args res size min /\
    off_border to_m res size min ops /\ view h k = Ok m /\ mono_ok res size min m /\
    forall i, in_cells size min i -> mcell m i = history res ops i.
Record state_ok (rl : list stmt) (h : mheap V) : Prop := {
  so_count : length (h_objs h) = objects rl;
  so_stores : forall o, In o (h_objs h) -> (ob_store o < length (h_stores h))%nat;
  so_shared : forall j k oj ok, nth_error (h_objs h) j = Some oj -> nth_error (h_objs h) k = Some ok ->
    (shared rl j k = true <-> ob_store oj = ob_store ok);
  so_same : forall j k oj ok, nth_error (h_objs h) j = Some oj -> nth_error (h_objs h) k = Some ok ->
    ob_store oj = ob_store ok -> oj = ok /\ story rl j = story rl k;
  so_shows : forall k, (k < objects rl)%nat -> shows rl h k
}.

Lemma view_put (h h' : mheap V) (j : nat) (m : mono V) : put h j m = Ok h' ->
  exists oj, nth_error (h_objs h) j = Some oj /\ h_objs h' = h_objs h /\
    length (h_stores h') = length (h_stores h) /\
    forall k ok, nth_error (h_objs h) k = Some ok ->
      (ob_store oj = ob_store ok -> view h' k = Ok (mono_of ok (mo_store m))) /\
      (ob_store oj <> ob_store ok -> view h' k = view h k).
Proof.
  unfold put. destruct (nth_error (h_objs h) j) as [oj|] eqn:Ej; [|discriminate].
  destruct (upd (h_stores h) (ob_store oj) (mo_store m)) as [ss|] eqn:Eu; [|discriminate]. intros H. injection H as <-.
  exists oj. split; [reflexivity|]. split; [reflexivity|]. cbn [h_stores h_objs].
  split; [exact (upd_length _ _ _ _ Eu)|]. intros k ok Ek. unfold view. cbn [h_stores h_objs]. rewrite Ek.
  rewrite (upd_nth_error _ _ _ (ob_store ok) _ Eu). split.
  - intros ->. rewrite Nat.eqb_refl. reflexivity.
  - intros Hne. destruct (Nat.eqb_spec (ob_store oj) (ob_store ok)) as [|]; [contradiction|].
    destruct (Nat.eqb_spec (ob_store ok) (ob_store oj)) as [e|]; [symmetry in e; contradiction|reflexivity].
Qed.

(** A constructor call: old objects keep their storage. *)
Lemma view_old (h : mheap V) (s : list (arr V)) (o : mobj) (k : nat) :
  (k < length (h_objs h))%nat -> (forall o, In o (h_objs h) -> (ob_store o < length (h_stores h))%nat) ->
  view {| h_stores := h_stores h ++ s; h_objs := h_objs h ++ [o] |} k = view h k.
Proof.
  intros Hk Hs. unfold view. cbn [h_stores h_objs]. rewrite nth_error_app1 by exact Hk.
  destruct (nth_error (h_objs h) k) as [x|] eqn:E; [|reflexivity].
  rewrite nth_error_app1; [reflexivity|]. apply Hs. exact (nth_error_In _ _ E).
Qed.
Lemma view_fresh (h : mheap V) (m : mono V) : view (fresh h m) (length (h_objs h)) = Ok m.
Proof.
  unfold view, fresh. cbn [h_stores h_objs]. rewrite nth_error_app2, Nat.sub_diag by lia. cbn [nth_error obj_of ob_store].
  rewrite nth_error_app2, Nat.sub_diag by lia. cbn [nth_error]. destruct m. reflexivity.
Qed.

Lemma view_obj (h : mheap V) (k : nat) (m : mono V) : view h k = Ok m ->
  exists o s, nth_error (h_objs h) k = Some o /\ nth_error (h_stores h) (ob_store o) = Some s /\ m = mono_of o s.
Proof.
  unfold view. destruct (nth_error (h_objs h) k) as [o|]; [|discriminate].
  destruct (nth_error (h_stores h) (ob_store o)) as [s|] eqn:E; [|discriminate]. intros H. injection H as <-. eauto.
Qed.

(** A new object with a storage of its own. *)
Lemma fresh_ok (rl : list stmt) (h : mheap V) (s : stmt) (m : mono V) (res : Q) (size : list Z) (min : idx) (ops : list (mono_op (V:=V) (W:=W))) :
  state_ok rl h -> match s with SNew _ _ _ | SCopy _ => True | _ => False end ->
  story (s :: rl) (objects rl) = Some ((res, size, min), ops) ->
  mono_args res size min -> off_border to_m res size min ops -> mono_ok res size min m ->
  (forall i, in_cells size min i -> mcell m i = history res ops i) ->
  state_ok (s :: rl) (fresh h m).
Proof.
  intros Hh Hs Hst Ha Hb Hm Hc.
  assert (Hcr : creates s = true) by (destruct s; try contradiction; reflexivity).
  split.
  - rewrite objects_cons, Hcr. unfold fresh. cbn [h_objs]. rewrite app_length, (so_count _ _ Hh). cbn [length]. lia.
  - intros o Ho. unfold fresh in *. cbn [h_stores h_objs] in *. rewrite app_length. cbn [length].
    apply in_app_or in Ho. destruct Ho as [Ho|[<-|[]]]; [pose proof (so_stores _ _ Hh o Ho); lia|]. cbn [obj_of ob_store]. lia.
  - intros j k oj ok Hj Hk. unfold fresh in *. cbn [h_stores h_objs] in *.
    assert (E : shared (s :: rl) j k = if Nat.eqb j (objects rl) then Nat.eqb k (objects rl) else if Nat.eqb k (objects rl) then false else shared rl j k).
    { destruct s; try contradiction; reflexivity. }
    rewrite E. rewrite <- (so_count _ _ Hh).
    assert (Lj : (j < length (h_objs h) + 1)%nat) by (apply nth_error_lt in Hj; rewrite app_length in Hj; exact Hj).
    assert (Lk : (k < length (h_objs h) + 1)%nat) by (apply nth_error_lt in Hk; rewrite app_length in Hk; exact Hk).
    destruct (Nat.eqb_spec j (length (h_objs h))) as [Ej|Ej]; destruct (Nat.eqb_spec k (length (h_objs h))) as [Ek|Ek].
    + subst j k. split; [congruence|reflexivity].
    + subst j. rewrite nth_error_app2, Nat.sub_diag in Hj by lia. injection Hj as <-. rewrite nth_error_app1 in Hk by lia.
      pose proof (so_stores _ _ Hh ok (nth_error_In _ _ Hk)). cbn [obj_of ob_store]. split; [discriminate|lia].
    + subst k. rewrite nth_error_app2, Nat.sub_diag in Hk by lia. injection Hk as <-. rewrite nth_error_app1 in Hj by lia.
      pose proof (so_stores _ _ Hh oj (nth_error_In _ _ Hj)). cbn [obj_of ob_store]. split; [discriminate|lia].
    + rewrite nth_error_app1 in Hj, Hk by lia. apply (so_shared _ _ Hh); assumption.
  - intros j k oj ok Hj Hk Hid. unfold fresh in *. cbn [h_stores h_objs] in *.
    assert (Lj : (j < length (h_objs h) + 1)%nat) by (apply nth_error_lt in Hj; rewrite app_length in Hj; exact Hj).
    assert (Lk : (k < length (h_objs h) + 1)%nat) by (apply nth_error_lt in Hk; rewrite app_length in Hk; exact Hk).
    destruct (Nat.eq_dec j (length (h_objs h))) as [Ej|Ej]; destruct (Nat.eq_dec k (length (h_objs h))) as [Ek|Ek].
    + subst j k. split; [congruence|reflexivity].
    + subst j. rewrite nth_error_app2, Nat.sub_diag in Hj by lia. injection Hj as <-. rewrite nth_error_app1 in Hk by lia.
      pose proof (so_stores _ _ Hh ok (nth_error_In _ _ Hk)). cbn [obj_of ob_store] in Hid. lia.
    + subst k. rewrite nth_error_app2, Nat.sub_diag in Hk by lia. injection Hk as <-. rewrite nth_error_app1 in Hj by lia.
      pose proof (so_stores _ _ Hh oj (nth_error_In _ _ Hj)). cbn [obj_of ob_store] in Hid. lia.
    + rewrite nth_error_app1 in Hj, Hk by lia. destruct (so_same _ _ Hh j k oj ok Hj Hk Hid) as [X Y]. split; [exact X|].
      assert (Z : forall x, x <> length (h_objs h) -> story (s :: rl) x = story rl x).
      { intros x Hx. rewrite (so_count _ _ Hh) in Hx.
        destruct s; try contradiction; cbn [story]; destruct (Nat.eqb_spec x (objects rl)); try contradiction; reflexivity. }
      rewrite !Z by assumption. exact Y.
  - intros k Hk. rewrite objects_cons, Hcr in Hk.
    destruct (Nat.eqb_spec k (objects rl)) as [->|Hne].
    + exists res, size, min, ops, m. split; [exact Hst|]. split; [exact Ha|]. split; [exact Hb|].
      split; [rewrite <- (so_count _ _ Hh); apply view_fresh|]. split; [exact Hm|exact Hc].
    + destruct (so_shows _ _ Hh k ltac:(lia)) as [r [sz [mi [os [m' [A [B [C [D [E F]]]]]]]]]].
      exists r, sz, mi, os, m'. split.
      { destruct s; try contradiction; cbn [story]; destruct (Nat.eqb_spec k (objects rl)) as [X|X]; try contradiction; exact A. }
      split; [exact B|]. split; [exact C|]. split; [|split; [exact E|exact F]].
      rewrite <- D. apply view_old; [rewrite (so_count _ _ Hh); lia|apply (so_stores _ _ Hh)].
Qed.

(** An object made by a move. *)
Lemma move_ok (rl : list stmt) (h : mheap V) (i : nat) : state_ok rl h -> (i < objects rl)%nat ->
  exists h', mexec default merge to_m add h (SMove i) = Ok h' /\ state_ok (SMove i :: rl) h'.
Proof.
  intros Hh Hi. cbn [mexec].
  destruct (nth_error (h_objs h) i) as [o|] eqn:Eo; [|apply nth_error_None in Eo; rewrite (so_count _ _ Hh) in Eo; lia].
  eexists. split; [reflexivity|].
  assert (look : forall k ok, nth_error (h_objs h ++ [o]) k = Some ok ->
    nth_error (h_objs h) (if Nat.eqb k (objects rl) then i else k) = Some ok).
  { intros k ok Hk. rewrite <- (so_count _ _ Hh). destruct (Nat.eqb_spec k (length (h_objs h))) as [->|Hne].
    - rewrite nth_error_app2, Nat.sub_diag in Hk by lia. cbn [nth_error] in Hk. congruence.
    - rewrite nth_error_app1 in Hk; [exact Hk|]. apply nth_error_lt in Hk. rewrite app_length in Hk. cbn [length] in Hk. lia. }
  split; cbn [h_stores h_objs].
  - rewrite objects_cons, app_length, (so_count _ _ Hh). cbn [creates length]. lia.
  - intros x Hx. apply in_app_or in Hx. destruct Hx as [Hx|[<-|[]]]; [apply (so_stores _ _ Hh x Hx)|].
    apply (so_stores _ _ Hh). exact (nth_error_In _ _ Eo).
  - intros j k oj ok Hj Hk. cbn [shared]. apply (so_shared _ _ Hh); [apply look, Hj|apply look, Hk].
  - intros j k oj ok Hj Hk Hid. cbn [story]. apply (so_same _ _ Hh); [apply look, Hj|apply look, Hk|exact Hid].
  - intros k Hk. rewrite objects_cons in Hk. cbn [creates] in Hk.
    set (k' := if Nat.eqb k (objects rl) then i else k).
    assert (Hk' : (k' < objects rl)%nat) by (unfold k'; destruct (Nat.eqb_spec k (objects rl)); lia).
    destruct (so_shows _ _ Hh k' Hk') as [r [sz [mi [os [m' [A [B [C [D [E F]]]]]]]]]].
    exists r, sz, mi, os, m'. split; [exact A|]. split; [exact B|]. split; [exact C|]. split; [|split; [exact E|exact F]].
    rewrite <- D. unfold view. cbn [h_stores h_objs].
    destruct (nth_error (h_objs h ++ [o]) k) as [ok|] eqn:Ek.
    + pose proof (look k ok Ek) as Ek'. fold k' in Ek'. rewrite Ek'. reflexivity.
    + apply nth_error_None in Ek. rewrite app_length, (so_count _ _ Hh) in Ek. cbn [length] in Ek. lia.
Qed.

(** A change of one cell seen by all objects that share the storage. *)
Lemma change_ok (rl : list stmt) (h : mheap V) (s : stmt) (j : nat) (op : mono_op (V:=V) (W:=W)) (F : mono V -> outcome (mono V)) :
  state_ok rl h -> creates s = false ->
  mexec default merge to_m add h s = (let* m := view h j in let* m' := F m in put h j m') ->
  (forall k, story (s :: rl) k = match story rl k with
      | Some (a, ops) => Some (a, if shared rl j k then ops ++ [op] else ops) | None => None end) ->
  (forall a b, shared (s :: rl) a b = shared rl a b) ->
  (j < objects rl)%nat ->
  (forall res size min ops, story rl j = Some ((res, size, min), ops) -> off_border to_m res size min [op]) ->
  (forall res size min m, mono_args res size min -> mono_ok res size min m -> off_border to_m res size min [op] ->
     exists m', F m = Ok m' /\ mono_ok res size min m' /\
       forall i, in_cells size min i -> mcell m' i =
         (let v := match mcell m i with Some v => v | None => default end in
          match op with
          | MInsert p => if idx_eqb (cell_of res (to_m p)) i then Some (add v p) else mcell m i
          | MModify a f => if idx_eqb a i then Some (f v) else mcell m i
          end)) ->
  exists h', mexec default merge to_m add h s = Ok h' /\ state_ok (s :: rl) h'.
Proof.
  intros Hh Hcr Eex Est Esh Hj Hoff HF.
  destruct (so_shows _ _ Hh j Hj) as [res [size [min [ops [m [A [B [C [D [E G]]]]]]]]]].
  destruct (HF res size min m B E (Hoff _ _ _ _ A)) as [m' [EF [Hm' Hc']]].
  rewrite Eex, D. cbn [obind]. rewrite EF. cbn [obind].
  destruct (view_obj _ _ _ D) as [oj [sj [Ej [Es ->]]]].
  assert (Eput : exists h', put h j m' = Ok h').
  { unfold put. rewrite Ej. destruct (upd (h_stores h) (ob_store oj) (mo_store m')) eqn:X; [eauto|].
    destruct (upd_some (h_stores h) (ob_store oj) (mo_store m')) as [l Hl]; [apply nth_error_lt in Es; exact Es|congruence]. }
  destruct Eput as [h' Eput]. exists h'. split; [exact Eput|].
  destruct (view_put h h' j m' Eput) as [oj' [Ej' [Eo [El Hv]]]]. assert (oj' = oj) by congruence. subst oj'.
  split.
  - rewrite objects_cons, Hcr, Eo. apply (so_count _ _ Hh).
  - rewrite Eo, El. apply (so_stores _ _ Hh).
  - intros a b oa ob Ha Hb'. rewrite Eo in Ha, Hb'. rewrite Esh. apply (so_shared _ _ Hh); assumption.
  - intros a b oa ob Ha Hb' Hid. rewrite Eo in Ha, Hb'. destruct (so_same _ _ Hh a b oa ob Ha Hb' Hid) as [X Y].
    split; [exact X|]. rewrite !Est, Y.
    assert (Z : shared rl j a = shared rl j b).
    { pose proof (so_shared _ _ Hh j a oj oa Ej Ha) as Z1. pose proof (so_shared _ _ Hh j b oj ob Ej Hb') as Z2.
      rewrite Hid in Z1. destruct (shared rl j a), (shared rl j b); try reflexivity.
      - symmetry. apply Z2, Z1. reflexivity.
      - apply Z1, Z2. reflexivity. }
    rewrite Z. reflexivity.
  - intros k Hk. rewrite objects_cons, Hcr in Hk.
    destruct (nth_error (h_objs h) k) as [ok|] eqn:Ek.
    2: { apply nth_error_None in Ek. rewrite (so_count _ _ Hh) in Ek. lia. }
    destruct (Hv k ok Ek) as [V1 V2]. pose proof (so_shared _ _ Hh j k oj ok Ej Ek) as Hsh.
    unfold shows. rewrite Est. destruct (shared rl j k) eqn:Ess.
    + assert (Eid : ob_store oj = ob_store ok) by (apply Hsh; reflexivity).
      destruct (so_same _ _ Hh j k oj ok Ej Ek Eid) as [X Y]. rewrite <- Y, A. subst ok.
      exists res, size, min, (ops ++ [op]), (mono_of oj (mo_store m')). split; [reflexivity|]. split; [exact B|].
      split; [apply Forall_app; split; [exact C|exact (Hoff _ _ _ _ A)]|]. split; [apply V1; reflexivity|]. split.
      * destruct E, Hm'. split; cbn [mono_of mo_res mo_size mo_min mo_max mo_store] in *; assumption.
      * intros i Hi. change (mcell (mono_of oj (mo_store m')) i) with (mcell m' i). rewrite (Hc' i Hi), (G i Hi), history_snoc. reflexivity.
    + destruct (so_shows _ _ Hh k Hk) as [r [sz [mi [os [mk [A' [B' [C' [D' [E' G']]]]]]]]]]. rewrite A'.
      exists r, sz, mi, os, mk. split; [reflexivity|]. split; [exact B'|]. split; [exact C'|]. split; [|split; [exact E'|exact G']].
      rewrite V2; [exact D'|]. intros e. apply Hsh in e. discriminate.
Qed.

Lemma story_exists (rl : list stmt) : forall k, (exists a ops, story rl k = Some (a, ops)) -> prog_ok to_m rl -> (k < objects rl)%nat.
Proof.
  induction rl as [|s rl IH]; intros k [a [ops H]] Hok; [discriminate H|]. destruct Hok as [Hok Hs].
  rewrite objects_cons. destruct s as [res size min|i|i|j op|j i]; cbn [story creates] in *.
  - destruct (Nat.eqb_spec k (objects rl)); [lia|]. pose proof (IH k (ex_intro _ a (ex_intro _ ops H)) Hok). lia.
  - destruct (Nat.eqb_spec k (objects rl)); [lia|]. pose proof (IH k (ex_intro _ a (ex_intro _ ops H)) Hok). lia.
  - destruct (Nat.eqb_spec k (objects rl)); [lia|]. pose proof (IH k (ex_intro _ a (ex_intro _ ops H)) Hok). lia.
  - destruct (story rl k) as [[a' ops']|] eqn:E; [|discriminate H]. exact (IH k (ex_intro _ a' (ex_intro _ ops' E)) Hok).
  - destruct (story rl k) as [[a' ops']|] eqn:E; [|discriminate H]. exact (IH k (ex_intro _ a' (ex_intro _ ops' E)) Hok).
Qed.

Lemma step_cells (res : Q) (size : list Z) (min : idx) (m : mono V) (op : mono_op (V:=V) (W:=W)) :
  mono_args res size min -> mono_ok res size min m -> off_border to_m res size min [op] ->
  exists m', mono_step default merge to_m add m op = Ok m' /\ mono_ok res size min m' /\
    forall i, in_cells size min i -> mcell m' i =
      (let v := match mcell m i with Some v => v | None => default end in
       match op with
       | MInsert p => if idx_eqb (cell_of res (to_m p)) i then Some (add v p) else mcell m i
       | MModify a f => if idx_eqb a i then Some (f v) else mcell m i
       end).
Proof.
  intros Ha Hm Hoff. destruct (run_ok default merge res size min Ha to_m add (fun _ _ => 0%Q) [op] m Hm Hoff) as [m' [E [O C]]].
  unfold mono_run in E. cbn [ofold] in E. destruct (mono_step default merge to_m add m op) as [m1| |]; cbn [obind] in E; try discriminate.
  injection E as ->. exists m'. split; [reflexivity|]. split; [exact O|]. exact C.
Qed.

Lemma lookup_cells (res : Q) (size : list Z) (min : idx) (m : mono V) (a : idx) :
  mono_args res size min -> mono_ok res size min m -> in_cells size min a ->
  exists m', mono_getAllocate default merge m a = Ok m' /\ mono_ok res size min m' /\
    forall i, mcell m' i = if idx_eqb a i then Some (match mcell m i with Some v => v | None => default end) else mcell m i.
Proof.
  intros Ha Hm Hi. destruct (alloc_ok default merge res size min Ha m a Hm Hi) as [m' [E [O C]]].
  exists m'. split; [exact E|]. split; [exact O|]. intros i. rewrite C. unfold cell_or.
  destruct (idx_eqb_spec a i) as [<-|]; reflexivity.
Qed.

Lemma prog_state (rl : list stmt) : prog_ok to_m rl -> exists h, prog (rev rl) = Ok h /\ state_ok rl h.
Proof.
  induction rl as [|s rl IH]; intros Hok.
  - eexists. split; [reflexivity|]. split; cbn [h_objs h_stores].
    + reflexivity.
    + intros o [].
    + intros [|j] k oj ok Hj; discriminate Hj.
    + intros [|j] k oj ok Hj; discriminate Hj.
    + intros k Hk. cbn in Hk. lia.
  - destruct Hok as [Hok Hs]. destruct (IH Hok) as [h [Eh Hh]]. cbn [rev]. rewrite mprog_snoc, Eh. cbn [obind].
    destruct s as [res size min|i|i|j op|j a]; cbn [stmt_ok] in Hs.
    + cbn [mexec]. destruct (new_ok (V:=V) res size min Hs) as [m [E [O C]]]. rewrite E. cbn [obind].
      eexists. split; [reflexivity|]. apply (fresh_ok rl h _ m res size min []); try assumption; try exact I.
      * cbn [story]. rewrite Nat.eqb_refl. reflexivity.
      * constructor.
      * intros i Hi. rewrite C. reflexivity.
    + cbn [mexec]. destruct (so_shows _ _ Hh i Hs) as [res [size [min [ops [m [A [B [C [D [E G]]]]]]]]]].
      rewrite D. cbn [obind]. eexists. split; [reflexivity|]. apply (fresh_ok rl h _ m res size min ops); try assumption; try exact I.
      cbn [story]. rewrite Nat.eqb_refl. exact A.
    + apply (move_ok rl h i Hh Hs).
    + destruct Hs as [a [ops [Ea Hoff]]].
      apply (change_ok rl h (SOp j op) j op (fun m => mono_step default merge to_m add m op)); try reflexivity.
      * exact Hh.
      * apply (story_exists rl j); [eauto|exact Hok].
      * intros res size min ops' E. rewrite E in Ea. injection Ea as <- <-. exact Hoff.
      * intros res size min m. apply step_cells.
    + destruct Hs as [b [ops [Ea Hoff]]].
      apply (change_ok rl h (SLookup j a) j (MModify a (fun v => v)) (fun m => mono_getAllocate default merge m a)); try reflexivity.
      * exact Hh.
      * apply (story_exists rl j); [eauto|exact Hok].
      * intros res size min ops' E. rewrite E in Ea. injection Ea as <- <-. constructor; [exact Hoff|constructor].
      * intros res size min m Ha Hm Hb. inversion Hb as [|? ? Hin _]; subst.
        destruct (lookup_cells res size min m a Ha Hm Hin) as [m' [E [O C]]]. exists m'. split; [exact E|]. split; [exact O|].
        intros i _. rewrite C. reflexivity.
Qed.

(** Reading: every object shows its history. *)
Lemma objects_show (dsample : V -> W -> Q) (l : list stmt) : prog_ok to_m (rev l) ->
  exists h, prog l = Ok h /\ length (h_objs h) = objects (rev l) /\
    forall k, (k < objects (rev l))%nat ->
    exists res size min ops m, story (rev l) k = Some ((res, size, min), ops) /\ view h k = Ok m /\
      forall p, has_cell res (to_m p) -> in_cells size min (cell_of res (to_m p)) ->
        mono_get merge to_m m p = Ok (history res ops (cell_of res (to_m p))).
Proof.
  intros Hok. destruct (prog_state (rev l) Hok) as [h [Eh Hh]]. rewrite rev_involutive in Eh.
  exists h. split; [exact Eh|]. split; [apply (so_count _ _ Hh)|]. intros k Hk.
  destruct (so_shows _ _ Hh k Hk) as [res [size [min [ops [m [A [B [C [D [E G]]]]]]]]]].
  exists res, size, min, ops, m. split; [exact A|]. split; [exact D|]. intros p Hp Hi.
  destruct (access_spec default merge res size min B to_m add dsample m p E Hp) as [X _].
  destruct (X Hi) as [_ [Y _]]. rewrite Y, (G _ Hi). reflexivity.
Qed.

(** Statements on one object leave all objects that do not share its storage as they are. *)
Lemma others_unchanged (l : list stmt) (s : stmt) (j k : nat) (h h' : mheap V) :
  prog_ok to_m (s :: rev l) -> (match s with SOp i _ | SLookup i _ => i = j | _ => True end) ->
  (k < objects (rev l))%nat ->
  (creates s = false -> shared (rev l) j k = false) ->
  prog l = Ok h -> prog (l ++ [s]) = Ok h' -> view h' k = view h k.
Proof.
  intros [Hok Hs] Hsj Hk Hsh El E'. destruct (prog_state (rev l) Hok) as [h0 [Eh Hh]]. rewrite rev_involutive in Eh.
  assert (h0 = h) by congruence. subst h0. rewrite mprog_snoc, El in E'. cbn [obind] in E'.
  assert (Hlen : (k < length (h_objs h))%nat) by (rewrite (so_count _ _ Hh); exact Hk).
  assert (Hput : forall m, shared (rev l) j k = false -> put h j m = Ok h' -> view h' k = view h k).
  { intros m Hns Hp. destruct (view_put h h' j m Hp) as [oj [Ej [_ [_ Hv]]]].
    destruct (nth_error (h_objs h) k) as [ok|] eqn:Ek; [|apply nth_error_None in Ek; lia].
    destruct (Hv k ok Ek) as [_ V2]. apply V2. intros e. apply (so_shared _ _ Hh j k oj ok Ej Ek) in e. congruence. }
  destruct s as [res size min|i|i|i op|i a]; cbn [mexec creates] in *.
  - obreak E'. injection E' as <-. apply view_old; [exact Hlen|apply (so_stores _ _ Hh)].
  - obreak E'. injection E' as <-. apply view_old; [exact Hlen|apply (so_stores _ _ Hh)].
  - destruct (nth_error (h_objs h) i) as [o|]; [|discriminate]. injection E' as <-.
    rewrite <- (app_nil_r (h_stores h)) at 1. apply view_old; [exact Hlen|apply (so_stores _ _ Hh)].
  - subst i. obreak E'. obreak E'. eapply Hput; [|exact E']. apply Hsh. reflexivity.
  - subst i. obreak E'. obreak E'. eapply Hput; [|exact E']. apply Hsh. reflexivity.
Qed.
End Programs.

Lemma two_equal (a b c d : Q) : Forall2 Qeq [a; b] [c; d] <-> (a == c)%Q /\ (b == d)%Q.
Proof.
  split.
  - intros X. inversion X as [|? ? ? ? X0 X']. inversion X' as [|? ? ? ? X1]. split; assumption.
  - intros [X0 X1]. constructor; [exact X0|]. constructor; [exact X1|constructor].
Qed.

Lemma extent_all {V : Type} (default : V) (merge : V -> V -> V) (add : V -> list Q -> V) (t : rigid)
  (res : Q) (size : list Z) (min : idx) (ops : list (mono_op (V:=V) (W:=list Q))) :
  let to_m := rapply (rinverse t) in
  mono_args res size min -> rigid_ok t -> off_border to_m res size min ops ->
  nth 0 min 0 + nth 0 size 0 < INT_MAX -> nth 1 min 0 + nth 1 size 0 < INT_MAX ->
  exists m0 m hi, mono_new res size min = Ok m0 /\ mono_run default merge to_m add ops m0 = Ok m /\ mono_getMax m = Ok hi /\
    let lo := mono_getMin m in
    (forall p, has_cell res (to_m p) ->
       (in_cells size min (cell_of res (to_m p)) <->
        in_box lo [nth 0 lo 0 + mono_getWidth m; nth 1 lo 0 + mono_getHeight m]%Q (to_m p)) /\
       ((exists i, mono_toIndex to_m m p = Ok (Some i)) <-> in_box lo hi (to_m p))) /\
    (forall pose, mono_validate t m pose =
       (let* o := mono_toIndex to_m m [rx pose; ry pose] in Ok (match o with Some _ => true | None => false end))) /\
    (forall i, in_cells size min i -> mono_toIndex to_m m (mono_fromIndex t m i) = Ok (Some i)) /\
    (forall d, (d < 2)%nat -> (nth d hi 0 - nth d lo 0 == (if Nat.eqb d 0 then mono_getWidth m else mono_getHeight m) + res)%Q) /\
    (let o := mono_getOrigin t m in
     Forall2 Qeq [rx o; ry o] (rapply t lo) <->
     (rc t * nth 0 lo 0 - rs t * nth 1 lo 0 == nth 0 lo 0)%Q /\ (rs t * nth 0 lo 0 + rc t * nth 1 lo 0 == nth 1 lo 0)%Q).
Proof.
  intros to_m Ha Ht Hoff B0 B1.
  destruct (mono_history default merge to_m add (fun _ _ => 0%Q) res size min Ha ops Hoff) as [m0 [m [E0 [E [O _]]]]].
  exists m0, m. eexists. split; [exact E0|]. split; [exact E|]. split; [exact (max_value res size min Ha m O B0 B1)|].
  intros lo. split; [|split; [|split; [|split]]].
  - intros p Hp. split; [apply (cells_box res size min Ha m O); apply Hp|].
    destruct (toIndex_spec res size min to_m m p O Hp) as [_ Et].
    pose proof (within_box res size min Ha m O (to_m p) _ (proj1 Hp) (max_value res size min Ha m O B0 B1) B0 B1) as Hw.
    fold lo in Hw. rewrite <- Hw, Et. destruct (within size min (cell_of res (to_m p))); split; intros X; try reflexivity; try discriminate X; eauto.
    destruct X as [i X]. discriminate X.
  - intros pose. apply validate_toIndex.
  - intros i Hi. apply (from_to res size min Ha m O t i Ht (proj1 Hi)).
    destruct Hi as [_ Hi]. pose proof (Hi 0%nat ltac:(lia)). pose proof (Hi 1%nat ltac:(lia)). unfold within.
    rewrite !Bool.andb_true_iff, !Z.leb_le. lia.
  - intros d Hd. unfold lo, mono_getMin, mono_getWidth, mono_getHeight.
    rewrite (mk_res _ _ _ _ O), (mk_min _ _ _ _ O), (mk_size _ _ _ _ O).
    destruct d as [|[|d]]; [| |lia]; cbn [nth Nat.eqb]; rewrite !inject_Z_plus; ring.
  - intros o. unfold o, mono_getOrigin, rapply. cbn [rx ry]. fold lo. rewrite two_equal.
    generalize (nth 0 lo 0%Q) (nth 1 lo 0%Q). intros a b. split; intros [X0 X1]; split.
    + setoid_replace a with (rx t + a - rx t)%Q at 2 by ring. rewrite X0. ring.
    + setoid_replace b with (ry t + b - ry t)%Q at 2 by ring. rewrite X1. ring.
    + rewrite X0. ring.
    + rewrite X1. ring.
Qed.

Lemma lookup_sample {V W : Type} (default : V) (merge : V -> V -> V) (to_m : W -> list Q) (add : V -> W -> V)
  (dsample : V -> W -> Q) (res : Q) (size : list Z) (min : idx) (m m' : mono V) (i : idx) (p : W) :
  mono_args res size min -> mono_ok res size min m -> mono_ok res size min m' ->
  (forall j, mcell m' j = if idx_eqb i j then Some (match mcell m j with Some v => v | None => default end) else mcell m j) ->
  (forall p, dsample default p = 0%Q) -> has_cell res (to_m p) ->
  mono_sample merge to_m dsample m' p = mono_sample merge to_m dsample m p.
Proof.
  intros Ha O O' C Hd Hp.
  destruct (access_spec default merge res size min Ha to_m add dsample m p O Hp) as [A [B D]].
  destruct (access_spec default merge res size min Ha to_m add dsample m' p O' Hp) as [A' [B' D']].
  destruct (toIndex_spec res size min to_m m p O Hp) as [L _].
  destruct (within_cases size min (cell_of res (to_m p)) L) as [[_ [X _]]|[[_ [_ X]]|[_ [X Y]]]].
  - destruct (A X) as [_ [_ [E _]]]. destruct (A' X) as [_ [_ [E' _]]]. rewrite E, E', C.
    destruct (idx_eqb i _); [|reflexivity]. destruct (mcell m _); [reflexivity|]. rewrite Hd. reflexivity.
  - destruct (B X) as [_ [_ [E _]]]. destruct (B' X) as [_ [_ [E' _]]]. rewrite E, E'. reflexivity.
  - destruct (D X Y) as [_ [_ [E _]]]. destruct (D' X Y) as [_ [_ [E' _]]]. rewrite E, E'. reflexivity.
Qed.

Lemma mono_traversal {V W : Type} (default : V) (merge : V -> V -> V) (to_m : W -> list Q) (add : V -> W -> V)
  (res : Q) (size : list Z) (min : idx) (Ha : mono_args res size min) (ops : list (mono_op (V:=V) (W:=W))) :
  off_border to_m res size min ops ->
  exists m0 m es, mono_new res size min = Ok m0 /\ mono_run default merge to_m add ops m0 = Ok m /\
    mono_cells merge m = Ok es /\ mono_getIndices merge m = Ok (map fst es) /\ NoDup (map fst es) /\
    forall i v, In (i, v) es <-> in_cells size min i /\ cell_history default to_m add res ops i = Some v.
Proof.
  intros Hoff.
  destruct (mono_history default merge to_m add (fun _ _ => 0%Q) res size min Ha ops Hoff) as [m0 [m [E0 [E [O C]]]]].
  exists m0, m, (a_cells (mo_store m)). split; [exact E0|]. split; [exact E|]. split; [reflexivity|]. split; [reflexivity|].
  destruct (mk_wf _ _ _ _ O) as [Hn HF]. split; [exact Hn|]. rewrite (mk_asize _ _ _ _ O), (mk_aoff _ _ _ _ O) in HF.
  rewrite Forall_forall in HF. intros i v. split.
  - intros Hin. pose proof (HF _ Hin) as Hi. cbn [fst] in Hi. apply (inside_iff _ _ _ Ha) in Hi. split; [exact Hi|].
    rewrite <- (C i Hi). unfold mcell. apply assoc_in; assumption.
  - intros [Hi Hc]. rewrite <- (C i Hi) in Hc. unfold mcell in Hc. apply assoc_in; assumption.
Qed.

(** Several maps in one memory: copy construction, raw pointers in bundles, storages shared by
    copies. The operations are those of MapModel.v, with a pointer to a distribution naming the
    storage it points into. Definitions only. *)
From Verif Require Import Base SeqModel IndexModel OctreeModel MapModel BackendModel.
Open Scope Z_scope.

(** common/bundle.hpp:8-99: slots are raw pointers [distribution_t*]: storage and index. *)
Record pbundle : Type := { pslots : list (option (nat * idx)); pexpand : bool }.

Section Copy.
Context {P : Type}.
Variable default : P.
Variable bd : backend P.
Variable bb : backend pbundle.
Variable dim : nat.
Variable kd : kind.
Variable amin amax : idx -> idx -> idx.
Variable expandDistribution : P -> bool.
Variable offsets : list idx.

(** Implicit copy construction of a storage: [Some s] is a new storage with contents [s], [None]
    that the copy uses the same memory as the original. *)
Variable copy_d : st bd -> option (st bd).
Variable copy_b : st bb -> option (st bb).

(** All storages; a destroyed one is [None]. *)
Record world : Type := { dstores : list (option (st bd)); bstores : list (option (st bb)) }.

(** abstract_map.hpp:277-280: a map refers to its storages. *)
Record mapobj : Type := { m_stores : list nat; m_bundles : nat; m_min : idx; m_max : idx }.

Definition rd_d (w : world) (a : nat) : outcome (st bd) :=
  match nth_error (dstores w) a with Some (Some s) => Ok s | _ => UB end.
Definition wr_d (w : world) (a : nat) (s : st bd) : outcome world :=
  match upd (dstores w) a (Some s) with Some l => Ok {| dstores := l; bstores := bstores w |} | None => UB end.
Definition rd_b (w : world) (a : nat) : outcome (st bb) :=
  match nth_error (bstores w) a with Some (Some s) => Ok s | _ => UB end.
Definition wr_b (w : world) (a : nat) (s : st bb) : outcome world :=
  match upd (bstores w) a (Some s) with Some l => Ok {| dstores := dstores w; bstores := l |} | None => UB end.

Definition pnew_bundle : pbundle := {| pslots := repeat None (bin_count dim); pexpand := true |}.
Definition pset_slot (i : nat) (p : nat * idx) (b : pbundle) : pbundle :=
  {| pslots := match upd (pslots b) i (Some p) with Some l => l | None => pslots b end; pexpand := pexpand b |}.
Definition pset_expanded (b : pbundle) : pbundle := {| pslots := pslots b; pexpand := false |}.

(** generic_map.hpp:166-175 and 293-296. *)
Definition pvalid (o : mapobj) (i : idx) : bool :=
  match kd with
  | Dynamic => true
  | Static => forallb (fun c => (nth c (m_min o) 0 <=? nth c i 0) && (nth c i 0 <? nth c (m_max o) 0)) (seq 0 dim)
  end.
(** generic_map.hpp:162-164 and 287-291. *)
Definition pupdateIndices (o : mapobj) (bi : idx) : mapobj :=
  match kd with
  | Static => o
  | Dynamic => {| m_stores := m_stores o; m_bundles := m_bundles o; m_min := amin (m_min o) bi; m_max := amax (m_max o) bi |}
  end.

(** abstract_map.hpp:282-306 [getAllocate]. *)
Definition palloc_slot (o : mapobj) (bi : idx) (w : world) (ij : nat * idx) : outcome world :=
  let (i, j) := ij in
  let* bs := rd_b w (m_bundles o) in
  let* ob := bget bb bs bi in
  match ob with
  | None => UB
  | Some b =>
      match nth_error (pslots b) i with
      | None => UB
      | Some (Some _) => Ok w
      | Some None =>
          match nth_error (m_stores o) i with
          | None => UB
          | Some a =>
              let* s := rd_d w a in
              let* s' := (let* d := bget bd s j in match d with Some _ => Ok s | None => bins bd s j default end) in
              let* w1 := wr_d w a s' in
              let* bs1 := bmod bb bs bi (pset_slot i (a, j)) in
              wr_b w1 (m_bundles o) bs1
          end
      end
  end.
Definition pgetAllocate (wo : world * mapobj) (bi : idx) : outcome (world * mapobj) :=
  let (w, o) := wo in
  let* bs := rd_b w (m_bundles o) in
  let* ob := bget bb bs bi in
  match ob with
  | Some _ => Ok (w, o)
  | None =>
      let* bs1 := bins bb bs bi pnew_bundle in
      let* w1 := wr_b w (m_bundles o) bs1 in
      let* w2 := ofold (palloc_slot o bi) (apply_indices (bin_count dim) bi) w1 in
      Ok (w2, pupdateIndices o bi)
  end.

(** impl/gridmap.hpp:186-192 and counterparts: write through every pointer of the bundle. *)
Definition pmodify_slot (o : mapobj) (bi : idx) (f : P -> P) (w : world) (i : nat) : outcome world :=
  let* bs := rd_b w (m_bundles o) in
  let* ob := bget bb bs bi in
  match ob with
  | None => UB
  | Some b =>
      match nth_error (pslots b) i with
      | Some (Some (a, j)) =>
          let* s := rd_d w a in
          let* s' := bmod bd s j f in
          wr_d w a s'
      | _ => UB
      end
  end.
Definition pmodify_bundle (wo : world * mapobj) (bi : idx) (f : P -> P) : outcome (world * mapobj) :=
  let* (w, o) := pgetAllocate wo bi in
  let* w' := ofold (pmodify_slot o bi f) (seq 0 (bin_count dim)) w in
  Ok (w', o).

(** The distribution behind a pointer. *)
Definition pread (w : world) (p : nat * idx) : outcome P :=
  let* s := rd_d w (fst p) in
  let* d := bget bd s (snd p) in
  match d with None => UB | Some v => Ok v end.

(** abstract_map.hpp:313-321 [expandBundle]. *)
Fixpoint pexpandBundle (w : world) (sl : list (option (nat * idx))) : outcome bool :=
  match sl with
  | [] => Ok false
  | None :: sl' => pexpandBundle w sl'
  | Some p :: sl' =>
      let* v := pread w p in
      if expandDistribution v then Ok true else pexpandBundle w sl'
  end.
(** abstract_map.hpp:234-260. *)
Definition palloc_neighbour (bi : idx) (wo : world * mapobj) (o : idx) : outcome (world * mapobj) :=
  let ii := idx_add bi o in
  if pvalid (snd wo) ii then pgetAllocate wo ii else Ok wo.
Definition pexpand_one (wo : world * mapobj) (bi : idx) : outcome (world * mapobj) :=
  let* bs := rd_b (fst wo) (m_bundles (snd wo)) in
  let* ob := bget bb bs bi in
  match ob with
  | None => UB
  | Some b =>
      if pexpand b then
        let* e := pexpandBundle (fst wo) (pslots b) in
        if e then
          let* (w1, o1) := ofold (palloc_neighbour bi) offsets wo in
          let* bs1 := rd_b w1 (m_bundles o1) in
          let* bs2 := bmod bb bs1 bi pset_expanded in
          let* w2 := wr_b w1 (m_bundles o1) bs2 in
          Ok (w2, o1)
        else Ok wo
      else Ok wo
  end.
Definition pexpand_all (wo : world * mapobj) : outcome (world * mapobj) :=
  let* bs := rd_b (fst wo) (m_bundles (snd wo)) in
  let* bis := btrav bb bs in
  ofold pexpand_one (map fst bis) wo.

(** A client's operation on one of the maps. *)
Definition pact (wo : world * mapobj) (a : map_action (P:=P)) : outcome (world * mapobj) :=
  match a with
  | Modify bi f => pmodify_bundle wo bi f
  | Touch bi => if pvalid (snd wo) bi then pgetAllocate wo bi else Ok wo
  | ExpandAll => pexpand_all wo
  end.

(** Copy of one storage: a new one, or the same memory again. *)
Definition copy_dstore (acc : world * list nat) (a : nat) : outcome (world * list nat) :=
  let (w, ids) := acc in
  let* s := rd_d w a in
  match copy_d s with
  | None => Ok (w, ids ++ [a])
  | Some s' => Ok ({| dstores := dstores w ++ [Some s']; bstores := bstores w |}, ids ++ [length (dstores w)])
  end.
(** abstract_map.hpp:95-106 with utility/create.hpp:9-25: every storage is copy-constructed; the
    pointers inside the bundles are copied as they are. Also run by the move constructor of
    GenericMap (generic_map.hpp:98-103, 236: [base_t(other)] of an lvalue). *)
Definition copy_map (w : world) (o : mapobj) : outcome (world * mapobj) :=
  let* (w1, ids) := ofold copy_dstore (m_stores o) (w, []) in
  let* bs := rd_b w1 (m_bundles o) in
  match copy_b bs with
  | None => Ok (w1, {| m_stores := ids; m_bundles := m_bundles o; m_min := m_min o; m_max := m_max o |})
  | Some bs' =>
      Ok ({| dstores := dstores w1; bstores := bstores w1 ++ [Some bs'] |},
          {| m_stores := ids; m_bundles := length (bstores w1); m_min := m_min o; m_max := m_max o |})
  end.

(** Destruction of a map whose storages no other map uses (static maps: the arrays die with it). *)
Fixpoint kill {A : Type} (l : list (option A)) (ids : list nat) : list (option A) :=
  match ids with
  | [] => l
  | a :: ids' => kill (match upd l a None with Some l' => l' | None => l end) ids'
  end.
Definition destroy (w : world) (o : mapobj) : world :=
  {| dstores := kill (dstores w) (m_stores o); bstores := kill (bstores w) [m_bundles o] |}.

(** What a client sees of a map: a stored distribution (abstract_map.hpp:201-204), and the
    distributions a bundle shows, which is what sampling reads. *)
Definition pstored (w : world) (o : mapobj) (i : nat) (j : idx) : outcome (option P) :=
  match nth_error (m_stores o) i with
  | None => UB
  | Some a => let* s := rd_d w a in bget bd s j
  end.
Fixpoint pread_all (w : world) (sl : list (option (nat * idx))) : outcome (list P) :=
  match sl with
  | [] => Ok []
  | None :: _ => UB
  | Some p :: sl' => let* v := pread w p in let* vs := pread_all w sl' in Ok (v :: vs)
  end.
Definition pshown (w : world) (o : mapobj) (bi : idx) : outcome (option (list P)) :=
  let* bs := rd_b w (m_bundles o) in
  let* ob := bget bb bs bi in
  match ob with
  | None => Ok None
  | Some b => let* vs := pread_all w (pslots b) in Ok (Some vs)
  end.

End Copy.
Arguments world {P} bd bb.
Arguments dstores {P bd bb} w.
Arguments bstores {P bd bb} w.

(** Instances. The bundle storage merges nothing (common/bundle.hpp:67-69). *)
Definition pmerge_bundle (a b : pbundle) : pbundle := a.
Definition pbundle_backend (dim : nat) (kd : kind) : backend pbundle :=
  match kd with Dynamic => octree_backend pmerge_bundle dim | Static => array_backend pmerge_bundle end.

(** backend/octree.hpp has no copy constructor: the raw [root_] (383) is copied, so a copy of a
    tree with nodes uses the same nodes, and a copy of an empty tree is another empty tree (its
    own counter [tree_size_] is not modelled further). *)
Definition octree_copy {V : Type} (t : octree V) : option (octree V) :=
  match root t with None => Some t | Some _ => None end.
(** The array backend (cslibs_indexed_storage, not in /repo) is assumed to copy its contents. *)
Definition array_copy {V : Type} (s : arr V) : option (arr V) := Some s.
Definition backend_copy {V : Type} (mergeV : V -> V -> V) (dim : nat) (kd : kind) :
  st (match kd with Dynamic => octree_backend mergeV dim | Static => array_backend mergeV end) ->
  option (st (match kd with Dynamic => octree_backend mergeV dim | Static => array_backend mergeV end)) :=
  match kd with Dynamic => octree_copy | Static => array_copy end.

From Verif Require Import SysModel.
(** The operations above for one configuration. *)
Section Sys.
Context {P : Type}.
Variable c : config P.
Definition pbbc : backend pbundle := pbundle_backend (dimc c) (kindc c).
Definition cworld : Type := world (bdc c) pbbc.
(** generic_map.hpp:51-74, 217-223: empty storages. *)
Definition empty_dstore (i : nat) : st (bdc c) :=
  match kindc c as k return st (dist_backend (mergec c) (dimc c) k) with
  | Dynamic => octree_new (garbagec c i)
  | Static => static_store (sizec c) (minc c) i
  end.
Definition empty_bstore : st pbbc :=
  match kindc c as k return st (pbundle_backend (dimc c) k) with
  | Dynamic => octree_new (garbagec c (bin_count (dimc c)))
  | Static => {| a_size := map (fun n => n * 2) (sizec c); a_offset := minc c; a_cells := [] |}
  end.
(** A program that has constructed one map. *)
Definition cw_new : cworld * mapobj :=
  (Build_world (bdc c) pbbc (map (fun i => Some (empty_dstore i)) (seq 0 (bin_count (dimc c)))) [Some empty_bstore],
   {| m_stores := seq 0 (bin_count (dimc c)); m_bundles := 0;
      m_min := match kindc c with Static => minc c | Dynamic => repeat INT_MAX (dimc c) end;
      m_max := match kindc c with Static => static_max (sizec c) (minc c) | Dynamic => repeat INT_MIN (dimc c) end |}).
Definition cw_act (wo : cworld * mapobj) (a : map_action (P:=P)) : outcome (cworld * mapobj) :=
  pact (defaultc c) (bdc c) pbbc (dimc c) (kindc c) (aminc c) (amaxc c) (expandc c) (offsetsc c) wo a.
Definition cw_act_all (l : list (map_action (P:=P))) (wo : cworld * mapobj) : outcome (cworld * mapobj) :=
  ofold cw_act l wo.
Definition cw_copy (w : cworld) (o : mapobj) : outcome (cworld * mapobj) :=
  copy_map (bdc c) pbbc (backend_copy (mergec c) (dimc c) (kindc c)) (backend_copy pmerge_bundle (dimc c) (kindc c)) w o.
Definition cw_stored (w : cworld) (o : mapobj) (i : nat) (j : idx) : outcome (option P) := pstored (bdc c) pbbc w o i j.
Definition cw_shown (w : cworld) (o : mapobj) (bi : idx) : outcome (option (list P)) := pshown (bdc c) pbbc w o bi.
Definition cw_destroy (w : cworld) (o : mapobj) : cworld := destroy (bdc c) pbbc w o.

(** Two maps, operations on either ([true]: the first). *)
Definition two_step (s : cworld * mapobj * mapobj) (a : bool * map_action (P:=P)) : outcome (cworld * mapobj * mapobj) :=
  match s with
  | (w, o1, o2) =>
      if fst a then let* (w', o1') := cw_act (w, o1) (snd a) in Ok (w', o1', o2)
      else let* (w', o2') := cw_act (w, o2) (snd a) in Ok (w', o1, o2')
  end.
Definition two_run (l : list (bool * map_action (P:=P))) (s : cworld * mapobj * mapobj) := ofold two_step l s.
End Sys.

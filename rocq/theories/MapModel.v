(** Model of the overlapping-grid map: cslibs_ndt/map/abstract_map.hpp, generic_map.hpp and the
    update functions of map/impl/*.hpp. Definitions only.

    A storage ([cis::Storage] with the octree or array backend) is any implementation of the
    [backend] interface; a pointer to a stored distribution is the index it is stored under
    (neither backend moves elements); slot [i] of a bundle only ever points into storage [i]. *)
From Verif Require Import Base SeqModel IndexModel.
Open Scope Z_scope.

(** Operations of a storage: [get], [insert], write through a returned pointer, [traverse]. *)
Record backend (V : Type) : Type := {
  st : Type;
  bget : st -> idx -> outcome (option V);
  bins : st -> idx -> V -> outcome st;
  bmod : st -> idx -> (V -> V) -> outcome st;
  btrav : st -> outcome (list (idx * V))
}.
Arguments st {V} b.
Arguments bget {V} b s i.
Arguments bins {V} b s i v.
Arguments bmod {V} b s i f.
Arguments btrav {V} b s.

(** common/bundle.hpp:8-99 [Bundle<distribution_t*, bin_count>]: pointers and the expand flag. *)
Record bundle : Type := { slots : list (option idx); expand : bool }.

(** map/tags: static (fixed size, array) or dynamic (growing, octree) map. *)
Inductive kind := Static | Dynamic.

Section Map.
(** [distribution_t] and its default-constructed value. *)
Context {P : Type}.
Variable default : P.
(** Storage of distributions and storage of bundles. *)
Variable bd : backend P.
Variable bb : backend bundle.
Variable dim : nat.
Variable kd : kind.
(** [std::min]/[std::max] on two [std::array<int,Dim>] as resolved at generic_map.hpp:289-290. *)
Variable amin amax : idx -> idx -> idx.

(** abstract_map.hpp:277-280, the mutable members. *)
Record ndmap : Type := {
  stores : list (st bd);
  bundles : st bb;
  min_bi : idx;
  max_bi : idx
}.

(** common/bundle.hpp:14-18. *)
Definition new_bundle : bundle := {| slots := repeat None (bin_count dim); expand := true |}.

(** common/bundle.hpp:37-40 assignment through [bundle->at(i)]. An out-of-range write is
    excluded by the caller's preceding read. *)
Definition set_slot (i : nat) (j : idx) (b : bundle) : bundle :=
  {| slots := match upd (slots b) i (Some j) with Some l => l | None => slots b end;
     expand := expand b |}.

(** common/bundle.hpp:62-65. *)
Definition set_expanded (b : bundle) : bundle := {| slots := slots b; expand := false |}.

Definition get_store (m : ndmap) (i : nat) : outcome (st bd) :=
  match nth_error (stores m) i with Some s => Ok s | None => UB end.
Definition set_store (m : ndmap) (i : nat) (s : st bd) : outcome ndmap :=
  match upd (stores m) i s with
  | Some l => Ok {| stores := l; bundles := bundles m; min_bi := min_bi m; max_bi := max_bi m |}
  | None => UB
  end.
Definition set_bundles (m : ndmap) (s : st bb) : ndmap :=
  {| stores := stores m; bundles := s; min_bi := min_bi m; max_bi := max_bi m |}.

(** generic_map.hpp:166-175 (static) and 293-296 (dynamic) [valid]. *)
Definition valid (m : ndmap) (i : idx) : bool :=
  match kd with
  | Dynamic => true
  | Static => forallb (fun c => (nth c (min_bi m) 0 <=? nth c i 0) && (nth c i 0 <? nth c (max_bi m) 0))
                      (seq 0 dim)
  end.

(** generic_map.hpp:162-164 (static) and 287-291 (dynamic) [updateIndices]. *)
Definition updateIndices (m : ndmap) (bi : idx) : ndmap :=
  match kd with
  | Static => m
  | Dynamic => {| stores := stores m; bundles := bundles m;
                  min_bi := amin (min_bi m) bi; max_bi := amax (max_bi m) bi |}
  end.

(** abstract_map.hpp:282-288 [getAllocate<content_t>(s, i)] for a distribution storage. *)
Definition alloc_dist (s : st bd) (i : idx) : outcome (st bd) :=
  let* d := bget bd s i in
  match d with Some _ => Ok s | None => bins bd s i default end.

(** abstract_map.hpp:298-302, one call of the lambda. *)
Definition alloc_slot (bi : idx) (m : ndmap) (ij : nat * idx) : outcome ndmap :=
  let (i, j) := ij in
  let* ob := bget bb (bundles m) bi in
  match ob with
  | None => UB
  | Some b =>
      match nth_error (slots b) i with
      | None => UB
      | Some (Some _) => Ok m
      | Some None =>
          let* s := get_store m i in
          let* s' := alloc_dist s j in
          let* m' := set_store m i s' in
          let* bs := bmod bb (bundles m') bi (set_slot i j) in
          Ok (set_bundles m' bs)
      end
  end.

(** abstract_map.hpp:290-306 [getAllocate(bi)]; the returned pointer is the one stored at [bi]. *)
Definition getAllocate (m : ndmap) (bi : idx) : outcome ndmap :=
  let* ob := bget bb (bundles m) bi in
  match ob with
  | Some _ => Ok m
  | None =>
      let* bs := bins bb (bundles m) bi new_bundle in
      let* m' := ofold (alloc_slot bi) (apply_indices (bin_count dim) bi) (set_bundles m bs) in
      Ok (updateIndices m' bi)
  end.

(** generic_map.hpp:110-118 and 243-251 [getDistributionBundle(bi)]; [false] = null returned. *)
Definition getDistributionBundle (m : ndmap) (bi : idx) : outcome (ndmap * bool) :=
  if valid m bi then let* m' := getAllocate m bi in Ok (m', true) else Ok (m, false).

(** generic_map.hpp:138-141 and 265-268 [get(bi)]. *)
Definition get_bundle (m : ndmap) (bi : idx) : outcome (option bundle) :=
  if valid m bi then bget bb (bundles m) bi else Ok None.

(** [f] applied to [*bundle->at(i)]; null pointer: UB. *)
Definition modify_slot (bi : idx) (f : P -> P) (m : ndmap) (i : nat) : outcome ndmap :=
  let* ob := bget bb (bundles m) bi in
  match ob with
  | None => UB
  | Some b =>
      match nth_error (slots b) i with
      | Some (Some j) =>
          let* s := get_store m i in
          let* s' := bmod bd s j f in
          set_store m i s'
      | _ => UB
      end
  end.

(** impl/gridmap.hpp:186-192 [update]; impl/occupancy_gridmap.hpp:345-359 and
    impl/weighted_occupancy_gridmap.hpp:342-356 [updateFree], [updateOccupied]: allocate the
    bundle, then change each of its distributions the same way. *)
Definition modify_bundle (m : ndmap) (bi : idx) (f : P -> P) : outcome ndmap :=
  let* m' := getAllocate m bi in
  ofold (modify_slot bi f) (seq 0 (bin_count dim)) m'.

(** Allocate the bundle, then assign to each of its distributions ([g i] to the [i]-th):
    conversion/map.hpp:63-66 and 105-108, serialization/loader.hpp:67-75 and 133-140. *)
Definition modify_each (m : ndmap) (bi : idx) (g : nat -> P -> P) : outcome ndmap :=
  let* m' := getAllocate m bi in
  ofold (fun m i => modify_slot bi (g i) m i) (seq 0 (bin_count dim)) m'.

(** [expandDistribution] (impl/gridmap.hpp:181-184 and counterparts) on the target of slot [i]. *)
Variable expandDistribution : P -> bool.

Definition slot_value (m : ndmap) (i : nat) (sl : option idx) : outcome (option P) :=
  match sl with
  | None => Ok None
  | Some j =>
      let* s := get_store m i in
      let* d := bget bd s j in
      match d with None => UB | Some v => Ok (Some v) end
  end.

(** abstract_map.hpp:313-321 [expandBundle]. *)
Fixpoint expandBundle_from (m : ndmap) (i : nat) (sl : list (option idx)) : outcome bool :=
  match sl with
  | [] => Ok false
  | s :: sl' =>
      let* d := slot_value m i s in
      match d with
      | Some v => if expandDistribution v then Ok true else expandBundle_from m (S i) sl'
      | None => expandBundle_from m (S i) sl'
      end
  end.
Definition expandBundle (m : ndmap) (b : bundle) : outcome bool := expandBundle_from m 0 (slots b).

(** Offsets visited by [GridNeighborhoodStatic<Dim,3>::visit] (cslibs_indexed_storage). *)
Variable offsets : list idx.

(** abstract_map.hpp:240-243. *)
Fixpoint idx_add (a b : idx) : idx :=
  match a, b with x :: a', y :: b' => x + y :: idx_add a' b' | _, _ => [] end.

Definition alloc_neighbour (bi : idx) (m : ndmap) (o : idx) : outcome ndmap :=
  let ii := idx_add bi o in
  if valid m ii then getAllocate m ii else Ok m.

(** abstract_map.hpp:234-249 [allocatePartiallyAllocatedBundle(bi, bundle)]; the bundle pointer is
    read again at each use. *)
Definition allocatePartiallyAllocatedBundle (m : ndmap) (bi : idx) : outcome ndmap :=
  let* ob := bget bb (bundles m) bi in
  match ob with
  | None => UB
  | Some b =>
      if expand b then
        let* e := expandBundle m b in
        if e then
          let* m' := ofold (alloc_neighbour bi) offsets m in
          let* bs := bmod bb (bundles m') bi set_expanded in
          Ok (set_bundles m' bs)
        else Ok m
      else Ok m
  end.

(** abstract_map.hpp:251-260 [allocatePartiallyAllocatedBundles]: over a snapshot of the bundles. *)
Definition allocatePartiallyAllocatedBundles (m : ndmap) : outcome ndmap :=
  let* bis := btrav bb (bundles m) in
  ofold allocatePartiallyAllocatedBundle (map fst bis) m.

(** The distribution stored for family [i] at cell [j]: [getStorages().at(i)->get(j)]
    (abstract_map.hpp:201-204). *)
Definition stored (m : ndmap) (i : nat) (j : idx) : outcome (option P) :=
  let* s := get_store m i in bget bd s j.

(** Operations of a client on one map: change the distributions of a bundle, allocate a bundle,
    complete partially allocated bundles. *)
Inductive map_action : Type :=
| Modify (bi : idx) (f : P -> P)
| Touch (bi : idx)
| ExpandAll.
Definition act (m : ndmap) (a : map_action) : outcome ndmap :=
  match a with
  | Modify bi f => modify_bundle m bi f
  | Touch bi => let* r := getDistributionBundle m bi in Ok (fst r)
  | ExpandAll => allocatePartiallyAllocatedBundles m
  end.
Definition act_all (l : list map_action) (m : ndmap) : outcome ndmap := ofold act l m.

End Map.
Arguments Modify {P} bi f.
Arguments Touch {P} bi.
Arguments ExpandAll {P}.
Arguments ndmap {P} bd bb.
Arguments stores {P bd bb} n.
Arguments bundles {P bd bb} n.
Arguments min_bi {P bd bb} n.
Arguments max_bi {P bd bb} n.

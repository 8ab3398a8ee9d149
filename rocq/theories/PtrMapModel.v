(** The dynamic map with its octrees in memory and raw pointers in its bundles: abstract_map.hpp,
    generic_map.hpp and the update functions of map/impl/*.hpp over the octrees of TreeHeapModel.v.
    Definitions only.
    Simplified: distributions and bundles lie in two memories, each with its own addresses (objects
    of different types never overlap). *)
From Verif Require Import Base SeqModel IndexModel OctreeModel MapModel TreeHeapModel SysModel.
Open Scope Z_scope.

(** common/bundle.hpp:8-99 [Bundle<distribution_t*, bin_count>]: addresses and the expand flag. *)
Record hbundle : Type := { hslots : list (option addr); hexpand : bool }.
(** common/bundle.hpp:67-69 [merge] does nothing. *)
Definition hmerge (a b : hbundle) : hbundle := a.

(** octree.hpp:289-323 [traverse] with a function that takes the address of its argument, as in
    abstract_map.hpp:220-226: the index and the address of each element visited. *)
Fixpoint at_refs {V : Type} (dims : nat) (rem : nat) (h : memory V) (n : addr) : outcome (list (idx * addr)) :=
  match rem with
  | S r =>
      (fix go (l : list nat) : outcome (list (idx * addr)) :=
         match l with
         | [] => Ok []
         | i :: l' =>
             let* e := childExists h n i in
             if e then
               let* c := getChild h n i in
               let* a := at_refs dims r h c in
               let* b := go l' in
               Ok (a ++ b)
             else go l'
         end) (seq 0 (2 ^ dims)%nat)
  | O =>
      let* p := data_ptr_ h n in
      match p with
      | None => Ok []
      | Some d => let* e := data_of h d in Ok [(fst e, d)]
      end
  end.
Definition tree_refs {V : Type} (dims : nat) (h : memory V) (t : tree) : outcome (list (idx * addr)) :=
  match root_ t with None => Ok [] | Some n => at_refs dims tree_depth h n end.

Section PtrMap.
Context {P : Type}.
Variable default : P.
Variable mergeP : P -> P -> P.
Variable dim : nat.
Variable amin amax : idx -> idx -> idx.
Variable expandDistribution : P -> bool.
Variable offsets : list idx.

(** abstract_map.hpp:277-280: [storage_] and [bundle_storage_] with the objects they own, the
    smallest and largest bundle index. *)
Record hmap : Type := {
  dmem : memory P; dtrees : list tree;
  bmem : memory hbundle; btree : tree;
  hmin : idx; hmax : idx }.
Definition with_dists (s : hmap) (h : memory P) (xs : list tree) : hmap :=
  {| dmem := h; dtrees := xs; bmem := bmem s; btree := btree s; hmin := hmin s; hmax := hmax s |}.
Definition with_bundles (s : hmap) (h : memory hbundle) (x : tree) : hmap :=
  {| dmem := dmem s; dtrees := dtrees s; bmem := h; btree := x; hmin := hmin s; hmax := hmax s |}.

(** common/bundle.hpp:14-18. *)
Definition hnew_bundle : hbundle := {| hslots := repeat None (bin_count dim); hexpand := true |}.
(** common/bundle.hpp:37-40: [bundle->at(i)], read and assigned. *)
Definition slot_at (h : memory hbundle) (b : addr) (i : nat) : outcome (option addr) :=
  let* e := data_of h b in
  match nth_error (hslots (snd e)) i with Some p => Ok p | None => UB end.
Definition hset_slot (i : nat) (d : addr) (b : hbundle) : hbundle :=
  {| hslots := match upd (hslots b) i (Some d) with Some l => l | None => hslots b end; hexpand := hexpand b |}.
(** common/bundle.hpp:62-65. *)
Definition hset_expanded (b : hbundle) : hbundle := {| hslots := hslots b; hexpand := false |}.

(** abstract_map.hpp:282-288 [getAllocate<distribution_t>(storage_[i], index)]. *)
Definition get_or_insert (s : hmap) (i : nat) (j : idx) : outcome (hmap * addr) :=
  match nth_error (dtrees s) i with
  | None => UB
  | Some x =>
      let* d := tree_get (dmem s) x j in
      match d with
      | Some d => Ok (s, d)
      | None =>
          let* res := tree_insert mergeP dim (dmem s) x j default in
          match upd (dtrees s) i (snd res) with
          | Some xs => Ok (with_dists s (fst (fst res)) xs, snd (fst res))
          | None => UB
          end
      end
  end.

(** abstract_map.hpp:298-302: [b = bundle->at(i)] is filled if it is null. *)
Definition fill_slot (b : addr) (s : hmap) (ij : nat * idx) : outcome hmap :=
  let* p := slot_at (bmem s) b (fst ij) in
  match p with
  | Some _ => Ok s
  | None =>
      let* res := get_or_insert s (fst ij) (snd ij) in
      let* h := write (bmem (fst res)) b (hset_slot (fst ij) (snd res)) in
      Ok (with_bundles (fst res) h (btree (fst res)))
  end.

(** generic_map.hpp:287-291 [updateIndices]. *)
Definition update_range (s : hmap) (bi : idx) : hmap :=
  {| dmem := dmem s; dtrees := dtrees s; bmem := bmem s; btree := btree s;
     hmin := amin (hmin s) bi; hmax := amax (hmax s) bi |}.

(** abstract_map.hpp:290-306 [getAllocate(bi)]: the map and the returned pointer. *)
Definition get_allocate (s : hmap) (bi : idx) : outcome (hmap * addr) :=
  let* p := tree_get (bmem s) (btree s) bi in
  match p with
  | Some b => Ok (s, b)
  | None =>
      let* res := tree_insert hmerge dim (bmem s) (btree s) bi hnew_bundle in
      let b := snd (fst res) in
      let* s' := ofold (fill_slot b) (apply_indices (bin_count dim) bi)
                       (with_bundles s (fst (fst res)) (snd res)) in
      Ok (update_range s' bi, b)
  end.

(** [f] applied to [*bundle->at(i)]. *)
Definition change_slot (b : addr) (f : P -> P) (s : hmap) (i : nat) : outcome hmap :=
  let* p := slot_at (bmem s) b i in
  match p with
  | None => UB
  | Some d => let* h := write (dmem s) d f in Ok (with_dists s h (dtrees s))
  end.
(** impl/gridmap.hpp:186-192 [update] and its counterparts [updateFree], [updateOccupied] in
    impl/occupancy_gridmap.hpp:345-359 and impl/weighted_occupancy_gridmap.hpp:342-356. *)
Definition change_bundle (s : hmap) (bi : idx) (f : P -> P) : outcome hmap :=
  let* (s', b) := get_allocate s bi in
  ofold (change_slot b f) (seq 0 (bin_count dim)) s'.

(** abstract_map.hpp:313-321 [expandBundle] with [expandDistribution] of impl/gridmap.hpp:181-184
    and counterparts, which is false for the null pointer. *)
Fixpoint any_expands (s : hmap) (ps : list (option addr)) : outcome bool :=
  match ps with
  | [] => Ok false
  | None :: ps' => any_expands s ps'
  | Some d :: ps' =>
      let* e := data_of (dmem s) d in
      if expandDistribution (snd e) then Ok true else any_expands s ps'
  end.

(** abstract_map.hpp:234-249 [allocatePartiallyAllocatedBundle(bi, bundle)]. [valid] of dynamic
    maps is true (generic_map.hpp:293-296). *)
Definition expand_one (s : hmap) (ib : idx * addr) : outcome hmap :=
  let (bi, b) := ib in
  let* e := data_of (bmem s) b in
  if hexpand (snd e) then
    let* x := any_expands s (hslots (snd e)) in
    if x then
      let* s' := ofold (fun s o => let* r := get_allocate s (idx_add bi o) in Ok (fst r)) offsets s in
      let* h := write (bmem s') b hset_expanded in
      Ok (with_bundles s' h (btree s'))
    else Ok s
  else Ok s.
(** abstract_map.hpp:251-260 with 220-226 [getBundles]: pointers to all bundles are collected
    first, then used while further bundles are allocated. *)
Definition expand_all (s : hmap) : outcome hmap :=
  let* bis := tree_refs dim (bmem s) (btree s) in
  ofold expand_one bis s.

(** The client's operations. *)
Definition hact (s : hmap) (a : map_action (P:=P)) : outcome hmap :=
  match a with
  | Modify bi f => change_bundle s bi f
  | Touch bi => let* r := get_allocate s bi in Ok (fst r)
  | ExpandAll => expand_all s
  end.
Definition hact_all (l : list (map_action (P:=P))) (s : hmap) : outcome hmap := ofold hact l s.

(** generic_map.hpp:265-268 [get(bi)]: pointer to a bundle or null. *)
Definition bundle_pointer (s : hmap) (bi : idx) : outcome (option addr) := tree_get (bmem s) (btree s) bi.
(** The distribution behind [bundle->at(i)], as read by [sample]; [None] for a null pointer. *)
Definition behind (s : hmap) (b : addr) (i : nat) : outcome (option P) :=
  let* p := slot_at (bmem s) b i in
  match p with None => Ok None | Some d => let* e := data_of (dmem s) d in Ok (Some (snd e)) end.
(** abstract_map.hpp:201-204: [getStorages().at(i)->get(j)], dereferenced. *)
Definition in_storage (s : hmap) (i : nat) (j : idx) : outcome (option P) :=
  match nth_error (dtrees s) i with
  | None => UB
  | Some x =>
      let* p := tree_get (dmem s) x j in
      match p with None => Ok None | Some d => let* e := data_of (dmem s) d in Ok (Some (snd e)) end
  end.
(** abstract_map.hpp:212-218 [getBundleIndices]. *)
Definition bundle_indices (s : hmap) : outcome (list idx) :=
  let* l := tree_refs dim (bmem s) (btree s) in Ok (map fst l).

(** generic_map.hpp:217-223: an empty map; the counters of the octrees hold garbage. *)
Definition hnew (garbage : nat -> Z) : hmap :=
  {| dmem := []; dtrees := map (fun i => {| root_ := None; tree_size_ := garbage i |}) (seq 0 (bin_count dim));
     bmem := []; btree := {| root_ := None; tree_size_ := garbage (bin_count dim) |};
     hmin := repeat INT_MAX dim; hmax := repeat INT_MIN dim |}.
End PtrMap.
Arguments hmap P : clear implicits.

(** A program that constructs a dynamic map and works on it. *)
Definition hrun {P : Type} (c : config P) (l : list (map_action (P:=P))) : outcome (hmap P) :=
  hact_all (defaultc c) (mergec c) (dimc c) (aminc c) (amaxc c) (expandc c) (offsetsc c) l
    (hnew (dimc c) (garbagec c)).

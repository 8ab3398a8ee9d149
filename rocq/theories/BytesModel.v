(** Memory reports: [byte_size()] of the octree and [getByteSize()] of the dynamic maps.
    Definitions only. Sizes of types are parameters; [std::size_t] sums are unbounded here. *)
From Verif Require Import Base IndexModel OctreeSpec OctreeModel MapModel BackendModel SysModel.
Open Scope Z_scope.

(** The [sizeof] values the code reads: the map, the octree object, [Node], [Node*], [index_t]. *)
Record sizes : Type := { sz_map : Z; sz_tree : Z; sz_node : Z; sz_ptr : Z; sz_index : Z }.

Section Bytes.
Context {V : Type}.
Variable sz : sizes.
Variable dims : nat.
(** [data_if::byte_size(data)], see the functions at the end of this file. *)
Variable vbytes : V -> Z.

(** octree.hpp:49-59 [hasChildren]; a last-level node's data pointer is not a children array. *)
Definition hasChildren (nd : node V) : outcome bool :=
  match nd with
  | NNull => Ok false
  | NChildren cs => Ok (existsb (fun x => match x with Some _ => true | None => false end) cs)
  | NData _ _ => UB
  end.

(** octree.hpp:347-368 [byte_size(node, depth, bytes)] with [bytes] = 0 and 156-162
    [Node::byte_size]; [rem] = tree_depth_ - depth. *)
Fixpoint node_bytes (rem : nat) (nd : node V) : outcome Z :=
  match rem with
  | S r =>
      let* has := hasChildren nd in
      if has
      then match nd with
           | NChildren cs =>
               (fix go (l : list (option (node V))) (bytes : Z) : outcome Z :=
                  match l with
                  | [] => Ok bytes
                  | None :: l' => go l' bytes
                  | Some c :: l' => let* b := node_bytes r c in go l' (bytes + b)
                  end) cs (sz_node sz + 2 ^ Z.of_nat dims * sz_ptr sz)
           | _ => UB
           end
      else Ok (sz_node sz)
  | O =>
      match nd with
      | NNull => Ok (sz_node sz)
      | NData _ v => Ok (sz_node sz + (sz_index sz + vbytes v))
      | NChildren _ => UB
      end
  end.

(** octree.hpp:222-225 [byte_size()]. *)
Definition octree_bytes (t : octree V) : outcome Z :=
  match root t with
  | Some nd => let* b := node_bytes tree_depth nd in Ok (sz_tree sz + b)
  | None => Ok (sz_tree sz)
  end.
End Bytes.

(** [byte_size()] of a storage. The array storage of the static maps belongs to
    cslibs_indexed_storage; what it reports is the parameter [abytes]. *)
Definition storage_bytes {V : Type} (merge : V -> V -> V) (sz : sizes) (dims : nat) (vbytes : V -> Z)
  (abytes : arr V -> Z) (k : kind) :
  st (match k with Dynamic => octree_backend merge dims | Static => array_backend merge end) -> outcome Z :=
  match k with
  | Dynamic => octree_bytes sz dims vbytes
  | Static => fun s => Ok (abytes s)
  end.

(** abstract_map.hpp:262-268 [getByteSize()]. [vbytes] reports a distribution, [bbytes] a bundle,
    [adist] and [abund] the two kinds of array storage. *)
Definition getByteSize {P : Type} (c : config P) (sz : sizes) (vbytes : P -> Z) (bbytes : bundle -> Z)
  (adist : arr P -> Z) (abund : arr bundle -> Z) (m : cmap c) : outcome Z :=
  let* size := storage_bytes merge_bundle sz (dimc c) bbytes abund (kindc c) (bundles m) in
  let* size := ofold (fun size s =>
      let* b := storage_bytes (mergec c) sz (dimc c) vbytes adist (kindc c) s in Ok (size + b))
    (stores m) size in
  Ok (sz_map sz + size).

(** common/bundle.hpp:71-74 [Bundle::byte_size] and distribution.hpp:23-26
    [Distribution::byte_size]: [sizeof( *this)] whatever the value. *)
Definition fixed_bytes {A : Type} (s : Z) (_ : A) : Z := s.

(** occupancy_distribution.hpp:135-138 and weighted_occupancy_distribution.hpp:138-141
    [byte_size]; [owns] tells whether [distribution_] is set. *)
Definition occupancy_bytes (s_self s_distribution : Z) {A : Type} (owns : A -> bool) (a : A) : Z :=
  if owns a then s_self + s_distribution else s_self.

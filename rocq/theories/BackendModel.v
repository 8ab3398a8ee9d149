(** The two storages used by the maps, as instances of the [backend] interface, and the
    construction of empty maps. Definitions only. *)
From Verif Require Import Base SeqModel IndexModel OctreeSpec OctreeModel MapModel.
Open Scope Z_scope.

(** Octree storage (dynamic maps), see OctreeModel.v. *)
Definition octree_backend {V : Type} (merge : V -> V -> V) (dims : nat) : backend V := {|
  st := octree V;
  bget := octree_get;
  bins := octree_insert merge dims;
  bmod := octree_modify;
  btrav := octree_traverse
|}.

(** Array storage (static maps). The array backend belongs to cslibs_indexed_storage, not to
    /repo; it is modelled as a finite map over the box given by [array_size] and [array_offset]
    (generic_map.hpp:64-73), every access outside of the box being UB. The order of traversal is
    that of first insertion here; no theorem depends on it. *)
Record arr (V : Type) : Type := { a_size : list Z; a_offset : idx; a_cells : list (idx * V) }.
Arguments a_size {V} a.
Arguments a_offset {V} a.
Arguments a_cells {V} a.

Definition arr_inside (size : list Z) (off : idx) (i : idx) : bool :=
  (length i =? length size)%nat && (length i =? length off)%nat &&
  forallb (fun d => (nth d off 0 <=? nth d i 0) && (nth d i 0 <? nth d off 0 + nth d size 0))
          (seq 0 (length i)).

Fixpoint assoc {V : Type} (l : list (idx * V)) (i : idx) : option V :=
  match l with
  | [] => None
  | (j, v) :: l' => if idx_eqb j i then Some v else assoc l' i
  end.
Fixpoint assoc_set {V : Type} (l : list (idx * V)) (i : idx) (v : V) : list (idx * V) :=
  match l with
  | [] => [(i, v)]
  | (j, w) :: l' => if idx_eqb j i then (j, v) :: l' else (j, w) :: assoc_set l' i v
  end.

Definition arr_set {V : Type} (s : arr V) (i : idx) (v : V) : arr V :=
  {| a_size := a_size s; a_offset := a_offset s; a_cells := assoc_set (a_cells s) i v |}.

Definition array_backend {V : Type} (merge : V -> V -> V) : backend V := {|
  st := arr V;
  bget := fun s i => if arr_inside (a_size s) (a_offset s) i then Ok (assoc (a_cells s) i) else UB;
  bins := fun s i v =>
    if arr_inside (a_size s) (a_offset s) i
    then Ok (arr_set s i (match assoc (a_cells s) i with None => v | Some w => merge w v end))
    else UB;
  bmod := fun s i f =>
    if arr_inside (a_size s) (a_offset s) i
    then match assoc (a_cells s) i with None => UB | Some w => Ok (arr_set s i (f w)) end
    else UB;
  btrav := fun s => Ok (a_cells s)
|}.

(** Bundle merge is a no-op (common/bundle.hpp:67-69). *)
Definition merge_bundle (a b : bundle) : bundle := a.

(** Storage instances of the two kinds of map. *)
Definition dist_backend {P : Type} (mergeP : P -> P -> P) (dim : nat) (kd : kind) : backend P :=
  match kd with Dynamic => octree_backend mergeP dim | Static => array_backend mergeP end.
Definition bundle_backend (dim : nat) (kd : kind) : backend bundle :=
  match kd with Dynamic => octree_backend merge_bundle dim | Static => array_backend merge_bundle end.

(** generic_map.hpp:217-223: an empty dynamic map; the octree counters hold garbage. *)
Definition dynamic_new {P : Type} (mergeP : P -> P -> P) (dim : nat) (garbage : nat -> Z) :
  ndmap (dist_backend mergeP dim Dynamic) (bundle_backend dim Dynamic) :=
  Build_ndmap (dist_backend mergeP dim Dynamic) (bundle_backend dim Dynamic)
    (map (fun i => octree_new (garbage i)) (seq 0 (bin_count dim)))
    (octree_new (garbage (bin_count dim)))
    (repeat INT_MAX dim) (repeat INT_MIN dim).

(** generic_map.hpp:51-74: an empty static map. [size] is in cells, [min] in bundles. *)
Definition static_offset (min : idx) : idx := map (fun z => Z.shiftr z 1) min.
Definition static_store {P : Type} (size : list Z) (min : idx) (i : nat) : arr P :=
  {| a_size := if (i =? 0)%nat then size else map (fun n => n + 1) size;
     a_offset := static_offset min; a_cells := [] |}.
Fixpoint zip_with (f : Z -> Z -> Z) (a b : list Z) : list Z :=
  match a, b with x :: a', y :: b' => f x y :: zip_with f a' b' | _, _ => [] end.
Definition static_max (size : list Z) (min : idx) : idx :=
  zip_with (fun m n => m + n * 2 - 1) min size.
Definition static_new {P : Type} (mergeP : P -> P -> P) (dim : nat) (size : list Z) (min : idx) :
  ndmap (dist_backend mergeP dim Static) (bundle_backend dim Static) :=
  Build_ndmap (dist_backend mergeP dim Static) (bundle_backend dim Static)
    (map (static_store size min) (seq 0 (bin_count dim)))
    {| a_size := map (fun n => n * 2) size; a_offset := min; a_cells := [] |}
    min (static_max size min).

(** [std::min]/[std::max] on index arrays: componentwise (the overloads of cslibs_math for
    [std::array]) ... *)
Definition cw_min (a b : idx) : idx := zip_with Z.min a b.
Definition cw_max (a b : idx) : idx := zip_with Z.max a b.
(** ... or the lexicographic standard templates. *)
Fixpoint lex_ltb (a b : idx) : bool :=
  match a, b with
  | _, [] => false
  | [], _ :: _ => true
  | x :: a', y :: b' => (x <? y) || ((x =? y) && lex_ltb a' b')
  end.
Definition lex_min (a b : idx) : idx := if lex_ltb b a then b else a.
Definition lex_max (a b : idx) : idx := if lex_ltb a b then b else a.

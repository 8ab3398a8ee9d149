(** A complete map object: configuration, construction, client operations. Definitions only. *)
From Verif Require Import Base SeqModel IndexModel OctreeSpec OctreeModel MapModel BackendModel.
Open Scope Z_scope.

(** Everything a map is built from. [P] is the distribution type. *)
Record config (P : Type) : Type := {
  dimc : nat;
  kindc : kind;
  (** Static maps: size in cells and minimum bundle index, generic_map.hpp:51-74. *)
  sizec : list Z;
  minc : idx;
  (** Dynamic maps: initial values of the uninitialised octree counters, backend/octree.hpp. *)
  garbagec : nat -> Z;
  (** [std::min]/[std::max] on index arrays, generic_map.hpp:287-291. *)
  aminc : idx -> idx -> idx;
  amaxc : idx -> idx -> idx;
  (** Offsets of [GridNeighborhoodStatic<Dim,3>], abstract_map.hpp:234-243. *)
  offsetsc : list idx;
  (** Default-constructed distribution, its [merge] and [expandDistribution]. *)
  defaultc : P;
  mergec : P -> P -> P;
  expandc : P -> bool
}.
Arguments dimc {P} c.
Arguments kindc {P} c.
Arguments sizec {P} c.
Arguments minc {P} c.
Arguments garbagec {P} c.
Arguments aminc {P} c.
Arguments amaxc {P} c.
Arguments offsetsc {P} c.
Arguments defaultc {P} c.
Arguments mergec {P} c.
Arguments expandc {P} c.

Section Sys.
Context {P : Type}.
Variable c : config P.

Definition bdc : backend P := dist_backend (mergec c) (dimc c) (kindc c).
Definition bbc : backend bundle := bundle_backend (dimc c) (kindc c).
Definition cmap : Type := ndmap bdc bbc.

(** generic_map.hpp:51-74 and 217-223. *)
Definition new_map : cmap :=
  match kindc c as k return ndmap (dist_backend (mergec c) (dimc c) k) (bundle_backend (dimc c) k) with
  | Dynamic => dynamic_new (mergec c) (dimc c) (garbagec c)
  | Static => static_new (mergec c) (dimc c) (sizec c) (minc c)
  end.

Definition cvalid (m : cmap) (bi : idx) : bool := valid bdc bbc (dimc c) (kindc c) m bi.
Definition cact (m : cmap) (a : map_action) : outcome cmap :=
  act (defaultc c) bdc bbc (dimc c) (kindc c) (aminc c) (amaxc c) (expandc c) (offsetsc c) m a.
Definition cact_all (l : list map_action) (m : cmap) : outcome cmap :=
  act_all (defaultc c) bdc bbc (dimc c) (kindc c) (aminc c) (amaxc c) (expandc c) (offsetsc c) l m.
Definition cmodify (m : cmap) (bi : idx) (f : P -> P) : outcome cmap := cact m (Modify bi f).

(** What a client can see: the distribution of family [i] at cell [j] and the bundle at [bi]. *)
Definition cstored (m : cmap) (i : nat) (j : idx) : outcome (option P) := stored bdc bbc m i j.
Definition cbundle (m : cmap) (bi : idx) : outcome (option bundle) := get_bundle bdc bbc (dimc c) (kindc c) m bi.
Definition cbundles (m : cmap) : outcome (list (idx * bundle)) := btrav bbc (bundles m).
(** [getStorages()[i]->traverse], abstract_map.hpp:201-204. *)
Definition cdists (m : cmap) (i : nat) : outcome (list (idx * P)) :=
  let* s := get_store bdc bbc m i in btrav bdc s.

End Sys.

(** generic_map.hpp:238-241 [empty] of a dynamic map. *)
Definition map_empty {P : Type} (c : config P) (m : cmap c) : bool := nth 0 (min_bi m) 0 =? INT_MAX.

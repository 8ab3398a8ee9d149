(** Moving maps: the move constructors of map/generic_map.hpp and map/impl/*.hpp followed by the
    destruction of the source, as when a local map is returned from a function. The memory is that of
    CopyModel.v. Definitions only. *)
From Verif Require Import Base MapModel SysModel CopyModel.

Section Move.
Context {P : Type}.
Variable c : config P.

(** abstract_map.hpp:121 [~AbstractMap() = default]: the shared pointers to the storages are released.
    Array storages end with their map; backend/octree.hpp:19-394 has no destructor, so that the nodes
    of octrees stay as they are (C76). *)
Definition cw_release (w : cworld c) (o : mapobj) : cworld c :=
  match kindc c with Dynamic => w | Static => cw_destroy c w o end.

(** generic_map.hpp:98-103 and 236, impl/gridmap.hpp:43, impl/occupancy_gridmap.hpp:48,
    impl/weighted_occupancy_gridmap.hpp:44: all initialise their base with [base_t(other)], where
    [other] is an lvalue, so that the copy constructor runs; AbstractMap(AbstractMap&&)
    (abstract_map.hpp:108-119) is never used. Then the source is destroyed. *)
Definition cw_move (w : cworld c) (o : mapobj) : outcome (cworld c * mapobj) :=
  let* (w1, o1) := cw_copy c w o in Ok (cw_release w1 o, o1).

(** A program that works on one map and now and then moves it. *)
Inductive move_step : Type := Do (a : map_action (P:=P)) | Move.
Definition move_one (wo : cworld c * mapobj) (s : move_step) : outcome (cworld c * mapobj) :=
  match s with Do a => cw_act c wo a | Move => cw_move (fst wo) (snd wo) end.
Definition move_run (l : list move_step) (wo : cworld c * mapobj) : outcome (cworld c * mapobj) := ofold move_one l wo.
End Move.
Arguments Do {P} a.
Arguments Move {P}.

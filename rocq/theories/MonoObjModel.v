(** The single-distribution grid map, cslibs_ndt_2d/static_maps/mono_gridmap.hpp: its accessors, and
    programs with several map objects that are copied, moved and looked up. Numbers are exact
    rationals; the rotation of a pose is given by its cosine and sine. Definitions only. *)
From Coq Require Import QArith Qround.
From Verif Require Import Base SeqModel IndexModel OctreeSpec MapModel BackendModel SysModel ExtentModel MonoModel.
Open Scope Z_scope.

(** [transform_t], [pose_t] (mono_gridmap.hpp:37-38): a rotation by [(rc, rs)] = (cosine, sine)
    followed by the translation [(rx, ry)]. The class belongs to cslibs_math_2d. *)
Record rigid : Type := { rc : Q; rs : Q; rx : Q; ry : Q }.
(** [transform * point] (mono_gridmap.hpp:272, 304, 314). *)
Definition rapply (t : rigid) (p : list Q) : list Q :=
  [rc t * nth 0 p 0 - rs t * nth 1 p 0 + rx t; rs t * nth 0 p 0 + rc t * nth 1 p 0 + ry t]%Q.
(** [m_T_w_ = w_T_m_.inverse()] (mono_gridmap.hpp:55, 77). *)
Definition rinverse (t : rigid) : rigid :=
  {| rc := rc t; rs := (- rs t)%Q; rx := (- (rc t * rx t + rs t * ry t))%Q; ry := (- (- rs t * rx t + rc t * ry t))%Q |}.

Section Accessors.
Context {V : Type}.

(** mono_gridmap.hpp:122-126 [getMin]. *)
Definition mono_getMin (m : mono V) : list Q := [inject_Z (nth 0 (mo_min m) 0%Z) * mo_res m; inject_Z (nth 1 (mo_min m) 0%Z) * mo_res m]%Q.
(** mono_gridmap.hpp:132-136 [getMax]; [int] addition. *)
Definition mono_getMax (m : mono V) : outcome (list Q) :=
  let* a := to_int (nth 0 (mo_max m) 0 + 1) in
  let* b := to_int (nth 1 (mo_max m) 0 + 1) in
  Ok [inject_Z a * mo_res m; inject_Z b * mo_res m]%Q.
(** mono_gridmap.hpp:142-147 [getOrigin]: the translation is moved by [getMin], unrotated. *)
Definition mono_getOrigin (t : rigid) (m : mono V) : rigid :=
  {| rc := rc t; rs := rs t; rx := (rx t + nth 0 (mono_getMin m) 0)%Q; ry := (ry t + nth 1 (mono_getMin m) 0)%Q |}.
(** mono_gridmap.hpp:235-238 [getWidth] and 230-233 [getHeight]. *)
Definition mono_getWidth (m : mono V) : Q := (inject_Z (nth 0%nat (mo_size m) 0%Z) * mo_res m)%Q.
Definition mono_getHeight (m : mono V) : Q := (inject_Z (nth 1%nat (mo_size m) 0%Z) * mo_res m)%Q.
(** mono_gridmap.hpp:270-277 [validate], written out a second time in the code. *)
Definition mono_validate (t : rigid) (m : mono V) (pose : rigid) : outcome bool :=
  let* i := toBundleIndex (/ mo_res m) (rapply (rinverse t) [rx pose; ry pose]) in
  Ok ((nth 0 (mo_min m) 0 <=? nth 0 i 0) && (nth 0 i 0 <=? nth 0 (mo_max m) 0) &&
      ((nth 1 (mo_min m) 0 <=? nth 1 i 0) && (nth 1 i 0 <=? nth 1 (mo_max m) 0))).
(** mono_gridmap.hpp:311-316 [fromIndex]. *)
Definition mono_fromIndex (t : rigid) (m : mono V) (i : idx) : list Q :=
  rapply t [inject_Z (nth 0 i 0%Z) * mo_res m; inject_Z (nth 1 i 0%Z) * mo_res m]%Q.
(** mono_gridmap.hpp:256-262 [getIndices]. *)
Definition mono_getIndices (merge : V -> V -> V) (m : mono V) : outcome (list idx) :=
  let* es := mono_cells merge m in Ok (map fst es).
End Accessors.

(** Objects of class [Gridmap] (mono_gridmap.hpp:280-289): the scalar members, and the number of the
    storage that the member [storage_], a [std::shared_ptr], points to. *)
Record mobj : Type := { ob_res : Q; ob_size : list Z; ob_min : idx; ob_max : idx; ob_store : nat }.
Record mheap (V : Type) : Type := { h_stores : list (arr V); h_objs : list mobj }.
Arguments h_stores {V} m.
Arguments h_objs {V} m.

Section Objects.
Context {V W : Type}.
Variable default : V.
Variable merge : V -> V -> V.
Variable to_m : W -> list Q.
Variable add : V -> W -> V.

Definition mono_of (o : mobj) (s : arr V) : mono V :=
  {| mo_res := ob_res o; mo_size := ob_size o; mo_min := ob_min o; mo_max := ob_max o; mo_store := s |}.
Definition obj_of (m : mono V) (k : nat) : mobj :=
  {| ob_res := mo_res m; ob_size := mo_size m; ob_min := mo_min m; ob_max := mo_max m; ob_store := k |}.

(** What object [k] is at present: its members with the storage they point to. *)
Definition view (h : mheap V) (k : nat) : outcome (mono V) :=
  match nth_error (h_objs h) k with
  | None => UB
  | Some o => match nth_error (h_stores h) (ob_store o) with None => UB | Some s => Ok (mono_of o s) end
  end.

(** Statements of a program. Object [k] is the one constructed by the k-th constructor call. All
    objects of one program have the same transform [to_m]. *)
Inductive mstmt : Type :=
| SNew (res : Q) (size : list Z) (min : idx)    (* mono_gridmap.hpp:48-88 *)
| SCopy (k : nat)                               (* mono_gridmap.hpp:90-101 *)
| SMove (k : nat)                               (* mono_gridmap.hpp:103-114 *)
| SOp (k : nat) (op : mono_op (V:=V) (W:=W))    (* mono_gridmap.hpp:168-176, 220-223 *)
| SLookup (k : nat) (i : idx).                  (* mono_gridmap.hpp:215-218, a const member function *)

(** Changes made to an object reach the storage it points to. *)
Definition put (h : mheap V) (k : nat) (m : mono V) : outcome (mheap V) :=
  match nth_error (h_objs h) k with
  | None => UB
  | Some o => match upd (h_stores h) (ob_store o) (mo_store m) with
              | None => UB
              | Some ss => Ok {| h_stores := ss; h_objs := h_objs h |}
              end
  end.
(** A constructor with its own storage: [new distribution_storage_t(...)]. *)
Definition fresh (h : mheap V) (m : mono V) : mheap V :=
  {| h_stores := h_stores h ++ [mo_store m]; h_objs := h_objs h ++ [obj_of m (length (h_stores h))] |}.

Definition mexec (h : mheap V) (s : mstmt) : outcome (mheap V) :=
  match s with
  | SNew res size min => let* m := mono_new res size min in Ok (fresh h m)
  | SCopy k => let* m := view h k in Ok (fresh h m)
  | SMove k =>
      match nth_error (h_objs h) k with
      | None => UB
      | Some o => Ok {| h_stores := h_stores h; h_objs := h_objs h ++ [o] |}
      end
  | SOp k op => let* m := view h k in let* m' := mono_step default merge to_m add m op in put h k m'
  | SLookup k i => let* m := view h k in let* m' := mono_getAllocate default merge m i in put h k m'
  end.
Definition mprog (l : list mstmt) : outcome (mheap V) := ofold mexec l {| h_stores := []; h_objs := [] |}.
End Objects.

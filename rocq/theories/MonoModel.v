(** The 2D grid map with one distribution per cell, cslibs_ndt_2d/static_maps/mono_gridmap.hpp, its
    creation from a dynamic map, conversion/merge.hpp, and its conversion to a probability grid,
    conversion/probability_gridmap.hpp:180-217. Numbers are exact rationals. [Distribution] has no
    member [data()] at this commit; [distribution->data()] is read as the distribution itself.
    Definitions only. *)
From Coq Require Import QArith Qround.
From Verif Require Import Base SeqModel IndexModel OctreeSpec MapModel BackendModel SysModel ExtentModel GridModel.
Open Scope Z_scope.

(** mono_gridmap.hpp:280-289: the data members [resolution_], [size_], [min_index_], [max_index_] and
    [storage_]; the transforms are parameters of the functions below, [size_m_] is never read. *)
Record mono (V : Type) : Type := {
  mo_res : Q; mo_size : list Z; mo_min : idx; mo_max : idx; mo_store : arr V
}.
Arguments mo_res {V} m.
Arguments mo_size {V} m.
Arguments mo_min {V} m.
Arguments mo_max {V} m.
Arguments mo_store {V} m.

(** mono_gridmap.hpp:48-66 and 68-88: [max_index_] is [min_index + static_cast<int>(size)], [int]
    arithmetic. A size beyond INT_MAX is counted as UB with it. *)
Definition mono_new {V : Type} (res : Q) (size : list Z) (min_index : idx) : outcome (mono V) :=
  let* mx := omap (fun d => let* n := to_int (nth d size 0) in to_int (nth d min_index 0 + n)) (seq 0 2) in
  Ok {| mo_res := res; mo_size := size; mo_min := min_index; mo_max := mx;
        mo_store := {| a_size := size; a_offset := min_index; a_cells := [] |} |}.

Section Mono.
(** Stored distributions, world points; [m_T_w_ * p] as coordinates. *)
Context {V W : Type}.
Variable default : V.
Variable merge : V -> V -> V.
Variable to_m : W -> list Q.
(** [distribution->data().add(p)] and [sampleNonNormalized(p)]. *)
Variable add : V -> W -> V.
Variable dsample : V -> W -> Q.

Notation B := (array_backend merge).

Definition with_store (m : mono V) (s : arr V) : mono V :=
  {| mo_res := mo_res m; mo_size := mo_size m; mo_min := mo_min m; mo_max := mo_max m; mo_store := s |}.

(** mono_gridmap.hpp:301-309 [toIndex] (also 270-277 [validate]); [None]: returns false. *)
Definition mono_toIndex (m : mono V) (p : W) : outcome (option idx) :=
  let* i := toBundleIndex (/ mo_res m) (to_m p) in
  Ok (if (nth 0 (mo_min m) 0 <=? nth 0 i 0) && (nth 0 i 0 <=? nth 0 (mo_max m) 0) &&
         ((nth 1 (mo_min m) 0 <=? nth 1 i 0) && (nth 1 i 0 <=? nth 1 (mo_max m) 0))
      then Some i else None).

(** mono_gridmap.hpp:291-299 [getAllocate], 215-223 [getDistribution]. *)
Definition mono_getAllocate (m : mono V) (i : idx) : outcome (mono V) :=
  let* o := bget B (mo_store m) i in
  match o with
  | Some _ => Ok m
  | None => let* s := bins B (mo_store m) i default in Ok (with_store m s)
  end.

(** Write through the pointer returned by [getAllocate]. *)
Definition mono_modify (m : mono V) (i : idx) (f : V -> V) : outcome (mono V) :=
  let* m' := mono_getAllocate m i in
  let* s := bmod B (mo_store m') i f in Ok (with_store m' s).

(** mono_gridmap.hpp:168-176 [insert]: the point is added in world coordinates. *)
Definition mono_insert (m : mono V) (p : W) : outcome (mono V) :=
  let* o := mono_toIndex m p in
  match o with
  | None => Ok m
  | Some i => mono_modify m i (fun d => add d p)
  end.

(** mono_gridmap.hpp:206-213 [get]. *)
Definition mono_get (m : mono V) (p : W) : outcome (option V) :=
  let* o := mono_toIndex m p in
  match o with None => Ok None | Some i => bget B (mo_store m) i end.

(** mono_gridmap.hpp:184-191 and 199-204 ([sample] and [sampleNonNormalized] with index). *)
Definition mono_sample_at (m : mono V) (p : W) (i : idx) : outcome Q :=
  let* o := bget B (mo_store m) i in
  Ok (match o with Some d => dsample d p | None => 0%Q end).
(** mono_gridmap.hpp:178-182 and 193-197. *)
Definition mono_sample (m : mono V) (p : W) : outcome Q :=
  let* o := mono_toIndex m p in
  match o with None => Ok 0%Q | Some i => mono_sample_at m p i end.

(** mono_gridmap.hpp:250-254 [traverse]. *)
Definition mono_cells (m : mono V) : outcome (list (idx * V)) := btrav B (mo_store m).

(** A history: points inserted, cells changed through [getDistribution]. *)
Inductive mono_op : Type := MInsert (p : W) | MModify (i : idx) (f : V -> V).
Definition mono_step (m : mono V) (o : mono_op) : outcome (mono V) :=
  match o with
  | MInsert p => mono_insert m p
  | MModify i f => mono_modify m i f
  end.
Definition mono_run (ops : list mono_op) (m : mono V) : outcome (mono V) := ofold mono_step ops m.

End Mono.

(** conversion/merge.hpp:10-41, for a source that is not null. [plus] is [operator+=] of the
    distribution; a null slot would be dereferenced. The size is [int] arithmetic converted to
    [std::size_t]. *)
Definition merge_map {P : Type} (c : config P) (bres : Q) (plus : P -> P -> P) (m : cmap c) : outcome (mono P) :=
  let extent d := let* a := to_int (nth d (max_bi m) 0 - nth d (min_bi m) 0) in
                  let* b := to_int (a + 1) in Ok (b mod 2 ^ 64) in
  let* size := omap extent (seq 0 2) in
  let* dst := mono_new bres size (min_bi m) in
  let* es := cbundles c m in
  ofold (fun dst e =>
    let* dst := mono_getAllocate (defaultc c) (mergec c) dst (fst e) in
    ofold (fun dst i =>
      match nth_error (slots (snd e)) i with
      | None => UB
      | Some sl =>
          let* o := slot_value (bdc c) (bbc c) m i sl in
          match o with
          | None => UB
          | Some v =>
              let* s := bmod (array_backend (mergec c)) (mo_store dst) (fst e) (fun d => plus d v) in
              Ok (with_store dst s)
          end
      end) (seq 0 (bin_count (dimc c))) dst) es dst.

(** conversion/probability_gridmap.hpp:15-21 [validate] on exact numbers, where only 0 is not normal. *)
Definition validate_score (v : Q) : Q := if Qle_bool v 1 then v else 0%Q.

(** conversion/probability_gridmap.hpp:180-217. [from_grid] is [src.getOrigin() * p]. *)
Definition mono_to_grid {V W : Type} (merge : V -> V -> V) (dsample : V -> W -> Q) (from_grid : list Q -> W)
  (sres : Q) (m : mono V) : outcome grid :=
  let* gh := to_size (Qceiling (inject_Z (nth 1 (mo_size m) 0%Z) * mo_res m / sres)) in
  let* gw := to_size (Qceiling (inject_Z (nth 0 (mo_size m) 0%Z) * mo_res m / sres)) in
  ofold (fun g v => ofold (fun g u =>
      let p := [inject_Z u * sres; inject_Z v * sres]%Q in
      let* a := to_int (qtrunc (inject_Z u * sres / mo_res m)) in
      let* b := to_int (qtrunc (inject_Z v * sres / mo_res m)) in
      let* i := to_int (nth 0 (mo_min m) 0 + a) in
      let* j := to_int (nth 1 (mo_min m) 0 + b) in
      let* x := mono_sample_at merge dsample m (from_grid p) [i; j] in
      let y := validate_score x in
      if Qle_bool 0 y then grid_set g u v y else Ok g)
    (int_range gw) g) (int_range gh) {| g_width := gw; g_height := gh; g_at := fun _ _ => 0%Q |}.

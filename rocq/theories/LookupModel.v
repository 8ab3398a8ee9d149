(** Lookups by point and by pose, and the sizes of static maps: map/generic_map.hpp:120-157, 253-263,
    map/abstract_map.hpp:195-231, utility/to_point.hpp. Definitions only. *)
From Coq Require Import QArith Qround.
From Verif Require Import Base SeqModel OctreeSpec MapModel BackendModel SysModel ExtentModel.
Open Scope Z_scope.

Section Lookup.
Context {P : Type}.
Variable c : config P.
(** [bundle_resolution_inv_]. *)
Variable inv : Q.

(** generic_map.hpp:129-136 (static) and 259-263 (dynamic) [get(p)]; [p] is in map coordinates. A null
    pointer is [None]. The static version tests [valid] in [toBundleIndex(p, bi)], abstract_map.hpp:338-343;
    [valid] of a dynamic map is constantly true. *)
Definition get_at (m : cmap c) (p : list Q) : outcome (option bundle) :=
  let* bi := toBundleIndex inv p in cbundle c m bi.

(** generic_map.hpp:120-127 (static) and 253-257 (dynamic) [getDistributionBundle(p)]. *)
Definition getDistributionBundle_at (m : cmap c) (p : list Q) : outcome (cmap c * option bundle) :=
  let* bi := toBundleIndex inv p in
  let* r := getDistributionBundle (defaultc c) (bdc c) (bbc c) (dimc c) (kindc c) (aminc c) (amaxc c) m bi in
  if snd r then let* b := bget (bbc c) (bundles (fst r)) bi in Ok (fst r, b) else Ok (fst r, None).

(** [*bundle->at(k)], common/bundle.hpp:35-43; a null or dangling pointer is UB. *)
Definition at_slot (m : cmap c) (b : bundle) (k : nat) : outcome P :=
  match nth_error (slots b) k with
  | None => UB
  | Some sl => let* d := slot_value (bdc c) (bbc c) m k sl in match d with None => UB | Some v => Ok v end
  end.

(** abstract_map.hpp:212-218 [getBundleIndices]; [traverse] (206-210) visits the same elements. *)
Definition getBundleIndices (m : cmap c) : outcome (list idx) :=
  let* bs := cbundles c m in Ok (map fst bs).

(** utility/to_point.hpp:12-25 [to_point<point_t>(vector)]: missing coordinates are 0. *)
Definition to_point (n : nat) (v : list Q) : list Q :=
  map (fun i => if (length v <=? i)%nat then 0%Q else nth i v 0%Q) (seq 0 n).

(** abstract_map.hpp:228-232 [validate(pose)]: [t] is the translation of the 2D pose, [to_m] is
    [m_T_w_ * p]. *)
Definition validate (to_m : list Q -> list Q) (m : cmap c) (t : list Q) : outcome bool :=
  let* bi := toBundleIndex inv (to_m (to_point (dimc c) t)) in Ok (cvalid c m bi).

(** generic_map.hpp:58, 87, 143-146 [getSizeM] of a static map, component [d]; [res] is the resolution. *)
Definition static_getSizeM (res : Q) (d : nat) : Q := (inject_Z (nth d (sizec c) 0%Z + 1) * res)%Q.
(** generic_map.hpp:148-156 [getSize] and [getBundleSize] of a static map. *)
Definition static_getSize (d : nat) : Z := nth d (sizec c) 0.
Definition static_getBundleSize (d : nat) : Z := (nth d (sizec c) 0 * 2) mod 2 ^ 64.
End Lookup.

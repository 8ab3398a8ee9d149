(** Extents, origin and point-to-index conversion: map/abstract_map.hpp:122-193 and 323-351,
    map/generic_map.hpp:270-284. Reals are rationals (exact arithmetic; floating-point rounding is
    not modelled); [int] arithmetic is checked, overflow is UB. Definitions only. *)
From Coq Require Import QArith Qround.
From Verif Require Import Base OctreeSpec MapModel BackendModel SysModel.
Open Scope Z_scope.

(** A value of type [int]; anything else is signed overflow (or an unrepresentable cast). *)
Definition to_int (z : Z) : outcome Z := if (INT_MIN <=? z) && (z <=? INT_MAX) then Ok z else UB.
Fixpoint omap {A B : Type} (f : A -> outcome B) (l : list A) : outcome (list B) :=
  match l with
  | [] => Ok []
  | x :: l' => let* y := f x in let* r := omap f l' in Ok (y :: r)
  end.

Section Extent.
Context {P : Type}.
Variable c : config P.
(** [bundle_resolution_]. *)
Variable bres : Q.

(** abstract_map.hpp:127-132 *)
Definition getMin (m : cmap c) : list Q := map (fun z => inject_Z z * bres)%Q (min_bi m).
(** abstract_map.hpp:138-143 *)
Definition getMax (m : cmap c) : outcome (list Q) :=
  omap (fun z => let* n := to_int (z + 1) in Ok (inject_Z n * bres)%Q) (max_bi m).
(** abstract_map.hpp:185-193 [getWidth] ([d] = 0) and [getHeight] ([d] = 1); one component of
    [getSizeM], generic_map.hpp:270-276 (dynamic). *)
Definition getExtent (m : cmap c) (d : nat) : outcome Q :=
  let* a := to_int (nth d (max_bi m) 0 - nth d (min_bi m) 0) in
  let* b := to_int (a + 1) in
  Ok (inject_Z b * bres)%Q.
(** One component of [getSize] of a dynamic map, generic_map.hpp:278-284; the int is converted to
    [std::size_t]. *)
Definition getSize (m : cmap c) (d : nat) : outcome Z :=
  let* a := to_int (nth d (max_bi m) 0 - nth d (min_bi m) 0) in Ok (a mod 2 ^ 64).

(** abstract_map.hpp:149-154: the translation part of [getOrigin] (the rotation part is that of
    [w_T_m_]); [t] is the translation of [w_T_m_]. *)
Definition qadd (a b : list Q) : list Q := map (fun p => fst p + snd p)%Q (combine a b).
Definition getOrigin (t : list Q) (m : cmap c) : list Q := qadd t (getMin m).

End Extent.

(** abstract_map.hpp:323-330 [toBundleIndex]: [p_m] in map coordinates, [inv] is
    [bundle_resolution_inv_]. *)
Definition toBundleIndex (inv : Q) (p_m : list Q) : outcome idx :=
  omap (fun x => to_int (Qfloor (x * inv))) p_m.

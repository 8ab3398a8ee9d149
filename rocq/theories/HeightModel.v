(** The heights that the 3D conversion of maps to markers hands to the colour scale:
    cslibs_ndt_3d/conversion/distributions.hpp. Numbers are exact rationals. Not modelled: the colour
    scale itself (cslibs_math), orientation and scale of the markers (CloudModel). Definitions only. *)
From Coq Require Import QArith.
From Verif Require Import Base IndexModel MapModel SysModel InsertModel ExtentModel.
Open Scope Z_scope.

Section Height.
Context {P : Type}.
Variable c : config P.
Variable bres : Q.
(** What [process_item] draws of a cell: the mean and the value of [color.a]; [None] if it returns early. *)
Variable show : P -> option (list Q * Q).
(** [origin = transform * src.getInitialOrigin()]: third row of the rotation and third component of the
    translation. *)
Variable row : list Q.
Variable tz : Q.

(** The component (2) of [origin * p]. *)
Definition height (p : list Q) : Q := (nth 0 row 0 * nth 0 p 0 + nth 1 row 0 * nth 1 p 0 + nth 2 row 0 * nth 2 p 0 + tz)%Q.

(** distributions.hpp:41-44 and 135-138 [min_height], [max_height]. *)
Definition height_range (m : cmap c) : outcome (Q * Q) :=
  let* hi := getMax c bres m in Ok (height (getMin c bres m), height hi).

(** One call of [interpolateColor(p(2), min_height, max_height)] with the transparency. *)
Record colour_call : Type := { at_height : Q; from_height : Q; to_height : Q; alpha : Q }.

(** distributions.hpp:46-92 and 140-190: all markers, storage by storage. *)
Definition colour_calls (m : cmap c) : outcome (list colour_call) :=
  let* r := height_range m in
  ofold (fun l i =>
    let* es := cdists c m i in
    Ok (l ++ flat_map (fun e => match show (snd e) with
                                | None => []
                                | Some (x, a) => [{| at_height := height x; from_height := fst r; to_height := snd r; alpha := a |}]
                                end) es)) (seq 0 (bin_count (dimc c))) [].
End Height.

Section Show.
Context {A S : Type}.
(** [getMean()] and whether [getEigenValuesVectors] succeeds (cslibs_math). *)
Variable mean : S -> list Q.
Variable shape : S -> bool.
(** distributions.hpp:46-86, maps of distributions. *)
Definition show_cell (d : S) : option (list Q * Q) := if shape d then Some (mean d, 1%Q) else None.
(** distributions.hpp:140-187, occupancy maps; [occupancy] is [d.getOccupancy(ivm)] for a model that is
    present. *)
Variable occupancy : occ A S -> Q.
Variable threshold : Q.
Definition show_occ (d : occ A S) : option (list Q * Q) :=
  if Qle_bool threshold (occupancy d)
  then match hits d with
       | None => None
       | Some s => if shape s then Some (mean s, occupancy d) else None
       end
  else None.
End Show.

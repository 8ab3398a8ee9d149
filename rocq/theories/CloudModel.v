(** What the 3D conversion of a map to a point cloud and the conversions to markers emit:
    cslibs_ndt_3d/conversion/{sensor_msgs_pointcloud2,sensor_msgs_pointcloud2_rgb,distributions}.hpp and
    cslibs_ndt_2d/conversion/distributions.hpp. Definitions only. *)
From Coq Require Import String Reals.
From Verif Require Import Base IndexModel MapModel SysModel JetModel.
Open Scope Z_scope.

(** ** The message *)

(** [sensor_msgs::PointField] and [sensor_msgs::PointCloud2] without the header. *)
Record point_field : Type := { pf_name : string; pf_offset : Z; pf_datatype : Z; pf_count : Z }.
Record point_cloud2 : Type :=
  { pc_height : Z; pc_width : Z; pc_fields : list point_field; pc_bigendian : bool;
    pc_point_step : Z; pc_row_step : Z; pc_data : list Z; pc_dense : bool }.

(** [uint32]. *)
Definition uint32 (z : Z) : Z := z mod 2 ^ 32.
(** [sensor_msgs::PointField::FLOAT32]. *)
Definition FLOAT32 : Z := 7.

Section Message.
(** A [float] and its four bytes in memory; the machine is little-endian. *)
Context {F : Type}.
Variable float_bytes : F -> list Z.

(** sensor_msgs_pointcloud2.hpp:13-41 [from(tmp, dst)]. [&dst.data[0]] and [&tmp[0]] are undefined for
    an empty vector. *)
Definition cloud_message (tmp : list F) : outcome point_cloud2 :=
  let size := Z.of_nat (length tmp) in
  let width := uint32 (size / 4) in
  let field i name := {| pf_name := name; pf_offset := i * 4; pf_datatype := FLOAT32; pf_count := width |} in
  match tmp with
  | [] => UB
  | _ => Ok {| pc_height := 1; pc_width := width;
               pc_fields := [field 0 "x"%string; field 1 "y"%string; field 2 "z"%string; field 3 "intensity"%string];
               pc_bigendian := false; pc_point_step := 4 * 4; pc_row_step := uint32 (4 * size);
               pc_data := flat_map float_bytes tmp; pc_dense := false |}
  end.

(** sensor_msgs_pointcloud2.hpp:74-77 and 139-142: four floats for each entry. *)
Definition cloud_floats (entries : list (F * F * F * F)) : list F :=
  flat_map (fun e => let '(x, y, z, v) := e in [x; y; z; v]) entries.
End Message.

(** ** The entries *)

Section Entries.
Context {P E : Type}.
Variable c : config P.
(** The body of [process_item]: [None] if it returns early. *)
Variable show : P -> outcome (option E).

(** sensor_msgs_pointcloud2.hpp:80-83 and 145-148 (_rgb.hpp:50-53 and 102-105): traverse all storages. *)
Definition process_item (tmp : list E) (e : idx * P) : outcome (list E) :=
  let* o := show (snd e) in Ok (match o with Some x => tmp ++ [x] | None => tmp end).
Definition process_storage (m : cmap c) (tmp : list E) (i : nat) : outcome (list E) :=
  let* es := cdists c m i in ofold process_item es tmp.
Definition cloud_entries (m : cmap c) : outcome (list E) :=
  ofold (process_storage m) (seq 0 (bin_count (dimc c))) [].

(** sensor_msgs_pointcloud2.hpp:52-53 and 111-112; the map afterwards and the entries. *)
Definition cloud_convert (allocate_all : bool) (m : cmap c) : outcome (cmap c * list E) :=
  let* m' := if allocate_all then cact c m ExpandAll else Ok m in
  let* es := cloud_entries m' in
  Ok (m', es).

(** distributions.hpp (3D) 29-40 and 84-91, (2D) 30-41 and 84-91: the markers; [marker.id] is an [int] that
    starts at 0 and is incremented after each marker. [DeleteAll] is the first marker. *)
Inductive marker : Type := DeleteAll (id : Z) | Add (id : Z) (shape : E).
Definition increment (id : Z) : outcome Z := if int_ok (id + 1) then Ok (id + 1) else UB.
Definition mark_item (s : list marker * Z) (e : idx * P) : outcome (list marker * Z) :=
  let (dst, id) := s in
  let* o := show (snd e) in
  match o with
  | None => Ok s
  | Some x => let* id' := increment id in Ok (dst ++ [Add id x], id')
  end.
Definition marker_array (m : cmap c) : outcome (list marker) :=
  let* id := increment 0 in
  let* s := ofold (fun s i => let* es := cdists c m i in ofold mark_item es s)
              (seq 0 (bin_count (dimc c))) ([DeleteAll 0], id) in
  Ok (fst s).
End Entries.
Arguments DeleteAll {E} id.
Arguments Add {E} id shape.

(** ** What is shown of a cell *)

Section Show.
(** Stored distributions with [valid()], [getMean()], [getInformationMatrix()]. *)
Context {D : Type}.
Variable dim : nat.
Variable valid : D -> bool.
Variable mean : D -> nat -> R.
Variable inf : D -> nat -> nat -> R.
(** [origin = transform * src.getInitialOrigin()] applied to a point. *)
Variable origin : (nat -> R) -> nat -> R.

(** sensor_msgs_pointcloud2.hpp:59-78: position and intensity before the casts to float. *)
Definition show_distribution (d : D) : outcome (option ((nat -> R) * R)) :=
  Ok (Some (origin (mean d), rsample dim (valid d) (mean d) (inf d) (mean d))).

Context {P M : Type}.
(** [getDistribution()], [getOccupancy(ivm)] for an inverse model that is present. *)
Variable inner : P -> option D.
Variable occupancy : M -> P -> R.
(** occupancy_distribution.hpp:96-102: throws without model. *)
Definition get_occupancy (ivm : option M) (p : P) : outcome R :=
  match ivm with Some v => Ok (occupancy v p) | None => Throw end.

(** sensor_msgs_pointcloud2.hpp:118-143. *)
Definition show_occupancy (ivm : option M) (threshold : R) (p : P) : outcome (option ((nat -> R) * R)) :=
  let* o := get_occupancy ivm p in
  if Rlt_dec o threshold then Ok None
  else match inner p with
       | None => Ok None
       | Some d =>
           let* o' := get_occupancy ivm p in
           Ok (Some (origin (mean d), (rsample dim (valid d) (mean d) (inf d) (mean d) * o')%R))
       end.

(** sensor_msgs_pointcloud2_rgb.hpp:94-100; only positions; for the colours see RgbModel. *)
Definition show_occupancy_rgb (ivm : option M) (threshold : R) (p : P) : outcome (option (nat -> R)) :=
  match inner p with
  | None => Ok None
  | Some d =>
      let* o := get_occupancy ivm p in
      if Rlt_dec o threshold then Ok None else Ok (Some (origin (mean d)))
  end.

(** distributions.hpp (3D) 46-86 and (2D) 44-86: [getEigenValuesVectors] of cslibs_math may fail; the shape
    (orientation, scale) is a function of its result. *)
Context {G : Type}.
Variable eigen : D -> option G.
Definition show_marker (d : D) : outcome (option ((nat -> R) * G)) :=
  Ok (match eigen d with Some g => Some (origin (mean d), g) | None => None end).

(** distributions.hpp (3D) 143-187 and its counterpart in 2D; [color.a] is the occupancy. *)
Definition show_occupancy_marker (ivm : option M) (threshold : R) (p : P) : outcome (option ((nat -> R) * G * R)) :=
  let* o := get_occupancy ivm p in
  if Rlt_dec o threshold then Ok None
  else match inner p with
       | None => Ok None
       | Some d => Ok (match eigen d with Some g => Some (origin (mean d), g, o) | None => None end)
       end.
End Show.

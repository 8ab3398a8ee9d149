(** How a PointCloud2 message is read (documentation of sensor_msgs/PointCloud2 and PointField), and which
    cells of a map a picture of it should show. *)
From Coq Require Import String.
From Verif Require Import Base IndexModel MapModel SysModel SysSpec CloudModel.
Open Scope Z_scope.

(** The bytes of field [f] of the point in row [r] and column [k]: four bytes for FLOAT32. *)
Definition field_bytes (msg : point_cloud2) (f : point_field) (r k : Z) : list Z :=
  firstn 4 (skipn (Z.to_nat (r * pc_row_step msg + k * pc_point_step msg + pf_offset f)) (pc_data msg)).

(** The message describes its data: rows are [width] points long, [height] rows of data. *)
Definition sizes_agree (msg : point_cloud2) : Prop :=
  pc_row_step msg = pc_width msg * pc_point_step msg /\
  Z.of_nat (length (pc_data msg)) = pc_height msg * pc_row_step msg.

(** Every field, [count] elements of four bytes, lies within a point. *)
Definition fields_inside (msg : point_cloud2) : Prop :=
  forall f, In f (pc_fields msg) -> pf_offset f + 4 * pf_count f <= pc_point_step msg.

(** [keys] lists cells of the map, none twice; they include all that a history changed. *)
Definition shown_cells {P : Type} (c : config P) (l : list (map_action (P:=P))) (keys : list (nat * idx)) : Prop :=
  NoDup keys /\
  (forall i j, In (i, j) keys -> cell_exists c i j) /\
  (forall i j, cell_exists c i j -> changes l i j <> [] -> In (i, j) keys).

(** The distribution a history leaves in a cell. *)
Definition after {P : Type} (c : config P) (l : list (map_action (P:=P))) (k : nat * idx) : P :=
  apply_changes (changes l (fst k) (snd k)) (defaultc c).

(** The list of the values of [f] that are not [None]. *)
Fixpoint collect {A B : Type} (f : A -> option B) (l : list A) : list B :=
  match l with [] => [] | a :: l' => match f a with Some b => b :: collect f l' | None => collect f l' end end.

(** No operation allocates cells without changing them. *)
Definition only_changes {P : Type} (l : list (map_action (P:=P))) : Prop :=
  Forall (fun a => match a with Modify _ _ => True | _ => False end) l.

(** Coordinates and intensity of an entry in the order of the fields. *)
Definition entry_field {F : Type} (k : nat) (e : F * F * F * F) : F :=
  let '(x, y, z, v) := e in match k with O => x | 1%nat => y | 2%nat => z | _ => v end.

(** A history followed by the completion of bundles that [allocate_all] asks for. *)
Definition history {P : Type} (allocate_all : bool) (l : list (map_action (P:=P))) : list (map_action (P:=P)) :=
  if allocate_all then l ++ [ExpandAll] else l.

(** Markers numbered from [a]. *)
Fixpoint numbered {E : Type} (a : Z) (l : list E) : list (marker (E:=E)) :=
  match l with [] => [] | x :: l' => Add a x :: numbered (a + 1) l' end.

(** Headers as YAML trees: [write] and [load] of serialization/loader.hpp, and loading a map whose
    directory holds map.yaml, serialization/map.hpp:74-134. Definitions only.

    Left out: the text of the YAML file. [YAML::LoadFile] (map.hpp:100) is taken to give the tree that was
    emitted; malformed text makes it throw. Which file is opened is modelled in PathModel. *)
From Coq Require Import String.
From Verif Require Import Base SeqModel IndexModel OctreeSpec OctreeModel MapModel BackendModel SysModel LoaderModel
  SerialModel ThreadModel FileModel.
Open Scope Z_scope.

(** [YAML::Node]: scalars that are integers, other scalars, null, sequences, mappings. *)
Inductive node : Type :=
| Number (z : Z)
| Text (s : string)
| Null
| Sequence (l : list node)
| Mapping (l : list (string * node)).

(** [n\[key\] = v] on a mapping: an entry of that name is replaced, otherwise one is appended. *)
Fixpoint set_entry (l : list (string * node)) (key : string) (v : node) : list (string * node) :=
  match l with
  | [] => [(key, v)]
  | (k, w) :: l' => if String.eqb k key then (k, v) :: l' else (k, w) :: set_entry l' key v
  end.
(** [n\[key\]] on a constant node, yaml-cpp's [Node::operator\[\] const]: the first entry of that name. *)
Fixpoint get_entry (l : list (string * node)) (key : string) : option node :=
  match l with [] => None | (k, w) :: l' => if String.eqb k key then Some w else get_entry l' key end.

(** [YAML::convert<A>]: [as<A>()] throws if [decode] returns false, or throws itself. *)
Record converter (A : Type) : Type := { y_encode : A -> node; y_decode : node -> option A }.
Arguments y_encode {A} c _.
Arguments y_decode {A} c _.

(** yaml-cpp, [convert<int>] and [convert<std::size_t>]: numbers out of range are refused. Simplified: old
    versions wrap negative numbers read as [std::size_t]. *)
Definition int_converter : converter Z :=
  {| y_encode := Number; y_decode := fun n => match n with Number z => if int_ok z then Some z else None | _ => None end |}.
Definition size_converter : converter Z :=
  {| y_encode := Number;
     y_decode := fun n => match n with Number z => if (0 <=? z) && (z <? 2 ^ 64) then Some z else None | _ => None end |}.

Fixpoint all_decoded {A : Type} (f : node -> option A) (l : list node) : option (list A) :=
  match l with
  | [] => Some []
  | n :: l' =>
      match f n with
      | Some a => match all_decoded f l' with Some r => Some (a :: r) | None => None end
      | None => None
      end
  end.
(** yaml-cpp, [convert<std::vector<A>>]. *)
Definition vector_converter {A : Type} (k : converter A) : converter (list A) :=
  {| y_encode := fun l => Sequence (map (y_encode k) l);
     y_decode := fun n => match n with Sequence l => all_decoded (y_decode k) l | _ => None end |}.
(** yaml-cpp, [convert<std::array<A, N>>]: the length must be right. *)
Definition array_converter {A : Type} (dim : nat) (k : converter A) : converter (list A) :=
  {| y_encode := fun l => Sequence (map (y_encode k) l);
     y_decode := fun n => match n with
                          | Sequence l => if (length l =? dim)%nat then all_decoded (y_decode k) l else None
                          | _ => None
                          end |}.

(** [n\[key\].as<A>()]: a missing entry, or [n] not being a mapping, throws as well. *)
Definition read_entry {A : Type} (k : converter A) (n : node) (key : string) : outcome A :=
  match n with
  | Mapping l =>
      match get_entry l key with
      | Some v => match y_decode k v with Some a => Ok a | None => Throw end
      | None => Throw
      end
  | _ => Throw
  end.

Section Yaml.
Variable junk : list Z -> nat -> list Z.
Context {P Po T : Type}.
(** [YAML::convert<pose_t>] (cslibs_math) and [YAML::convert<T>] (yaml-cpp). *)
Variable yo : converter Po.
Variable yt : converter T.
Variable fmt : format P.
Variable c : config P.
Notation bins_n := (bin_count (dimc c)).

Definition index_converter : converter idx := array_converter (dimc c) int_converter.
Definition size_array : converter (list Z) := array_converter (dimc c) size_converter.
Definition indices_converter : converter (list idx) := vector_converter index_converter.

(** loader.hpp:182-191 (static) and 274-283 (dynamic) [header::write] on a mapping. *)
Definition yaml_write (origin : Po) (resolution : T) (m : cmap c) (n : list (string * node)) :
  outcome (list (string * node)) :=
  let* bs := cbundles c m in
  let n := set_entry n "origin" (y_encode yo origin) in
  let n := set_entry n "resolution" (y_encode yt resolution) in
  let n :=
    match kindc c with
    | Static =>
        let n := set_entry n "size" (y_encode size_array (sizec c)) in
        set_entry n "min_index" (y_encode index_converter (min_bi m))
    | Dynamic =>
        let n := set_entry n "min_index" (y_encode index_converter (min_bi m)) in
        set_entry n "max_index" (y_encode index_converter (max_bi m))
    end in
  Ok (set_entry n "bundles" (y_encode indices_converter (map fst bs))).

(** loader.hpp:193-202 (static) and 285-293 (dynamic) [header::load]; the result as in [map_header_load]. *)
Definition yaml_load (n : node) : outcome (Po * T * (list Z * idx * idx) * list idx) :=
  let* origin := read_entry yo n "origin" in
  let* resolution := read_entry yt n "resolution" in
  match kindc c with
  | Static =>
      let* size := read_entry size_array n "size" in
      let* mn := read_entry index_converter n "min_index" in
      let* l := read_entry indices_converter n "bundles" in
      Ok (origin, resolution, (size, mn, static_max size mn), l)
  | Dynamic =>
      let* mn := read_entry index_converter n "min_index" in
      let* mx := read_entry index_converter n "max_index" in
      let* l := read_entry indices_converter n "bundles" in
      Ok (origin, resolution, ([], mn, mx), l)
  end.

(** map.hpp:115-133: the part of [load] after the header. *)
Definition load_rest (e : environment) (sched : list nat) (g : nat -> Z) (files : list (option (list Z)))
  (h : Po * T * (list Z * idx * idx) * list idx) : outcome (option (loaded (Po:=Po) (T:=T) c)) :=
  let '(origin, resolution, (size, mn, mx), l) := h in
  let* w := workers_run (map (load_operation junk fmt c e (fresh_store c g size mn) files) (seq 0 bins_n)) sched in
  if flag w then
    let* bs := ofold (allocate_bundle c (made w)) l (fresh_bundles c g size mn) in
    let* ss := not_null (made w) in
    Ok (Some {| l_origin := origin; l_resolution := resolution; l_map := Build_ndmap (bdc c) (bbc c) ss bs mn mx |})
  else Ok None.

(** map.hpp:74-134 [load] of a directory in which map.yaml is found (99-101): nothing catches what the
    YAML header throws. *)
Definition map_load_yaml (e : environment) (sched : list nat) (g : nat -> Z) (n : node) (files : list (option (list Z))) :
  outcome (option (loaded (Po:=Po) (T:=T) c)) :=
  if forallb (fun f => match f with Some _ => true | None => false end) files then
    let* h := yaml_load n in load_rest e sched g files h
  else Ok None.

(** The files of the storages, as [save] writes them (map.hpp:57-69); used together with [yaml_write] by a
    program that wants a YAML header ([save] itself writes map.bin). *)
Definition save_stores (e : environment) (sched : list nat) (m : cmap c) : outcome (bool * list (option (list Z))) :=
  let* w := workers_run (map (save_operation fmt c e m) (seq 0 bins_n)) sched in Ok (flag w, made w).
End Yaml.

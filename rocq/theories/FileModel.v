(** Saving a map into a directory and loading it: serialization/map.hpp, serialization/filesystem.hpp.
    Definitions only. *)
From Verif Require Import Base SeqModel IndexModel OctreeSpec OctreeModel MapModel BackendModel SysModel LoaderModel
  SerialModel ThreadModel.
Open Scope Z_scope.

(** A directory holding [map.bin] and [store_0.bin] ... [store_{n-1}.bin]; [None] is a missing file.
    [map.yaml] never exists after [save] and is left out. *)
Record directory : Type := { header_file : option (list Z); store_files : list (option (list Z)) }.
(** What is found at the path: nothing or a directory. *)
Definition place : Type := option directory.

(** The file system as far as it decides between success and failure: whether [create_directory]
    succeeds (or fails and leaves something else), whether files can be opened, what of the written bytes
    arrives on the disk. [save] does not look at the state of the stream after writing
    (storage.hpp:101-117, loader.hpp:295-315). *)
Record environment : Type := {
  no_directory : option place;
  open_header : bool;
  open_store : nat -> bool;
  keep_header : list Z -> list Z;
  keep_store : nat -> list Z -> list Z
}.
Definition all_open : environment :=
  {| no_directory := None; open_header := true; open_store := fun _ => true;
     keep_header := fun bs => bs; keep_store := fun _ bs => bs |}.

Section Map.
Variable junk : list Z -> nat -> list Z.
Context {P Po T : Type}.
Variable po : codec Po.
Variable tp : codec T.
Variable fmt : format P.
Variable c : config P.
Notation bins_n := (bin_count (dimc c)).

(** loader.hpp:204-224 and 295-315 [header::save]: the bytes written. *)
Definition map_header (origin : Po) (resolution : T) (m : cmap c) : outcome (list Z) :=
  let* bs := cbundles c m in
  match kindc c with
  | Dynamic => dynamic_header_bytes po tp origin resolution (min_bi m) (max_bi m) (map fst bs)
  | Static => Ok (header_bytes po tp {| h_origin := origin; h_resolution := resolution; h_size := sizec c;
                                        h_min := min_bi m; h_indices := map fst bs |})
  end.

(** map.hpp:63-66: what thread [i] of [save] does. *)
Definition save_operation (e : environment) (m : cmap c) (i : nat) : operation (list Z) :=
  if open_store e i then
    let* s := get_store (bdc c) (bbc c) m i in
    let* bytes := storage_save (bdc c) fmt s in Ok (true, Some (keep_store e i bytes))
  else Ok (false, None).

(** map.hpp:39-72 [save]. *)
Definition map_save (e : environment) (sched : list nat) (origin : Po) (resolution : T) (m : cmap c) :
  outcome (bool * place) :=
  match no_directory e with
  | Some p => Ok (false, p)
  | None =>
      if open_header e then
        let* h := map_header origin resolution m in
        let* w := workers_run (map (save_operation e m) (seq 0 bins_n)) sched in
        Ok (flag w, Some {| header_file := Some (keep_header e h); store_files := made w |})
      else Ok (false, Some {| header_file := None; store_files := repeat None bins_n |})
  end.

(** loader.hpp:226-262 and 317-354 [header::load]: origin, resolution, size (static maps only), index
    range, bundles. *)
Definition map_header_load (file : list Z) : outcome (Po * T * (list Z * idx * idx) * list idx) :=
  match kindc c with
  | Dynamic =>
      let* h := dynamic_header_load junk po tp (dimc c) file in
      let '(origin, resolution, (mn, mx), l) := h in Ok (origin, resolution, ([], mn, mx), l)
  | Static =>
      let* h := header_load junk po tp (dimc c) file in
      Ok (h_origin h, h_resolution h, (h_size h, h_min h, static_max (h_size h) (h_min h)), h_indices h)
  end.

(** loader.hpp:52-59 and 124-127 with storage.hpp:119-135: the storage that is filled; the octree
    counters hold garbage. *)
Definition fresh_store (g : nat -> Z) (size : list Z) (min : idx) (i : nat) : st (bdc c) :=
  match kindc c as k return st (dist_backend (mergec c) (dimc c) k) with
  | Dynamic => octree_new (g i)
  | Static => loader_store size min i
  end.
(** map.hpp:92, loader.hpp:64-65. *)
Definition fresh_bundles (g : nat -> Z) (size : list Z) (min : idx) : st (bbc c) :=
  match kindc c as k return st (bundle_backend (dimc c) k) with
  | Dynamic => octree_new (g bins_n)
  | Static => loader_bundles size min
  end.

(** map.hpp:117-120: what thread [i] of [load] does. If the file cannot be opened the storage has
    already been replaced by an empty one (storage.hpp:122, 131). *)
Definition load_operation (e : environment) (fresh : nat -> st (bdc c)) (files : list (option (list Z))) (i : nat) :
  operation (st (bdc c)) :=
  match nth_error files i with
  | Some (Some file) =>
      if open_store e i then
        let* r := storage_load junk (bdc c) (dimc c) fmt file (fresh i) in Ok (true, Some (fst r))
      else Ok (false, Some (fresh i))
  | _ => Ok (false, Some (fresh i))
  end.

(** loader.hpp:67-74 and 132-139: the slots of a bundle; [storages[i]] may be a null pointer. *)
Fixpoint bundle_slots (storages : list (option (st (bdc c)))) (bi : idx) (is : list nat) :
  outcome (list (option idx)) :=
  match is with
  | [] => Ok []
  | i :: is' =>
      match nth_error storages i with
      | Some (Some s) =>
          let* d := bget (bdc c) s (generate_index bi i) in
          let* l := bundle_slots storages bi is' in
          Ok (match d with Some _ => Some (generate_index bi i) | None => None end :: l)
      | _ => UB
      end
  end.
Definition allocate_bundle (storages : list (option (st (bdc c)))) (bs : st (bbc c)) (bi : idx) : outcome (st (bbc c)) :=
  let* sl := bundle_slots storages bi (seq 0 bins_n) in
  bins (bbc c) bs bi {| slots := sl; expand := true |}.

(** loader.hpp:79-89 and 144-154 [createMap] copies the storage pointers. A map with a null storage
    counts as undefined behaviour here; in the code its first use is. *)
Fixpoint not_null {A : Type} (l : list (option A)) : outcome (list A) :=
  match l with
  | [] => Ok []
  | Some x :: l' => let* xs := not_null l' in Ok (x :: xs)
  | None :: _ => UB
  end.

Record loaded : Type := { l_origin : Po; l_resolution : T; l_map : cmap c }.

(** map.hpp:74-134 [load], without the YAML header. *)
Definition map_load (e : environment) (sched : list nat) (g : nat -> Z) (p : place) : outcome (option loaded) :=
  match p with
  | None => Ok None
  | Some d =>
      if forallb (fun f => match f with Some _ => true | None => false end) (store_files d) then
        match header_file d with
        | None => Ok None
        | Some file =>
            if open_header e then
              let* h := map_header_load file in
              let '(origin, resolution, (size, mn, mx), l) := h in
              let* w := workers_run (map (load_operation e (fresh_store g size mn) (store_files d)) (seq 0 bins_n)) sched in
              if flag w then
                let* bs := ofold (allocate_bundle (made w)) l (fresh_bundles g size mn) in
                let* ss := not_null (made w) in
                Ok (Some {| l_origin := origin; l_resolution := resolution;
                            l_map := Build_ndmap (bdc c) (bbc c) ss bs mn mx |})
              else Ok None
            else Ok None
        end
      else Ok None
  end.

End Map.
Arguments l_origin {P Po T c} l.
Arguments l_resolution {P Po T c} l.
Arguments l_map {P Po T c} l.

(** C23, C24, C25, C30: the binary files. *)
From Verif Require Import Base OctreeSpec OctreeModel MapModel BackendModel InsertModel SerialModel SerialSpec
  SerialFacts SerialSamples.
Open Scope Z_scope.

Section Statements.
(** Whatever a read beyond the end of a file delivers. *)
Variable junk : list Z -> nat -> list Z.

(** C23, dynamic maps, plain distributions: after any history the storage is read back with the same
    contents, in the same order, and the file is consumed exactly. *)
Theorem C23_octree_distributions {D : Type} (cd : codec D) (merge : D -> D -> D) (dims : nat)
  (ops : list (map_op D)) (g g' : Z) (t : octree D) :
  codec_ok cd -> (0 < dims)%nat -> Forall (fun o => in_tree_range dims (op_index o)) ops ->
  storage_run (octree_backend merge dims) ops (octree_new g) = Ok t ->
  exists es file t', octree_traverse t = Ok es /\
    storage_save (octree_backend merge dims) (distribution_format junk cd) t = Ok file /\
    length file = (length es * (4 * dims + c_len cd))%nat /\
    storage_load junk (octree_backend merge dims) dims (distribution_format junk cd) file (octree_new g') = Ok (t', []) /\
    (forall i, in_tree_range dims i -> octree_get t' i = octree_get t i) /\ octree_traverse t' = octree_traverse t.
Proof.
  exact (fun Hcd Hd Hops Hrun => octree_trip junk merge _ (fun _ => True) (c_len cd)
    (distribution_format_ok junk cd Hcd) dims Hd ops g t Hops Hrun (fun _ _ _ _ => I) g' (proj2 (proj2 Hcd))).
Qed.

(** C23, dynamic maps, occupancy distributions. *)
Theorem C23_octree_occupancy {D : Type} (cd : codec D) (dflt : D) (amount : D -> Z)
  (merge : occ Z D -> occ Z D -> occ Z D) (dims : nat)
  (ops : list (map_op (occ Z D))) (g g' : Z) (t : octree (occ Z D)) :
  codec_ok cd -> amount dflt = 0 -> (0 < dims)%nat -> Forall (fun o => in_tree_range dims (op_index o)) ops ->
  storage_run (octree_backend merge dims) ops (octree_new g) = Ok t ->
  (forall i v, in_tree_range dims i -> octree_get t i = Ok (Some v) -> storable amount v) ->
  exists es file t', octree_traverse t = Ok es /\
    storage_save (octree_backend merge dims) (occupancy_format junk cd dflt amount) t = Ok file /\
    length file = (length es * (4 * dims + (8 + c_len cd)))%nat /\
    storage_load junk (octree_backend merge dims) dims (occupancy_format junk cd dflt amount) file (octree_new g')
      = Ok (t', []) /\
    (forall i, in_tree_range dims i -> octree_get t' i = octree_get t i) /\ octree_traverse t' = octree_traverse t.
Proof.
  exact (fun Hcd H0 Hd Hops Hrun Hok => octree_trip junk merge _ (storable amount) (8 + c_len cd)
    (occupancy_format_ok junk cd dflt amount Hcd H0) dims Hd ops g t Hops Hrun Hok g'
    (occupancy_count junk cd dflt amount Hcd)).
Qed.

(** C23, static maps: the same for the array storage of any box of ints. *)
Theorem C23_array_distributions {D : Type} (cd : codec D) (merge : D -> D -> D) (size : list Z) (off : idx)
  (ops : list (map_op D)) (s : arr D) :
  codec_ok cd -> (0 < length off)%nat -> length size = length off ->
  (forall d, (d < length off)%nat -> INT_MIN <= nth d off 0 /\ nth d off 0 + nth d size 0 - 1 <= INT_MAX) ->
  storage_run (array_backend merge) ops {| a_size := size; a_offset := off; a_cells := [] |} = Ok s ->
  exists file s', storage_save (array_backend merge) (distribution_format junk cd) s = Ok file /\
    length file = (length (a_cells s) * (4 * length off + c_len cd))%nat /\
    storage_load junk (array_backend merge) (length off) (distribution_format junk cd) file
      {| a_size := size; a_offset := off; a_cells := [] |} = Ok (s', []) /\
    (forall i, bget (array_backend merge) s' i = bget (array_backend merge) s i).
Proof.
  exact (fun Hcd Hd HL Hbox Hrun => array_trip junk merge _ (fun _ => True) (c_len cd)
    (distribution_format_ok junk cd Hcd) size off ops s Hd HL Hbox Hrun (fun _ _ _ => I) (proj2 (proj2 Hcd))).
Qed.
Theorem C23_array_occupancy {D : Type} (cd : codec D) (dflt : D) (amount : D -> Z)
  (merge : occ Z D -> occ Z D -> occ Z D) (size : list Z) (off : idx)
  (ops : list (map_op (occ Z D))) (s : arr (occ Z D)) :
  codec_ok cd -> amount dflt = 0 -> (0 < length off)%nat -> length size = length off ->
  (forall d, (d < length off)%nat -> INT_MIN <= nth d off 0 /\ nth d off 0 + nth d size 0 - 1 <= INT_MAX) ->
  storage_run (array_backend merge) ops {| a_size := size; a_offset := off; a_cells := [] |} = Ok s ->
  (forall i v, bget (array_backend merge) s i = Ok (Some v) -> storable amount v) ->
  exists file s', storage_save (array_backend merge) (occupancy_format junk cd dflt amount) s = Ok file /\
    length file = (length (a_cells s) * (4 * length off + (8 + c_len cd)))%nat /\
    storage_load junk (array_backend merge) (length off) (occupancy_format junk cd dflt amount) file
      {| a_size := size; a_offset := off; a_cells := [] |} = Ok (s', []) /\
    (forall i, bget (array_backend merge) s' i = bget (array_backend merge) s i).
Proof.
  exact (fun Hcd H0 Hd HL Hbox Hrun Hok => array_trip junk merge _ (storable amount) (8 + c_len cd)
    (occupancy_format_ok junk cd dflt amount Hcd H0) size off ops s Hd HL Hbox Hrun Hok
    (occupancy_count junk cd dflt amount Hcd)).
Qed.

(** C24: of [n] records of [R] bytes exactly the first [ceil (n R / (R + 8))], in traversal order,
    are loaded, since [read] reports eight bytes too many for each of them. Missing: the other
    records, see the refutation below. *)
Theorem C24_loads_prefix_partial {T D : Type} (tp : codec T) (cd : codec D) (dflt : D) (samples : D -> Z)
  (merge : occ T D -> occ T D -> occ T D) (dims : nat)
  (ops : list (map_op (occ T D))) (g g' : Z) (t : octree (occ T D)) :
  codec_ok tp -> codec_ok cd -> samples dflt = 0 -> (0 < dims)%nat ->
  Forall (fun o => in_tree_range dims (op_index o)) ops ->
  storage_run (octree_backend merge dims) ops (octree_new g) = Ok t ->
  (forall i v, in_tree_range dims i -> octree_get t i = Ok (Some v) -> weighted_storable samples v) ->
  let R := (4 * dims + (c_len tp + c_len cd))%nat in
  exists es file t', octree_traverse t = Ok es /\
    storage_save (octree_backend merge dims) (weighted_format junk tp cd dflt samples) t = Ok file /\
    (ceil_div (length es * R) (R + 8) <= length es)%nat /\
    (exists unread, storage_load junk (octree_backend merge dims) dims (weighted_format junk tp cd dflt samples)
       file (octree_new g') = Ok (t', unread)) /\
    (forall i, in_tree_range dims i -> octree_get t' i = Ok (assoc (firstn (ceil_div (length es * R) (R + 8)) es) i)) /\
    (8 * length es < R + 8 -> forall i, in_tree_range dims i -> octree_get t' i = octree_get t i)%nat.
Proof.
  exact (fun Ht Hcd H0 Hd Hops Hrun Hok =>
    weighted_trip junk tp cd dflt samples merge dims ops g g' t Ht Hcd H0 Hd Hops Hrun Hok).
Qed.

(** C25, dynamic maps: origin, resolution, both ends of the range and the list of bundles are read
    back, for every range whose extent fits into an [int]. *)
Theorem C25_dynamic_header {Po T : Type} (po : codec Po) (tp : codec T) (dim : nat) (origin : Po) (resolution : T)
  (min max : idx) (indices : list idx) :
  codec_ok po -> codec_ok tp -> (0 < dim)%nat ->
  length min = dim -> int_index min -> length max = dim -> int_index max ->
  (forall d, (d < dim)%nat -> INT_MIN <= nth d max 0 - nth d min 0 <= INT_MAX) ->
  Forall (fun bi => length bi = dim /\ int_index bi) indices ->
  exists file, dynamic_header_bytes po tp origin resolution min max indices = Ok file /\
    dynamic_header_load junk po tp dim file = Ok (origin, resolution, (min, max), indices).
Proof. exact (dynamic_header_trip' junk po tp dim origin resolution min max indices). Qed.

(** C25, static maps: the size is stored as it is. *)
Theorem C25_static_header {Po T : Type} (po : codec Po) (tp : codec T) (dim : nat) (h : header Po T) :
  codec_ok po -> codec_ok tp -> (0 < dim)%nat ->
  length (h_size h) = dim -> Forall (fun z => 0 <= z < 2 ^ 64) (h_size h) ->
  length (h_min h) = dim -> int_index (h_min h) ->
  Forall (fun bi => length bi = dim /\ int_index bi) (h_indices h) ->
  header_load junk po tp dim (header_bytes po tp h) = Ok h.
Proof. exact (static_header_trip junk po tp dim h). Qed.

(** C30 is false in general: the file of every storage cut after any number [k] of records is loaded
    without complaint, with the first [k] records. What is proved: then nothing else is changed.
    Cuts inside of a record deliver unspecified bytes and are not covered. *)
Theorem C30_cut_storage_partial {D : Type} (cd : codec D) (merge : D -> D -> D) (dims : nat)
  (ops : list (map_op D)) (g g' : Z) (t : octree D) (k : nat) :
  codec_ok cd -> (0 < dims)%nat -> Forall (fun o => in_tree_range dims (op_index o)) ops ->
  storage_run (octree_backend merge dims) ops (octree_new g) = Ok t ->
  exists es file, octree_traverse t = Ok es /\
    storage_save (octree_backend merge dims) (distribution_format junk cd) t = Ok file /\
    ((k <= length es)%nat -> exists t',
      storage_load junk (octree_backend merge dims) dims (distribution_format junk cd)
        (firstn (k * (4 * dims + c_len cd)) file) (octree_new g') = Ok (t', []) /\
      forall i, in_tree_range dims i -> octree_get t' i = Ok (assoc (firstn k es) i)).
Proof.
  exact (fun Hcd Hd Hops Hrun => octree_cut junk merge _ (fun _ => True) (c_len cd)
    (distribution_format_ok junk cd Hcd) dims Hd ops g t Hops Hrun (fun _ _ _ _ => I) g' k (proj2 (proj2 Hcd))).
Qed.
Theorem C30_cut_header_partial {Po T : Type} (po : codec Po) (tp : codec T) (dim : nat) (origin : Po) (resolution : T)
  (min max : idx) (indices : list idx) (k : nat) :
  codec_ok po -> codec_ok tp -> (0 < dim)%nat ->
  length min = dim -> int_index min -> length max = dim -> int_index max ->
  (forall d, (d < dim)%nat -> INT_MIN <= nth d max 0 - nth d min 0 <= INT_MAX) ->
  Forall (fun bi => length bi = dim /\ int_index bi) indices -> (k <= length indices)%nat ->
  exists file, dynamic_header_bytes po tp origin resolution min max indices = Ok file /\
    dynamic_header_load junk po tp dim (firstn (c_len po + c_len tp + 12 * dim + k * (4 * dim)) file) =
      Ok (origin, resolution, (min, max), firstn k indices).
Proof. exact (dynamic_header_cut junk po tp dim origin resolution min max indices k). Qed.
End Statements.
Print Assumptions C23_octree_distributions.
Print Assumptions C23_octree_occupancy.
Print Assumptions C23_array_distributions.
Print Assumptions C23_array_occupancy.
Print Assumptions C24_loads_prefix_partial.
Print Assumptions C25_dynamic_header.
Print Assumptions C25_static_header.
Print Assumptions C30_cut_storage_partial.
Print Assumptions C30_cut_header_partial.

(** C24 is false: twelve records of a weighted two-dimensional map with [Tp = double] (8 bytes of
    weight, 72 bytes of statistics, 8 bytes of index), one of them is lost. *)
Definition weighted_ops (n : nat) : list (map_op (occ (word 8) (word 72))) :=
  map (fun k => Insert [Z.of_nat k; 0] (Build_occ (word_of 8 3) (Some (word_of 72 (Z.of_nat k + 1))))) (seq 0 n).
Theorem C24_weighted_storage_refuted :
  exists (ops : list (map_op (occ (word 8) (word 72)))),
    let B := octree_backend (fun a b => b) 2 in
    let fmt := weighted_format no_junk (word_codec 8) (word_codec 72) (word_of 72 0) word_count in
    Forall (fun o => in_tree_range 2 (op_index o)) ops /\
    (let* t := storage_run B ops (octree_new 0) in
     let* file := storage_save B fmt t in
     let* (t', unread) := storage_load no_junk B 2 fmt file (octree_new 0) in
     let* a := octree_traverse t in let* b := octree_traverse t' in
     Ok (length a, length b, length unread)) = Ok (12, 11, 88)%nat.
Proof.
  exists (weighted_ops 12). split; [|vm_compute; reflexivity].
  unfold weighted_ops. apply Forall_map, Forall_forall. intros k Hk. apply in_seq in Hk. cbn [op_index].
  split; [reflexivity|]. repeat (first [apply Forall_nil | apply Forall_cons]); lia.
Qed.
Print Assumptions C24_weighted_storage_refuted.

(** C30 is false: a storage file cut after its first record and a header cut after its first bundle. *)
Definition plain_ops : list (map_op (word 48)) :=
  [Insert [0; 0] (word_of 48 5); Insert [-7; 3] (word_of 48 9); Write [0; 0] (fun w => word_of 48 (word_bits w + 1))].
Theorem C30_truncation_accepted_refuted :
  exists (ops : list (map_op (word 48))) (cut : nat),
    let B := octree_backend (fun a b => b) 2 in
    let fmt := distribution_format no_junk (word_codec 48) in
    Forall (fun o => in_tree_range 2 (op_index o)) ops /\
    (let* t := storage_run B ops (octree_new 0) in
     let* file := storage_save B fmt t in
     let* (t', _) := storage_load no_junk B 2 fmt (firstn cut file) (octree_new 0) in
     let* a := octree_traverse t in let* b := octree_traverse t' in
     Ok ((cut <? length file)%nat, length a, length b)) = Ok (true, 2, 1)%nat.
Proof.
  exists plain_ops, 56%nat. split; [|vm_compute; reflexivity].
  unfold plain_ops. repeat (first [apply Forall_nil | apply Forall_cons]); cbn [op_index]; (split; [reflexivity|]);
    repeat (first [apply Forall_nil | apply Forall_cons]); lia.
Qed.
Print Assumptions C30_truncation_accepted_refuted.
Theorem C30_header_truncation_refuted :
  exists (min max : idx) (indices : list idx) (cut : nat),
    (let* file := dynamic_header_bytes (word_codec 24) (word_codec 8) (word_of 24 1) (word_of 8 1) min max indices in
     let* (_, got) := dynamic_header_load no_junk (word_codec 24) (word_codec 8) 2 (firstn cut file) in
     Ok ((cut <? length file)%nat, length indices, length got)) = Ok (true, 2, 1)%nat.
Proof. exists [-3; 0], [4; 9], [[-3; 0]; [4; 9]], 64%nat. vm_compute. reflexivity. Qed.
Print Assumptions C30_header_truncation_refuted.

(** A reachable storage of each kind for the positive theorems. *)
Example C23_example :
  let B := octree_backend (fun a b => b) 2 in
  let fmt := distribution_format no_junk (word_codec 48) in
  codec_ok (word_codec 48) /\ Forall (fun o => in_tree_range 2 (op_index o)) plain_ops /\
  (let* t := storage_run B plain_ops (octree_new 0) in
   let* file := storage_save B fmt t in
   let* (t', unread) := storage_load no_junk B 2 fmt file (octree_new 0) in
   let* a := octree_get t' [0; 0] in let* b := octree_get t' [-7; 3] in let* c := octree_get t' [1; 1] in
   Ok (length file, unread, option_map word_bits a, option_map word_bits b, option_map word_bits c))
  = Ok (112%nat, [], Some 6, Some 9, None).
Proof.
  split; [apply word_codec_ok|]. split; [|vm_compute; reflexivity].
  unfold plain_ops. repeat (first [apply Forall_nil | apply Forall_cons]); cbn [op_index]; (split; [reflexivity|]);
    repeat (first [apply Forall_nil | apply Forall_cons]); lia.
Qed.
Definition occupancy_ops : list (map_op (occ Z (word 48))) :=
  [Insert [2; -2] (Build_occ 7 None); Insert [3; -2] (Build_occ 0 (Some (word_of 48 2)))].
Example C23_occupancy_example :
  let B := array_backend (fun a b => b) in
  let fmt := occupancy_format no_junk (word_codec 48) (word_of 48 0) word_count in
  let empty := {| a_size := [4; 4]; a_offset := [0; -4]; a_cells := [] |} in
  word_count (word_of 48 0) = 0 /\ word_count (word_of 48 2) <> 0 /\
  (let* s := storage_run B occupancy_ops empty in
   let* file := storage_save B fmt s in
   let* (s', unread) := storage_load no_junk B 2 fmt file empty in
   let* a := bget B s' [2; -2] in let* b := bget B s' [3; -2] in
   let view := option_map (fun o => (missed o, option_map word_bits (hits o))) in
   Ok (length file, unread, view a, view b)) = Ok (128%nat, [], Some (7, None), Some (0, Some 2)).
Proof. split; [vm_compute; reflexivity|]. split; [vm_compute; discriminate|vm_compute; reflexivity]. Qed.
(** Eleven records of the weighted format are still complete. *)
Example C24_example :
  let B := octree_backend (fun a b => b) 2 in
  let fmt := weighted_format no_junk (word_codec 8) (word_codec 72) (word_of 72 0) word_count in
  (8 * 11 < 88 + 8)%nat /\
  (let* t := storage_run B (weighted_ops 11) (octree_new 0) in
   let* file := storage_save B fmt t in
   let* (t', unread) := storage_load no_junk B 2 fmt file (octree_new 0) in
   let* b := octree_traverse t' in Ok (length b, unread)) = Ok (11%nat, []).
Proof. split; [lia|vm_compute; reflexivity]. Qed.
Example C25_example :
  (let* file := dynamic_header_bytes (word_codec 24) (word_codec 8) (word_of 24 7) (word_of 8 1) [-3; 0] [4; 9] [[-3; 0]; [4; 9]] in
   let* (a, got) := dynamic_header_load no_junk (word_codec 24) (word_codec 8) 2 file in
   Ok (length file, snd a, got)) = Ok (72%nat, ([-3; 0], [4; 9]), [[-3; 0]; [4; 9]]).
Proof. vm_compute. reflexivity. Qed.

(** Binary files: serialization/storage.hpp and the binary headers of serialization/loader.hpp.
    Definitions only. A file is the list of its bytes. *)
From Verif Require Import Base SeqModel IndexModel OctreeSpec OctreeModel MapModel BackendModel LoaderModel InsertModel.
Open Scope Z_scope.

(** [cslibs_math::serialization::io<T>] (outside of /repo) copies the object representation; the
    machine is little-endian with two's complement. *)
Fixpoint le_bytes (n : nat) (z : Z) : list Z :=
  match n with O => [] | S n' => z mod 256 :: le_bytes n' (z / 256) end.
Fixpoint le_value (bs : list Z) : Z :=
  match bs with [] => 0 | b :: bs' => b + 256 * le_value bs' end.
Definition int_bytes (z : Z) : list Z := le_bytes 4 z.
Definition int_value (bs : list Z) : Z := let v := le_value bs in if v <? 2 ^ 31 then v else v - 2 ^ 32.
Definition size_bytes (z : Z) : list Z := le_bytes 8 z.
Definition size_value (bs : list Z) : Z := le_value bs.

(** A type written by cslibs_math ([Tp], a pose, a [StableDistribution]): fixed number of bytes, the
    byte count its [read] reports. *)
Record codec (D : Type) : Type := {
  c_len : nat;
  c_write : D -> list Z;
  c_read : list Z -> D;
  c_count : Z
}.
Arguments c_len {D} c.
Arguments c_write {D} c.
Arguments c_read {D} c.
Arguments c_count {D} c.

(** What [cslibs_ndt::write] and [cslibs_ndt::read] do for one distribution; [f_count] is the result
    of [read]. *)
Definition reader (A : Type) : Type := list Z -> A * list Z.
Record format (V : Type) : Type := { f_write : V -> list Z; f_read : reader V; f_count : Z }.
Arguments f_write {V} f.
Arguments f_read {V} f.
Arguments f_count {V} f.

(** loader.hpp:204-225 and 295-315: the binary header. *)
Record header (Po T : Type) : Type := {
  h_origin : Po; h_resolution : T; h_size : list Z; h_min : idx; h_indices : list idx
}.
Arguments h_origin {Po T} h.
Arguments h_resolution {Po T} h.
Arguments h_size {Po T} h.
Arguments h_min {Po T} h.
Arguments h_indices {Po T} h.

Section Read.
(** Bytes obtained by reading [n] bytes from a stream with fewer bytes left: unspecified.
    [std::ifstream::read] then sets the fail bit and does not throw. *)
Variable junk : list Z -> nat -> list Z.

Definition get_bytes (n : nat) : reader (list Z) := fun s =>
  if (n <=? length s)%nat then (firstn n s, skipn n s) else (junk s n, []).
Definition get_int : reader Z := fun s => let (b, s') := get_bytes 4 s in (int_value b, s').
Definition get_size : reader Z := fun s => let (b, s') := get_bytes 8 s in (size_value b, s').
Definition get_coded {D : Type} (cd : codec D) : reader D := fun s =>
  let (b, s') := get_bytes (c_len cd) s in (c_read cd b, s').

(** [cslibs_math::serialization::array::binary<T,Dim>::read]. *)
Fixpoint get_array (get : reader Z) (n : nat) : reader (list Z) := fun s =>
  match n with
  | O => ([], s)
  | S n' => let (x, s1) := get s in let (l, s2) := get_array get n' s1 in (x :: l, s2)
  end.

(** storage.hpp:25-44: plain distributions. *)
Definition distribution_format {D : Type} (cd : codec D) : format D :=
  {| f_write := c_write cd; f_read := get_coded cd; f_count := c_count cd |}.

(** storage.hpp:46-66: occupancy distributions. [dflt] is the default-constructed distribution,
    [amount] is [getN()]. *)
Definition occupancy_format {D : Type} (cd : codec D) (dflt : D) (amount : D -> Z) : format (occ Z D) :=
  {| f_write := fun o => size_bytes (missed o) ++ c_write cd (match hits o with None => dflt | Some d => d end);
     f_read := fun s =>
       let (f, s1) := get_size s in
       let (tmp, s2) := get_coded cd s1 in
       (Build_occ f (if negb (amount tmp =? 0) then Some tmp else None), s2);
     f_count := 8 + c_count cd |}.

(** storage.hpp:68-90: weighted occupancy distributions. [samples] is [getSampleCount()]. *)
Definition weighted_format {T D : Type} (tp : codec T) (cd : codec D) (dflt : D) (samples : D -> Z) :
  format (occ T D) :=
  {| f_write := fun o => c_write tp (missed o) ++ c_write cd (match hits o with None => dflt | Some d => d end);
     f_read := fun s =>
       let (f, s1) := get_coded tp s in
       let (tmp, s2) := get_coded cd s1 in
       (Build_occ f (if 0 <? samples tmp then Some tmp else None), s2);
     f_count := 8 + c_count tp + c_count cd |}.

Section Storage.
Context {V : Type}.
Variable B : backend V.
Variable dim : nat.
Variable fmt : format V.

(** storage.hpp:109-114. *)
Definition record_bytes (e : idx * V) : list Z := flat_map int_bytes (fst e) ++ f_write fmt (snd e).
Definition storage_bytes (es : list (idx * V)) : list Z := flat_map record_bytes es.
(** storage.hpp:101-117 [binary::save]: the contents of the file; the file itself is written by the
    caller's model (FileModel.v). *)
Definition storage_save (s : st B) : outcome (list Z) :=
  let* es := btrav B s in Ok (storage_bytes es).

(** storage.hpp:148-158: the loop of [loadStorage]. Result: the storage and the unread bytes. The
    loop only fails to end if a record counts no bytes, then [fuel] runs out. *)
Fixpoint load_loop (fuel : nat) (size read : Z) (s : list Z) (acc : st B) : outcome (st B * list Z) :=
  if read <? size then
    match fuel with
    | O => UB
    | S fuel' =>
        let (i, s1) := get_array get_int dim s in
        let (d, s2) := f_read fmt s1 in
        let* acc' := bins B acc i d in
        load_loop fuel' size (read + Z.of_nat (4 * dim) + f_count fmt) s2 acc'
    end
  else Ok (acc, s).
(** storage.hpp:138-164 [loadStorage] into the empty storage [s0] of storage.hpp:119-135. *)
Definition storage_load (file : list Z) (s0 : st B) : outcome (st B * list Z) :=
  load_loop (length file) (Z.of_nat (length file)) 0 file s0.

End Storage.

Section Header.
Context {Po T : Type}.
Variable po : codec Po.
Variable tp : codec T.
Variable dim : nat.

Definition header_bytes (h : header Po T) : list Z :=
  c_write po (h_origin h) ++ c_write tp (h_resolution h) ++
  flat_map size_bytes (h_size h) ++ flat_map int_bytes (h_min h) ++
  flat_map (flat_map int_bytes) (h_indices h).

(** loader.hpp:249-253 and 339-343. *)
Fixpoint header_loop (fuel : nat) (size read : Z) (s : list Z) : outcome (list idx) :=
  if read <? size then
    match fuel with
    | O => UB
    | S fuel' =>
        let (i, s1) := get_array get_int dim s in
        let* l := header_loop fuel' size (read + Z.of_nat (4 * dim)) s1 in Ok (i :: l)
    end
  else Ok [].
(** loader.hpp:227-262 and 317-349 (without the maximum). *)
Definition header_load (file : list Z) : outcome (header Po T) :=
  let (origin, s1) := get_coded po file in
  let (resolution, s2) := get_coded tp s1 in
  let (size, s3) := get_array get_size dim s2 in
  let (min, s4) := get_array get_int dim s3 in
  let read := c_count po + c_count tp + Z.of_nat (8 * dim) + Z.of_nat (4 * dim) in
  let* l := header_loop (length file) (Z.of_nat (length file)) read s4 in
  Ok {| h_origin := origin; h_resolution := resolution; h_size := size; h_min := min; h_indices := l |}.

End Header.
End Read.

(** generic_map.hpp:278-284 [getSize] of a dynamic map: a difference of [int]s converted to
    [std::size_t]. *)
Fixpoint dynamic_size (min max : idx) : outcome (list Z) :=
  match min, max with
  | a :: min', b :: max' =>
      if int_ok (b - a) then let* l := dynamic_size min' max' in Ok ((b - a) mod 2 ^ 64 :: l) else UB
  | _, _ => Ok []
  end.
(** loader.hpp:351-353: [max_index[i] = min_index[i] + static_cast<int>(map_size[i])]. *)
Definition size_to_int (z : Z) : Z := (z + 2 ^ 31) mod 2 ^ 32 - 2 ^ 31.
Fixpoint dynamic_max (min : idx) (size : list Z) : outcome idx :=
  match min, size with
  | a :: min', n :: size' =>
      if int_ok (a + size_to_int n) then let* l := dynamic_max min' size' in Ok (a + size_to_int n :: l) else UB
  | _, _ => Ok []
  end.

(** loader.hpp:295-315 [header::save] of a dynamic map with index range [min], [max]. *)
Definition dynamic_header_bytes {Po T : Type} (po : codec Po) (tp : codec T) (origin : Po) (resolution : T)
  (min max : idx) (indices : list idx) : outcome (list Z) :=
  let* size := dynamic_size min max in
  Ok (header_bytes po tp {| h_origin := origin; h_resolution := resolution; h_size := size;
                            h_min := min; h_indices := indices |}).
(** loader.hpp:317-354 [header::load] of a dynamic map: origin, resolution, range and bundles. *)
Definition dynamic_header_load (junk : list Z -> nat -> list Z) {Po T : Type} (po : codec Po) (tp : codec T)
  (dim : nat) (file : list Z) : outcome (Po * T * (idx * idx) * list idx) :=
  let* h := header_load junk po tp dim file in
  let* max := dynamic_max (h_min h) (h_size h) in
  Ok (h_origin h, h_resolution h, (h_min h, max), h_indices h).

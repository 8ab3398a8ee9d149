(** Vocabulary of the serialization properties. *)
From Verif Require Import Base OctreeSpec MapModel InsertModel SerialModel.
Open Scope Z_scope.

(** What is assumed of the types written by cslibs_math: writing has a fixed length, reading it back
    gives the same value and reports that length. *)
Definition codec_ok {D : Type} (cd : codec D) : Prop :=
  (forall d, length (c_write cd d) = c_len cd) /\ (forall d, c_read cd (c_write cd d) = d) /\
  c_count cd = Z.of_nat (c_len cd).

(** Contents of a storage: a history of insertions and writes. *)
Definition storage_step {V : Type} (B : backend V) (s : st B) (o : map_op V) : outcome (st B) :=
  match o with Insert i v => bins B s i v | Write i f => bmod B s i f end.
Definition storage_run {V : Type} (B : backend V) (ops : list (map_op V)) (s : st B) : outcome (st B) :=
  ofold (storage_step B) ops s.

(** Occupancy distributions as the map makes them: a 64-bit counter, and hits only together with a
    statistics object that is not empty. *)
Definition storable {D : Type} (amount : D -> Z) (o : occ Z D) : Prop :=
  0 <= missed o < 2 ^ 64 /\ match hits o with Some d => amount d <> 0 | None => True end.
Definition weighted_storable {T D : Type} (samples : D -> Z) (o : occ T D) : Prop :=
  match hits o with Some d => 0 < samples d | None => True end.

(** Components of an index fit into an [int]. *)
Definition int_index (i : idx) : Prop := Forall (fun z => INT_MIN <= z <= INT_MAX) i.

(** Smallest [k] with [a <= k * b]. *)
Definition ceil_div (a b : nat) : nat := (a + b - 1) / b.

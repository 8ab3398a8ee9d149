(** What the memory reports should be, from the stored pairs alone. *)
From Verif Require Import Base.
Open Scope Z_scope.

(** The block of side [2^s] an index lies in. *)
Definition block (s : nat) (i : idx) : list Z := map (fun z => (z + 32768) / 2 ^ Z.of_nat s) i.

(** Number of different blocks of side [2^s] that contain one of the indices. *)
Definition blocks (s : nat) (keys : list idx) : Z :=
  Z.of_nat (length (nodup (list_eq_dec Z.eq_dec) (map (block s) keys))).

(** Occupied blocks of all sides [2^a] to [2^16]. *)
Definition blocks_from (a : nat) (keys : list idx) : Z :=
  fold_right Z.add 0 (map (fun s => blocks s keys) (seq a (17 - a))).

(** Size of a tree that owns one node for each occupied block, one array of [2^dims] pointers for
    each occupied block of side 2 or more, and one index and value for each stored pair. *)
Definition tree_cost (tree node ptr index : Z) (dims : nat) {V : Type} (vbytes : V -> Z)
  (es : list (idx * V)) : Z :=
  tree + node * blocks_from 0 (map fst es) + 2 ^ Z.of_nat dims * ptr * blocks_from 1 (map fst es)
  + fold_right Z.add 0 (map (fun e => index + vbytes (snd e)) es).

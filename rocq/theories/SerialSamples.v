(** Concrete data for the examples of the serialization properties. *)
From Coq Require Import Eqdep_dec.
From Verif Require Import Base OctreeSpec OctreeModel MapModel BackendModel InsertModel SerialModel SerialSpec SerialFacts.
Open Scope Z_scope.

(** An object representation of [n] bytes. *)
Definition word (n : nat) : Type := {z : Z | (0 <=? z) && (z <? 256 ^ Z.of_nat n) = true}.
Definition word_bits {n : nat} (w : word n) : Z := proj1_sig w.
Definition word_zero (n : nat) : word n.
Proof.
  exists 0. cbn [Z.leb Z.compare andb]. apply Z.ltb_lt, Z.pow_pos_nonneg; lia.
Defined.
Definition word_of (n : nat) (z : Z) : word n :=
  (if (0 <=? z) && (z <? 256 ^ Z.of_nat n) as b return (0 <=? z) && (z <? 256 ^ Z.of_nat n) = b -> word n
   then fun p => exist _ z p else fun _ => word_zero n) eq_refl.
Definition word_codec (n : nat) : codec (word n) :=
  {| c_len := n; c_write := fun w => le_bytes n (word_bits w); c_read := fun bs => word_of n (le_value bs);
     c_count := Z.of_nat n |}.

Lemma word_ext {n : nat} (a b : word n) : word_bits a = word_bits b -> a = b.
Proof.
  destruct a as [x p], b as [y q]. cbn. intros <-. f_equal. apply UIP_dec. decide equality.
Qed.
Lemma word_of_bits {n : nat} (w : word n) : word_of n (word_bits w) = w.
Proof.
  apply word_ext. destruct w as [z p]. cbn [word_bits proj1_sig]. unfold word_of.
  generalize (@eq_refl bool ((0 <=? z) && (z <? 256 ^ Z.of_nat n))) as e.
  generalize ((0 <=? z) && (z <? 256 ^ Z.of_nat n)) at 2 3 as b. intros [|] e; [reflexivity|]. rewrite p in e. discriminate.
Qed.
Lemma word_codec_ok (n : nat) : codec_ok (word_codec n).
Proof.
  split; [intros d; apply le_bytes_length|]. split; [|reflexivity]. intros d. cbn [word_codec c_read c_write].
  rewrite le_value_bytes. rewrite Z.mod_small; [apply word_of_bits|]. destruct d as [z p]. cbn.
  apply andb_prop in p. destruct p as [A B]. apply Z.leb_le in A. apply Z.ltb_lt in B. lia.
Qed.

(** The number of points is the first of the bytes. *)
Definition word_count {n : nat} (w : word n) : Z := word_bits w mod 256.
Definition no_junk (s : list Z) (n : nat) : list Z := repeat 0 n.

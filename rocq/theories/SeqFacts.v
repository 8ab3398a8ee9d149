From Verif Require Import Base SeqModel.
Open Scope nat_scope.

Lemma seq_shift_map (a n m : nat) : map (fun i => a + i) (seq m n) = seq (a + m) n.
Proof.
  revert m; induction n as [|n IH]; intros m; cbn [seq map]; [reflexivity|].
  f_equal. rewrite IH. f_equal. lia.
Qed.

Lemma maker_spec (fuel n : nat) : n < fuel -> integer_sequence_maker fuel n = Some (seq 0 n).
Proof.
  revert n; induction fuel as [|fuel IH]; intros n Hn; [lia|].
  cbn [integer_sequence_maker].
  destruct n as [|[|n]]; [reflexivity|reflexivity|].
  rewrite Nat.shiftr_div_pow2. change (2 ^ 1) with 2.
  assert (Hh : S (S n) / 2 < S (S n)) by (apply Nat.div_lt; lia).
  assert (Hp : 0 < S (S n) / 2) by (apply Nat.div_str_pos; lia).
  rewrite IH by lia. rewrite IH by lia.
  unfold merge_and_renumber. rewrite seq_length, seq_shift_map, Nat.add_0_r, <- seq_app.
  f_equal; f_equal; lia.
Qed.

Lemma make_integer_sequence_spec (n : nat) : make_integer_sequence n = seq 0 n.
Proof. unfold make_integer_sequence. rewrite maker_spec by lia. reflexivity. Qed.

Lemma for_each_spec (from fuel : nat) : for_each_from from fuel = seq from fuel.
Proof. revert from; induction fuel as [|f IH]; intros from; cbn [for_each_from seq]; congruence. Qed.

Lemma for_each_args_spec (n : nat) : for_each_args n = seq 0 n.
Proof. apply for_each_spec. Qed.

Lemma merge_and_true (l : list bool) : merge_and l = true <-> (forall b, In b l -> b = true).
Proof.
  unfold merge_and; induction l as [|v l IH]; cbn [merge In]; [split; [intros _ b []|reflexivity]|].
  rewrite andb_true_iff, IH. split.
  - intros [Hv H] b [<-|Hb]; [exact Hv|exact (H b Hb)].
  - intros H. split; [apply H; left; reflexivity|intros b Hb; apply H; right; exact Hb].
Qed.

Lemma merge_or_true (l : list bool) : merge_or l = true <-> In true l.
Proof.
  unfold merge_or; induction l as [|v l IH]; cbn [merge In]; [intuition congruence|].
  rewrite orb_true_iff, IH. intuition congruence.
Qed.

Lemma to_array_nth {T : Type} (n : nat) (f : nat -> T) (d : nat) (z : T) :
  d < n -> nth d (to_array n f) z = f d.
Proof.
  intros Hd. unfold to_array. rewrite make_integer_sequence_spec.
  rewrite (nth_indep _ z (f 0)) by (rewrite map_length, seq_length; exact Hd).
  rewrite map_nth, seq_nth by exact Hd. reflexivity.
Qed.

Lemma to_array_length {T : Type} (n : nat) (f : nat -> T) : length (to_array n f) = n.
Proof. unfold to_array. rewrite map_length, make_integer_sequence_spec. apply seq_length. Qed.

Lemma to_point_pad_nth {T : Type} (z : T) (n : nat) (p : list T) (d : nat) :
  d < n -> nth d (to_point_pad z n p) z = nth d p z.
Proof.
  intros Hd. unfold to_point_pad.
  change (nth d (to_array n (fun c => if length p <=? c then z else nth c p z)) z = nth d p z).
  rewrite to_array_nth by exact Hd.
  destruct (Nat.leb_spec (length p) d) as [H|H]; [|reflexivity].
  symmetry; apply nth_overflow; exact H.
Qed.

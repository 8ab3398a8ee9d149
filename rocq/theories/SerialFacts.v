(** Facts about the binary files. *)
From Coq Require Import Sorted.
From Verif Require Import Base SeqModel SeqFacts IndexModel IndexFacts OctreeSpec OctreeModel OctreeFacts
  OctreeHist MapModel MapFacts BackendModel BackendFacts InsertModel SerialModel SerialSpec.
Open Scope Z_scope.

(** ** Bytes *)
Lemma le_bytes_length (n : nat) (z : Z) : length (le_bytes n z) = n.
Proof. revert z; induction n; intros z; cbn; [reflexivity|rewrite IHn; reflexivity]. Qed.

Lemma le_value_bytes (n : nat) (z : Z) : le_value (le_bytes n z) = z mod 256 ^ Z.of_nat n.
Proof.
  revert z; induction n as [|n IH]; intros z; cbn [le_bytes le_value].
  - cbn. rewrite Z.mod_1_r. reflexivity.
  - rewrite IH, Nat2Z.inj_succ, Z.pow_succ_r by lia.
    rewrite Z.rem_mul_r by lia. lia.
Qed.

Lemma int_value_bytes (z : Z) : int_ok z = true -> int_value (int_bytes z) = z.
Proof.
  intros H. unfold int_value, int_bytes. rewrite le_value_bytes. cbn [Z.of_nat Pos.of_succ_nat Pos.succ].
  change (256 ^ 4) with (2 ^ 32). unfold int_ok, INT_MIN, INT_MAX in H.
  apply andb_prop in H. destruct H as [A B]. apply Z.leb_le in A, B.
  destruct (Z_lt_dec z 0) as [Hn|Hn].
  - replace (z mod 2 ^ 32) with (z + 2 ^ 32) by (Z.div_mod_to_equations; lia).
    destruct (Z.ltb_spec (z + 2 ^ 32) (2 ^ 31)); lia.
  - rewrite Z.mod_small by lia. destruct (Z.ltb_spec z (2 ^ 31)); lia.
Qed.

Lemma size_value_bytes (z : Z) : 0 <= z < 2 ^ 64 -> size_value (size_bytes z) = z.
Proof.
  intros H. unfold size_value, size_bytes. rewrite le_value_bytes. apply Z.mod_small.
  change (256 ^ Z.of_nat 8) with (2 ^ 64). exact H.
Qed.

Lemma dynamic_size_max (min max : idx) :
  length min = length max -> Forall (fun z => int_ok z = true) max ->
  (forall d, (d < length min)%nat -> int_ok (nth d max 0 - nth d min 0) = true) ->
  exists size, dynamic_size min max = Ok size /\ length size = length min /\
    Forall (fun z => 0 <= z < 2 ^ 64) size /\ dynamic_max min size = Ok max.
Proof.
  revert max; induction min as [|a min IH]; intros [|b max] HL Hm Hd; try discriminate.
  - exists []. repeat split; constructor.
  - inversion Hm as [|? ? Hb Hm']; subst.
    destruct (IH max ltac:(cbn in HL; lia) Hm') as [size [E [L [F M]]]].
    { intros d Hlt. apply (Hd (S d)). cbn; lia. }
    pose proof (Hd 0%nat ltac:(cbn; lia)) as H0. cbn [nth] in H0.
    exists ((b - a) mod 2 ^ 64 :: size). cbn [dynamic_size dynamic_max]. rewrite H0, E. cbn [obind].
    split; [reflexivity|]. split; [cbn; congruence|].
    split; [constructor; [apply Z.mod_pos_bound; lia|exact F]|].
    assert (Hs : a + size_to_int ((b - a) mod 2 ^ 64) = b).
    { unfold size_to_int, int_ok, INT_MIN, INT_MAX in *. apply andb_prop in H0. destruct H0 as [A C]. apply Z.leb_le in A, C.
      destruct (Z_lt_dec (b - a) 0) as [Hn|Hn].
      - replace ((b - a) mod 2 ^ 64) with (b - a + 2 ^ 64) by (Z.div_mod_to_equations; lia).
        replace (b - a + 2 ^ 64 + 2 ^ 31) with (b - a + 2 ^ 31 + 2 ^ 32 * 2 ^ 32) by lia.
        rewrite Z.mod_add, Z.mod_small by lia. lia.
      - rewrite (Z.mod_small (b - a)) by lia. rewrite Z.mod_small by lia. lia. }
    rewrite Hs, Hb, M. reflexivity.
Qed.

Section Read.
Variable junk : list Z -> nat -> list Z.

Lemma get_bytes_app (a r : list Z) : get_bytes junk (length a) (a ++ r) = (a, r).
Proof.
  unfold get_bytes. rewrite app_length. destruct (Nat.leb_spec (length a) (length a + length r)); [|lia].
  rewrite firstn_app, Nat.sub_diag, firstn_all, firstn_O, app_nil_r, skipn_app, Nat.sub_diag, skipn_all. reflexivity.
Qed.

Lemma get_bytes_app_n (n : nat) (a r : list Z) : length a = n -> get_bytes junk n (a ++ r) = (a, r).
Proof. intros <-. apply get_bytes_app. Qed.

Lemma get_int_app (z : Z) (r : list Z) : int_ok z = true -> get_int junk (int_bytes z ++ r) = (z, r).
Proof.
  intros H. unfold get_int. rewrite get_bytes_app_n by apply le_bytes_length. rewrite int_value_bytes by exact H. reflexivity.
Qed.

Lemma get_size_app (z : Z) (r : list Z) : 0 <= z < 2 ^ 64 -> get_size junk (size_bytes z ++ r) = (z, r).
Proof.
  intros H. unfold get_size. rewrite get_bytes_app_n by apply le_bytes_length. rewrite size_value_bytes by exact H. reflexivity.
Qed.

Lemma get_coded_app {D : Type} (cd : codec D) (d : D) (r : list Z) :
  codec_ok cd -> get_coded junk cd (c_write cd d ++ r) = (d, r).
Proof.
  intros [Hl [Hr _]]. unfold get_coded. rewrite get_bytes_app_n by apply Hl. rewrite Hr. reflexivity.
Qed.

Lemma get_array_app (enc : Z -> list Z) (get : reader Z) (ok : Z -> Prop) :
  (forall z r, ok z -> get (enc z ++ r) = (z, r)) ->
  forall l r, Forall ok l -> get_array get (length l) (flat_map enc l ++ r) = (l, r).
Proof.
  intros Hg l r H. induction H as [|z l Hz Hl IH]; cbn [length flat_map get_array]; [reflexivity|].
  rewrite <- app_assoc, (Hg z _ Hz). rewrite IH. reflexivity.
Qed.

Lemma get_ints_app (l r : list Z) (n : nat) : length l = n -> Forall (fun z => int_ok z = true) l ->
  get_array (get_int junk) n (flat_map int_bytes l ++ r) = (l, r).
Proof. intros <- H. apply (get_array_app int_bytes _ (fun z => int_ok z = true)); [apply get_int_app|exact H]. Qed.

Lemma get_sizes_app (l r : list Z) (n : nat) : length l = n -> Forall (fun z => 0 <= z < 2 ^ 64) l ->
  get_array (get_size junk) n (flat_map size_bytes l ++ r) = (l, r).
Proof. intros <- H. apply (get_array_app size_bytes _ (fun z => 0 <= z < 2 ^ 64)); [apply get_size_app|exact H]. Qed.

Lemma flat_map_length_const {A : Type} (f : A -> list Z) (n : nat) (l : list A) :
  (forall x, In x l -> length (f x) = n) -> length (flat_map f l) = (length l * n)%nat.
Proof.
  induction l as [|x l IH]; intros H; cbn [flat_map length]; [reflexivity|].
  rewrite app_length, IH by (intros; apply H; right; assumption). rewrite (H x) by (left; reflexivity). lia.
Qed.

Lemma ints_length (l : list Z) : length (flat_map int_bytes l) = (4 * length l)%nat.
Proof. rewrite (flat_map_length_const _ 4) by (intros; apply le_bytes_length). lia. Qed.

(** ** One record *)
(** A format reads back what it wrote, for the values [ok]. *)
Definition format_ok {V : Type} (fmt : format V) (ok : V -> Prop) (len : nat) : Prop :=
  forall v, ok v -> length (f_write fmt v) = len /\ forall r, f_read fmt (f_write fmt v ++ r) = (v, r).

Lemma distribution_format_ok {D : Type} (cd : codec D) :
  codec_ok cd -> format_ok (distribution_format junk cd) (fun _ => True) (c_len cd).
Proof. intros H v _. split; [apply H|]. intros r. cbn. apply get_coded_app; exact H. Qed.

Lemma occupancy_format_ok {D : Type} (cd : codec D) (dflt : D) (amount : D -> Z) :
  codec_ok cd -> amount dflt = 0 ->
  format_ok (occupancy_format junk cd dflt amount) (storable amount) (8 + c_len cd).
Proof.
  intros H H0 v [Hm Hh]. cbn [occupancy_format f_write f_read]. split.
  - rewrite app_length. unfold size_bytes. rewrite le_bytes_length. f_equal. apply H.
  - intros r. rewrite <- app_assoc, get_size_app by exact Hm. rewrite get_coded_app by exact H.
    destruct v as [f [d|]]; cbn [hits missed] in *; f_equal; f_equal.
    + destruct (Z.eqb_spec (amount d) 0); [contradiction|reflexivity].
    + rewrite H0. reflexivity.
Qed.

Lemma weighted_format_ok {T D : Type} (tp : codec T) (cd : codec D) (dflt : D) (samples : D -> Z) :
  codec_ok tp -> codec_ok cd -> samples dflt = 0 ->
  format_ok (weighted_format junk tp cd dflt samples) (weighted_storable samples) (c_len tp + c_len cd).
Proof.
  intros Ht H H0 v Hh. cbn [weighted_format f_write f_read]. unfold weighted_storable in Hh. split.
  - rewrite app_length. destruct Ht as [Ht _], H as [H _]. rewrite Ht, H. reflexivity.
  - intros r. rewrite <- app_assoc, get_coded_app by exact Ht. rewrite get_coded_app by exact H.
    destruct v as [f [d|]]; cbn [hits missed] in *; f_equal; f_equal.
    + destruct (Z.ltb_spec 0 (samples d)); [reflexivity|lia].
    + rewrite H0. reflexivity.
Qed.

(** ** Storages *)
Section Storage.
Context {V : Type}.
Variable merge : V -> V -> V.
Variable B : backend V.
Variable lw : blaws merge B.
Variable dim : nat.
Variable fmt : format V.
Variable ok : V -> Prop.
Variable len : nat.
Hypothesis Hfmt : format_ok fmt ok len.

Definition good_record (e : idx * V) : Prop :=
  length (fst e) = dim /\ Forall (fun z => int_ok z = true) (fst e) /\ ok (snd e).

Lemma record_length (e : idx * V) : good_record e -> length (record_bytes fmt e) = (4 * dim + len)%nat.
Proof.
  intros [A [_ C]]. unfold record_bytes. rewrite app_length, ints_length, A. f_equal. apply (Hfmt _ C).
Qed.

Lemma storage_length (es : list (idx * V)) :
  Forall good_record es -> length (storage_bytes fmt es) = (length es * (4 * dim + len))%nat.
Proof.
  intros H. unfold storage_bytes. apply flat_map_length_const. intros e He. rewrite Forall_forall in H.
  apply record_length. apply H. exact He.
Qed.

Notation insert_all := (ofold (fun s (e : idx * V) => bins B s (fst e) (snd e))).
Notation step := (Z.of_nat (4 * dim) + f_count fmt).

Lemma load_loop_records (size : Z) (es : list (idx * V)) :
  Forall good_record es ->
  forall fuel read rest acc,
    (forall j, 0 <= j < Z.of_nat (length es) -> read + j * step < size) ->
    load_loop junk B dim fmt (length es + fuel) size read (storage_bytes fmt es ++ rest) acc =
    let* s := insert_all es acc in
    load_loop junk B dim fmt fuel size (read + Z.of_nat (length es) * step) rest s.
Proof.
  intros H. induction H as [|e es He Hes IH]; intros fuel read rest acc Hs.
  - cbn [length storage_bytes flat_map app ofold obind Nat.add]. f_equal. lia.
  - cbn [length Nat.add load_loop].
    assert (H0 : read < size) by (specialize (Hs 0 ltac:(cbn [length]; lia)); lia).
    destruct (Z.ltb_spec read size); [|lia].
    cbn [storage_bytes flat_map]. fold (storage_bytes fmt es). unfold record_bytes at 1.
    destruct He as [A [Bi C]]. rewrite <- !app_assoc, (get_ints_app _ _ _ A Bi).
    destruct (Hfmt _ C) as [_ Hr]. rewrite Hr. cbn [ofold].
    destruct (bins B acc (fst e) (snd e)) as [s'| |]; cbn [obind]; try reflexivity.
    rewrite IH.
    + destruct (ofold _ es s') as [s''| |]; cbn [obind]; try reflexivity.
      f_equal. lia.
    + intros j Hj. specialize (Hs (j + 1) ltac:(cbn [length]; lia)). lia.
Qed.

Lemma load_loop_end (fuel : nat) (size read : Z) (s : list Z) (acc : st B) :
  size <= read -> load_loop junk B dim fmt fuel size read s acc = Ok (acc, s).
Proof. intros H. destruct fuel; cbn [load_loop]; destruct (Z.ltb_spec read size); lia || reflexivity. Qed.

(** The load of a file made of good records reads exactly the first [n] of them, [n] being where the
    byte count passes the size. *)
Lemma storage_load_prefix (es1 es2 : list (idx * V)) (s0 : st B) :
  Forall good_record (es1 ++ es2) ->
  let size := Z.of_nat (length (storage_bytes fmt (es1 ++ es2))) in
  (0 < 4 * dim + len)%nat ->
  (forall j, 0 <= j < Z.of_nat (length es1) -> j * step < size) ->
  size <= Z.of_nat (length es1) * step ->
  storage_load junk B dim fmt (storage_bytes fmt (es1 ++ es2)) s0 =
  let* s := insert_all es1 s0 in Ok (s, storage_bytes fmt es2).
Proof.
  intros H size Hpos Hlt Hge. pose proof H as Hall. apply Forall_app in H. destruct H as [H1 H2].
  unfold storage_load. fold size.
  assert (Hlen : length (storage_bytes fmt (es1 ++ es2)) = (length es1 + (length (storage_bytes fmt (es1 ++ es2)) - length es1))%nat).
  { rewrite storage_length by exact Hall. rewrite app_length. nia. }
  rewrite Hlen at 1. unfold storage_bytes at 2. rewrite flat_map_app. fold (storage_bytes fmt es1) (storage_bytes fmt es2).
  rewrite load_loop_records; [|exact H1|intros j Hj; rewrite Z.add_0_l; apply Hlt; exact Hj].
  destruct (ofold _ es1 s0); cbn [obind]; [|reflexivity|reflexivity].
  rewrite load_loop_end; [reflexivity|]. lia.
Qed.

(** Inserting distinct records into an empty storage. *)
Lemma insert_all_spec (es : list (idx * V)) : forall s0 : st B,
  bwf lw s0 -> NoDup (map fst es) -> Forall (fun e => dom lw (shape lw s0) (fst e)) es ->
  (forall i, In i (map fst es) -> bget B s0 i = Ok None) ->
  exists s, insert_all es s0 = Ok s /\ bwf lw s /\ shape lw s = shape lw s0 /\
    forall j, dom lw (shape lw s0) j -> bget B s j = match assoc es j with Some v => Ok (Some v) | None => bget B s0 j end.
Proof.
  induction es as [|[i v] es IH]; intros s0 Hw Hn Hd H0.
  - exists s0. split; [reflexivity|]. auto.
  - cbn [map fst] in Hn. inversion Hn as [|? ? Hni Hn']; subst. inversion Hd as [|? ? Hdi Hd']; subst. cbn [fst] in Hdi.
    destruct (l_ins lw s0 i v None Hw Hdi (H0 i (or_introl eq_refl))) as [s1 [E1 [W1 [S1 G1]]]].
    destruct (IH s1 W1 Hn') as [s [E [W [S G]]]].
    + rewrite S1. exact Hd'.
    + intros j Hj. rewrite G1.
      * destruct (idx_eqb_spec i j) as [->|]; [contradiction|]. apply H0. right; exact Hj.
      * rewrite Forall_forall in Hd'. apply in_map_iff in Hj. destruct Hj as [e [<- He]]. apply Hd'; exact He.
    + exists s. cbn [ofold fst snd]. rewrite E1. cbn [obind]. split; [exact E|]. split; [exact W|]. split; [congruence|].
      rewrite S1 in G. intros j Hj. rewrite (G j Hj). cbn [assoc]. rewrite (G1 j Hj).
      destruct (idx_eqb_spec i j) as [->|Hne]; [|reflexivity].
      destruct (assoc es j) eqn:Ea; [|reflexivity]. exfalso. apply Hni.
      apply (assoc_in es) in Ea; [|exact Hn']. apply in_map_iff. exists (j, v0). auto.
Qed.

(** A storage written and read back completely. *)
Lemma storage_round_trip (s s0 : st B) :
  bwf lw s -> bwf lw s0 -> shape lw s0 = shape lw s ->
  (forall i, dom lw (shape lw s0) i -> bget B s0 i = Ok None) ->
  (forall i, dom lw (shape lw s) i -> length i = dim /\ Forall (fun z => int_ok z = true) i) ->
  (forall i v, dom lw (shape lw s) i -> bget B s i = Ok (Some v) -> ok v) ->
  f_count fmt = Z.of_nat len -> (0 < 4 * dim + len)%nat ->
  exists es file s', btrav B s = Ok es /\ storage_save B fmt s = Ok file /\
    length file = (length es * (4 * dim + len))%nat /\
    storage_load junk B dim fmt file s0 = Ok (s', []) /\ bwf lw s' /\ shape lw s' = shape lw s /\
    (forall i, dom lw (shape lw s) i -> bget B s' i = bget B s i).
Proof.
  intros Hw Hw0 Hsh Hempty Hidx Hok Hcount Hpos.
  destruct (l_trav lw s Hw) as [es [Et [Hn Hin]]].
  assert (Hgood : Forall good_record es).
  { apply Forall_forall. intros [i v] He. apply Hin in He. destruct He as [A Bg].
    destruct (Hidx i A) as [C D]. split; [exact C|]. split; [exact D|]. apply (Hok i v A Bg). }
  destruct (insert_all_spec es s0 Hw0 Hn) as [s' [E [W [S G]]]].
  { apply Forall_forall. intros [i v] He. apply Hin in He. rewrite Hsh. apply He. }
  { intros i Hi. apply Hempty. apply in_map_iff in Hi. destruct Hi as [[i' v] [<- He]]. apply Hin in He. rewrite Hsh. apply He. }
  exists es, (storage_bytes fmt es), s'. split; [exact Et|].
  split; [unfold storage_save; rewrite Et; reflexivity|].
  split; [apply storage_length; exact Hgood|].
  split; [|split; [exact W|split; [congruence|]]].
  - rewrite <- (app_nil_r es) at 1. rewrite storage_load_prefix.
    + rewrite E. reflexivity.
    + rewrite app_nil_r. exact Hgood.
    + exact Hpos.
    + intros j Hj. rewrite app_nil_r, storage_length by exact Hgood. nia.
    + rewrite app_nil_r, storage_length by exact Hgood. nia.
  - intros i Hi. rewrite (G i) by (rewrite Hsh; exact Hi).
    destruct (l_get lw s i Hw Hi) as [o Ho]. rewrite Ho. destruct o as [v|].
    + assert (Ha : assoc es i = Some v) by (apply assoc_in; [exact Hn|]; apply Hin; auto). rewrite Ha. reflexivity.
    + destruct (assoc es i) as [v|] eqn:Ea; [|apply Hempty; rewrite Hsh; exact Hi].
      apply assoc_in in Ea; [|exact Hn]. apply Hin in Ea. destruct Ea; congruence.
Qed.

(** A file of good records cut after [k] of them: exactly these are loaded. *)
Lemma storage_cut (es : list (idx * V)) (s0 : st B) (k : nat) :
  Forall good_record es -> (k <= length es)%nat -> f_count fmt = Z.of_nat len -> (0 < 4 * dim + len)%nat ->
  firstn (k * (4 * dim + len)) (storage_bytes fmt es) = storage_bytes fmt (firstn k es) /\
  storage_load junk B dim fmt (storage_bytes fmt (firstn k es)) s0 =
  let* s := insert_all (firstn k es) s0 in Ok (s, []).
Proof.
  intros Hgood Hk Hcount Hpos.
  assert (H1 : Forall good_record (firstn k es)) by (rewrite <- (firstn_skipn k es) in Hgood; apply Forall_app in Hgood; apply Hgood).
  split.
  - rewrite <- (firstn_skipn k es) at 1. unfold storage_bytes. rewrite flat_map_app. fold (storage_bytes fmt (firstn k es)).
    assert (HL : length (storage_bytes fmt (firstn k es)) = (k * (4 * dim + len))%nat).
    { rewrite storage_length by exact H1. rewrite firstn_length_le by exact Hk. reflexivity. }
    rewrite <- HL, firstn_app, Nat.sub_diag, firstn_all, firstn_O, app_nil_r. reflexivity.
  - rewrite <- (app_nil_r (firstn k es)) at 1. rewrite storage_load_prefix.
    + destruct (ofold _ (firstn k es) s0); reflexivity.
    + rewrite app_nil_r. exact H1.
    + exact Hpos.
    + intros j Hj. rewrite app_nil_r, storage_length by exact H1. nia.
    + rewrite app_nil_r, storage_length by exact H1. nia.
Qed.

(** [read] reports [extra] bytes too many for each record. *)
Lemma storage_overcount (es : list (idx * V)) (s0 : st B) (extra : nat) :
  Forall good_record es -> f_count fmt = Z.of_nat (len + extra) -> (0 < 4 * dim + len)%nat ->
  let k := ceil_div (length es * (4 * dim + len)) (4 * dim + len + extra) in
  (k <= length es)%nat /\
  storage_load junk B dim fmt (storage_bytes fmt es) s0 =
  let* s := insert_all (firstn k es) s0 in Ok (s, storage_bytes fmt (skipn k es)).
Proof.
  intros Hgood Hcount Hpos k.
  set (n := length es) in *. set (R := (4 * dim + len)%nat) in *.
  assert (Hk1 : (n * R <= k * (R + extra))%nat).
  { unfold k, ceil_div. pose proof (Nat.div_mod (n * R + (R + extra) - 1) (R + extra) ltac:(lia)) as E.
    pose proof (Nat.mod_upper_bound (n * R + (R + extra) - 1) (R + extra) ltac:(lia)). nia. }
  assert (Hk2 : forall j, (j < k)%nat -> (j * (R + extra) < n * R)%nat).
  { intros j Hj. unfold k, ceil_div in Hj.
    assert (Hj' : (S j <= (n * R + (R + extra) - 1) / (R + extra))%nat) by exact Hj.
    apply (Nat.mul_le_mono_l _ _ (R + extra)) in Hj'.
    pose proof (Nat.mul_div_le (n * R + (R + extra) - 1) (R + extra) ltac:(lia)). nia. }
  assert (Hkn : (k <= n)%nat).
  { destruct (le_lt_dec k n) as [H|H]; [exact H|]. specialize (Hk2 n H). nia. }
  split; [exact Hkn|].
  rewrite <- (firstn_skipn k es) at 1. rewrite storage_load_prefix.
  - reflexivity.
  - rewrite firstn_skipn. exact Hgood.
  - exact Hpos.
  - intros j Hj. rewrite firstn_skipn, storage_length by exact Hgood. fold n R.
    rewrite firstn_length_le in Hj by exact Hkn. specialize (Hk2 (Z.to_nat j) ltac:(lia)).
    rewrite Hcount. nia.
  - rewrite firstn_skipn, storage_length by exact Hgood. fold n R. rewrite firstn_length_le by exact Hkn.
    rewrite Hcount. nia.
Qed.

End Storage.

(** ** Headers *)
Section Header.
Context {Po T : Type}.
Variable po : codec Po.
Variable tp : codec T.
Variable dim : nat.
Hypothesis Hpo : codec_ok po.
Hypothesis Htp : codec_ok tp.

Definition int_list (l : idx) : Prop := length l = dim /\ Forall (fun z => int_ok z = true) l.

Lemma header_loop_all (indices : list idx) :
  Forall int_list indices -> (0 < dim)%nat -> forall fuel size read,
  size = read + Z.of_nat (length indices * (4 * dim)) ->
  header_loop junk dim (length indices + fuel) size read (flat_map (flat_map int_bytes) indices) = Ok indices.
Proof.
  intros H Hd. induction H as [|i l [A C] Hl IH]; intros fuel size read Hs.
  - cbn [length Nat.add Nat.mul] in *. destruct fuel; cbn [header_loop]; destruct (Z.ltb_spec read size); lia || reflexivity.
  - cbn [length Nat.add header_loop flat_map]. destruct (Z.ltb_spec read size); [|cbn [length] in Hs; lia].
    rewrite (get_ints_app _ _ _ A C). rewrite IH; [reflexivity|]. cbn [length] in Hs. lia.
Qed.

Lemma header_round_trip (h : header Po T) :
  (0 < dim)%nat -> length (h_size h) = dim -> Forall (fun z => 0 <= z < 2 ^ 64) (h_size h) ->
  int_list (h_min h) -> Forall int_list (h_indices h) ->
  header_load junk po tp dim (header_bytes po tp h) = Ok h.
Proof.
  intros Hd HLs Hs [HLm Hm] Hi. unfold header_load.
  assert (Hlen : length (header_bytes po tp h) =
            (c_len po + c_len tp + 8 * dim + 4 * dim + length (h_indices h) * (4 * dim))%nat).
  { unfold header_bytes. rewrite !app_length. destruct Hpo as [Lp _], Htp as [Lt _]. rewrite Lp, Lt, ints_length.
    rewrite (flat_map_length_const size_bytes 8) by (intros; apply le_bytes_length).
    rewrite (flat_map_length_const (flat_map int_bytes) (4 * dim)); [rewrite HLs, HLm; change (@length (list Z) (h_indices h)) with (@length idx (h_indices h)); lia|].
    intros x Hx. rewrite Forall_forall in Hi. destruct (Hi x Hx) as [Lx _]. rewrite ints_length. lia. }
  assert (Hfuel : length (header_bytes po tp h) = (length (h_indices h) + (length (header_bytes po tp h) - length (h_indices h)))%nat) by nia.
  unfold header_bytes at 1. rewrite (get_coded_app po _ _ Hpo), (get_coded_app tp _ _ Htp).
  rewrite (get_sizes_app _ _ _ HLs Hs), (get_ints_app _ _ _ HLm Hm).
  rewrite Hfuel, header_loop_all; [|exact Hi|exact Hd|].
  - cbn [obind]. destruct h; reflexivity.
  - rewrite <- Hfuel, Hlen. destruct Hpo as [_ [_ ->]], Htp as [_ [_ ->]]. lia.
Qed.

(** The header cut after [k] of its bundle indices. *)
Lemma header_cut (h : header Po T) (k : nat) :
  (0 < dim)%nat -> length (h_size h) = dim -> length (h_min h) = dim ->
  Forall int_list (h_indices h) -> (k <= length (h_indices h))%nat ->
  firstn (c_len po + c_len tp + 12 * dim + k * (4 * dim)) (header_bytes po tp h) =
  header_bytes po tp {| h_origin := h_origin h; h_resolution := h_resolution h; h_size := h_size h;
                        h_min := h_min h; h_indices := firstn k (h_indices h) |}.
Proof.
  intros Hd HLs HLm Hi Hk. unfold header_bytes. cbn [h_origin h_resolution h_size h_min h_indices].
  rewrite <- (firstn_skipn k (h_indices h)) at 1. rewrite flat_map_app, !app_assoc.
  set (p := (((c_write po (h_origin h) ++ c_write tp (h_resolution h)) ++ flat_map size_bytes (h_size h)) ++
              flat_map int_bytes (h_min h)) ++ flat_map (flat_map int_bytes) (firstn k (h_indices h))).
  assert (HL : length p = (c_len po + c_len tp + 12 * dim + k * (4 * dim))%nat).
  { unfold p. rewrite !app_length. destruct Hpo as [Lp _], Htp as [Lt _]. rewrite Lp, Lt, ints_length.
    rewrite (flat_map_length_const size_bytes 8) by (intros; apply le_bytes_length).
    rewrite (flat_map_length_const (flat_map int_bytes) (4 * dim)).
    - rewrite firstn_length_le by exact Hk. lia.
    - intros x Hx. rewrite Forall_forall in Hi.
      assert (In x (h_indices h)) by (rewrite <- (firstn_skipn k (h_indices h)); apply in_or_app; left; exact Hx).
      destruct (Hi x H) as [Lx _]. rewrite ints_length. lia. }
  rewrite <- HL, firstn_app, Nat.sub_diag, firstn_all, firstn_O, app_nil_r. reflexivity.
Qed.

Lemma dynamic_header_trip (origin : Po) (resolution : T) (min max : idx) (indices : list idx) :
  (0 < dim)%nat -> int_list min -> int_list max ->
  (forall d, (d < dim)%nat -> int_ok (nth d max 0 - nth d min 0) = true) -> Forall int_list indices ->
  exists file, dynamic_header_bytes po tp origin resolution min max indices = Ok file /\
    dynamic_header_load junk po tp dim file = Ok (origin, resolution, (min, max), indices).
Proof.
  intros Hd Hmin Hmax Hr Hi. destruct Hmin as [Lmin Fmin], Hmax as [Lmax Fmax].
  destruct (dynamic_size_max min max ltac:(congruence) Fmax) as [size [E [L [F M]]]].
  { rewrite Lmin. exact Hr. }
  unfold dynamic_header_bytes, dynamic_header_load. rewrite E. cbn [obind]. eexists. split; [reflexivity|].
  rewrite header_round_trip; cbn [h_origin h_resolution h_size h_min h_indices obind]; auto; try congruence.
  - rewrite M. reflexivity.
  - split; assumption.
Qed.
End Header.
End Read.

(** ** The two storages *)
Lemma int_index_ok (i : idx) : int_index i <-> Forall (fun z => int_ok z = true) i.
Proof.
  unfold int_index, int_ok. split; apply Forall_impl; intros z H.
  - apply andb_true_intro. split; apply Z.leb_le; lia.
  - apply andb_prop in H. destruct H as [A B]. apply Z.leb_le in A, B. lia.
Qed.

Lemma tree_range_int (dims : nat) (i : idx) : in_tree_range dims i -> length i = dims /\ Forall (fun z => int_ok z = true) i.
Proof.
  intros [L R]. split; [exact L|]. apply int_index_ok. revert R. apply Forall_impl. unfold INT_MIN, INT_MAX. intros; lia.
Qed.

Lemma octree_run_same {V : Type} (merge : V -> V -> V) (dims : nat) (ops : list (map_op V)) (t : octree V) :
  storage_run (octree_backend merge dims) ops t = octree_run merge dims ops t.
Proof. reflexivity. Qed.

Lemma octree_run_wf {V : Type} (merge : V -> V -> V) (dims : nat) (ops : list (map_op V)) (g : Z) (t : octree V) :
  Forall (fun o => in_tree_range dims (op_index o)) ops ->
  storage_run (octree_backend merge dims) ops (octree_new g) = Ok t -> oct_wf dims t.
Proof.
  intros H E. rewrite octree_run_same in E.
  pose proof (rep_run merge dims (in_tree_range dims) ops (octree_new g) abs_empty (rep_new _ _ g)) as R.
  destruct (ofold (abs_step merge) (map wrap_op ops) abs_empty) as [m| |].
  - destruct R as [t' [E' [W _]]].
    + revert H. apply Forall_impl. intros o Ho. split; [apply in_range_computable|]; exact Ho.
    + rewrite E in E'. injection E' as <-. exact W.
  - rewrite R in E; [discriminate|]. revert H. apply Forall_impl. intros o Ho. split; [apply in_range_computable|]; exact Ho.
  - destruct R. revert H. apply Forall_impl. intros o Ho. split; [apply in_range_computable|]; exact Ho.
Qed.

Lemma array_run_wf {V : Type} (merge : V -> V -> V) (ops : list (map_op V)) : forall (s s' : arr V),
  arr_wf s -> storage_run (array_backend merge) ops s = Ok s' ->
  arr_wf s' /\ a_size s' = a_size s /\ a_offset s' = a_offset s.
Proof.
  unfold storage_run. induction ops as [|o ops IH]; intros s s' Hw E; cbn [ofold] in E; [injection E as <-; auto|].
  assert (Hstep : forall s1, storage_step (array_backend merge) s o = Ok s1 ->
            arr_wf s1 /\ a_size s1 = a_size s /\ a_offset s1 = a_offset s).
  { intros s1 E1. destruct o as [i v|i f]; cbn [storage_step array_backend bins bmod] in E1;
      destruct (arr_inside (a_size s) (a_offset s) i) eqn:Ei; try discriminate.
    - injection E1 as <-. split; [apply arr_set_wf; assumption|]. auto.
    - destruct (assoc (a_cells s) i); [|discriminate]. injection E1 as <-. split; [apply arr_set_wf; assumption|]. auto. }
  destruct (storage_step (array_backend merge) s o) as [s1| |]; try discriminate. cbn [obind] in E.
  destruct (Hstep s1 eq_refl) as [W1 [A1 B1]]. destruct (IH s1 s' W1 E) as [W [A B]]. split; [exact W|]. split; congruence.
Qed.

(** Two well-formed octrees with the same contents are traversed alike. *)
Lemma octree_traverse_ext {V : Type} (dims : nat) (t t' : octree V) :
  oct_wf dims t -> oct_wf dims t' ->
  (forall i, in_tree_range dims i -> octree_get t' i = octree_get t i) -> octree_traverse t' = octree_traverse t.
Proof.
  intros W W' G.
  destruct (l_trav (octree_laws (fun a _ => a) dims) t W) as [es [E [_ I]]].
  destruct (l_trav (octree_laws (fun a _ => a) dims) t' W') as [es' [E' [_ I']]].
  cbn [octree_backend btrav bget octree_laws dom shape] in *.
  destruct (octree_traverse_spec dims _ t W) as [x [Ex [_ [_ S]]]].
  destruct (octree_traverse_spec dims _ t' W') as [x' [Ex' [_ [_ S']]]].
  assert (x = es) by congruence. assert (x' = es') by congruence. subst x x'.
  rewrite E, E'. f_equal. apply (sorted_lt_unique (fun e => morton 16 (fst e))); [exact S'|exact S|].
  intros [i v]. rewrite I, I'. split; intros [A B]; (split; [exact A|]); rewrite <- B; [symmetry|]; apply G; exact A.
Qed.

Lemma nodup_app_left {A : Type} (a b : list A) : NoDup (a ++ b) -> NoDup a.
Proof.
  induction a as [|x a IH]; cbn [app]; intros H; [constructor|]. inversion H as [|? ? Hn H']; subst.
  constructor; [intros Hx; apply Hn, in_or_app; left; exact Hx|apply IH; exact H'].
Qed.

Section Trips.
Variable junk : list Z -> nat -> list Z.
Context {V : Type}.
Variable merge : V -> V -> V.
Variable fmt : format V.
Variable ok : V -> Prop.
Variable len : nat.
Hypothesis Hfmt : format_ok fmt ok len.

Section Oct.
Variable dims : nat.
Hypothesis Hd : (0 < dims)%nat.
Notation B := (octree_backend merge dims).
Variable ops : list (map_op V).
Variable g : Z.
Variable t : octree V.
Hypothesis Hops : Forall (fun o => in_tree_range dims (op_index o)) ops.
Hypothesis Hrun : storage_run B ops (octree_new g) = Ok t.
Hypothesis Hok : forall i v, in_tree_range dims i -> octree_get t i = Ok (Some v) -> ok v.

Lemma octree_trip (g' : Z) :
  f_count fmt = Z.of_nat len ->
  exists es file t', octree_traverse t = Ok es /\ storage_save B fmt t = Ok file /\
    length file = (length es * (4 * dims + len))%nat /\
    storage_load junk B dims fmt file (octree_new g') = Ok (t', []) /\
    (forall i, in_tree_range dims i -> octree_get t' i = octree_get t i) /\ octree_traverse t' = octree_traverse t.
Proof.
  intros Hc. pose proof (octree_run_wf merge dims ops g t Hops Hrun) as W.
  destruct (storage_round_trip junk merge B (octree_laws merge dims) dims fmt ok len Hfmt t (octree_new g'))
    as [es [file [t' [E [S [L [Ld [W' [_ G]]]]]]]]]; auto.
  - apply octree_new_wf.
  - intros i Hi. apply tree_range_int. exact Hi.
  - lia.
  - exists es, file, t'. split; [exact E|]. split; [exact S|]. split; [exact L|]. split; [exact Ld|].
    split; [exact G|]. apply (octree_traverse_ext dims); [exact W|exact W'|exact G].
Qed.

Lemma octree_records (es : list (idx * V)) : octree_traverse t = Ok es ->
  Forall (good_record dims ok) es /\ NoDup (map fst es) /\
  forall i, in_tree_range dims i -> octree_get t i = Ok (assoc es i).
Proof.
  intros E. pose proof (octree_run_wf merge dims ops g t Hops Hrun) as W.
  destruct (l_trav (octree_laws merge dims) t W) as [es' [E' [Hn Hin]]].
  cbn [octree_backend btrav bget octree_laws dom shape] in *. rewrite E in E'. injection E' as <-.
  split; [|split; [exact Hn|]].
  - apply Forall_forall. intros [i v] He. apply Hin in He. destruct He as [A C].
    destruct (tree_range_int dims i A) as [L R]. split; [exact L|]. split; [exact R|]. apply (Hok i v A C).
  - intros i Hi. rewrite (oct_get dims t i W Hi). f_equal.
    pose proof (oct_get dims t i W Hi) as G. destruct (option_map snd (otree_find t i)) as [v|].
    + symmetry. apply assoc_in; [exact Hn|]. apply Hin. auto.
    + destruct (assoc es i) as [v|] eqn:Ea; [|reflexivity]. apply assoc_in in Ea; [|exact Hn]. apply Hin in Ea.
      destruct Ea; congruence.
Qed.

(** Inserting the first [k] records. *)
Lemma octree_insert_first (es : list (idx * V)) (g' : Z) (k : nat) : octree_traverse t = Ok es ->
  exists t', ofold (fun s (e : idx * V) => bins B s (fst e) (snd e)) (firstn k es) (octree_new g') = Ok t' /\
    forall i, in_tree_range dims i -> octree_get t' i = Ok (assoc (firstn k es) i).
Proof.
  intros E. destruct (octree_records es E) as [Hg [Hn _]].
  pose proof (octree_run_wf merge dims ops g t Hops Hrun) as W.
  destruct (l_trav (octree_laws merge dims) t W) as [es' [E' [_ Hin]]].
  cbn [octree_backend btrav bget octree_laws dom shape] in *. rewrite E in E'. injection E' as <-.
  assert (Hsub : forall x, In x (firstn k es) -> In x es).
  { intros x Hx. rewrite <- (firstn_skipn k es). apply in_or_app. left; exact Hx. }
  destruct (insert_all_spec merge B (octree_laws merge dims) (firstn k es) (octree_new g')) as [t' [F [_ [_ G]]]].
  - apply octree_new_wf.
  - rewrite <- (firstn_skipn k es), map_app in Hn. apply nodup_app_left in Hn. exact Hn.
  - apply Forall_forall. intros [i v] Hx. apply Hsub in Hx. apply Hin in Hx. apply Hx.
  - intros i Hi. apply in_map_iff in Hi. destruct Hi as [[i' v] [<- Hx]]. apply Hsub in Hx. apply Hin in Hx.
    exact (oct_get dims (octree_new g') i' (octree_new_wf _ _ g') (proj1 Hx)).
  - exists t'. split; [exact F|]. intros i Hi. cbn [octree_backend bget octree_laws dom shape] in G. rewrite (G i Hi).
    destruct (assoc (firstn k es) i); [reflexivity|]. exact (oct_get dims (octree_new g') i (octree_new_wf _ _ g') Hi).
Qed.
End Oct.

(** The whole storage, and its file cut after [k] records. *)
Lemma octree_cut (dims : nat) (Hd : (0 < dims)%nat) (ops : list (map_op V)) (g : Z) (t : octree V) :
  Forall (fun o => in_tree_range dims (op_index o)) ops ->
  storage_run (octree_backend merge dims) ops (octree_new g) = Ok t ->
  (forall i v, in_tree_range dims i -> octree_get t i = Ok (Some v) -> ok v) ->
  forall (g' : Z) (k : nat), f_count fmt = Z.of_nat len ->
  exists es file, octree_traverse t = Ok es /\ storage_save (octree_backend merge dims) fmt t = Ok file /\
    ((k <= length es)%nat -> exists t',
      storage_load junk (octree_backend merge dims) dims fmt (firstn (k * (4 * dims + len)) file) (octree_new g') = Ok (t', []) /\
      forall i, in_tree_range dims i -> octree_get t' i = Ok (assoc (firstn k es) i)).
Proof.
  intros Hops Hrun Hok g' k Hc.
  destruct (l_trav (octree_laws merge dims) t (octree_run_wf merge dims ops g t Hops Hrun)) as [es [E _]].
  cbn [octree_backend btrav] in E.
  destruct (octree_records dims ops g t Hops Hrun Hok es E) as [Hg _].
  exists es, (storage_bytes fmt es). split; [exact E|].
  split; [unfold storage_save; cbn [octree_backend btrav]; rewrite E; reflexivity|]. intros Hk.
  destruct (octree_insert_first dims ops g t Hops Hrun Hok es g' k E) as [t' [F G]].
  exists t'. split; [|exact G].
  destruct (storage_cut junk (octree_backend merge dims) dims fmt ok len Hfmt es (octree_new g') k Hg Hk Hc ltac:(lia)) as [A C].
  rewrite A, C, F. reflexivity.
Qed.

Section Arr.
Variable size : list Z.
Variable off : idx.
Notation B := (array_backend merge).

Lemma array_trip (ops : list (map_op V)) (s : arr V) :
  (0 < length off)%nat -> length size = length off ->
  (forall d, (d < length off)%nat -> INT_MIN <= nth d off 0 /\ nth d off 0 + nth d size 0 - 1 <= INT_MAX) ->
  storage_run B ops {| a_size := size; a_offset := off; a_cells := [] |} = Ok s ->
  (forall i v, bget B s i = Ok (Some v) -> ok v) ->
  f_count fmt = Z.of_nat len ->
  exists file s', storage_save B fmt s = Ok file /\
    length file = (length (a_cells s) * (4 * length off + len))%nat /\
    storage_load junk B (length off) fmt file {| a_size := size; a_offset := off; a_cells := [] |} = Ok (s', []) /\
    (forall i, bget B s' i = bget B s i).
Proof.
  intros Hd HL Hbox Hrun Hok Hc.
  assert (W0 : arr_wf (V:=V) {| a_size := size; a_offset := off; a_cells := [] |}) by (split; constructor).
  destruct (array_run_wf merge ops _ s W0 Hrun) as [W [A C]]. cbn [a_size a_offset] in A, C.
  destruct (storage_round_trip junk merge B (array_laws merge) (length off) fmt ok len Hfmt s
              {| a_size := size; a_offset := off; a_cells := [] |})
    as [es [file [s' [E [S [L [Ld [W' [Sh G]]]]]]]]]; auto.
  - cbn [array_laws shape a_size a_offset]. congruence.
  - intros i Hi. cbn [array_laws shape dom a_size a_offset fst snd] in Hi. cbn [array_backend bget a_size a_offset a_cells].
    rewrite Hi. reflexivity.
  - intros i Hi. cbn [array_laws shape dom fst snd] in Hi. apply arr_inside_iff in Hi. rewrite A, C in Hi.
    destruct Hi as [H1 [H2 H3]]. split; [exact H2|]. apply int_index_ok. unfold int_index. apply Forall_forall. intros z Hz.
    apply (In_nth _ _ 0) in Hz. destruct Hz as [d [Hlt <-]]. specialize (H3 d Hlt). specialize (Hbox d ltac:(lia)). lia.
  - intros i v Hi Hv. apply (Hok i v Hv).
  - lia.
  - exists file, s'. split; [exact S|]. cbn [array_backend btrav] in E. injection E as <-. split; [exact L|].
    split; [exact Ld|]. intros i. cbn [array_laws shape dom fst snd array_backend bget] in *.
    injection Sh as SA SC. rewrite SA, SC. destruct (arr_inside (a_size s) (a_offset s) i) eqn:Ei; [|reflexivity].
    specialize (G i Ei). rewrite SA, SC, Ei in G. exact G.
Qed.
End Arr.
End Trips.

Lemma occupancy_count (junk : list Z -> nat -> list Z) {D : Type} (cd : codec D) (dflt : D) (amount : D -> Z) :
  codec_ok cd -> f_count (occupancy_format junk cd dflt amount) = Z.of_nat (8 + c_len cd).
Proof. intros [_ [_ H]]. cbn [occupancy_format f_count]. rewrite H. lia. Qed.

Lemma weighted_trip (junk : list Z -> nat -> list Z) {T D : Type} (tp : codec T) (cd : codec D) (dflt : D) (samples : D -> Z)
  (merge : occ T D -> occ T D -> occ T D) (dims : nat)
  (ops : list (map_op (occ T D))) (g g' : Z) (t : octree (occ T D)) :
  codec_ok tp -> codec_ok cd -> samples dflt = 0 -> (0 < dims)%nat ->
  Forall (fun o => in_tree_range dims (op_index o)) ops ->
  storage_run (octree_backend merge dims) ops (octree_new g) = Ok t ->
  (forall i v, in_tree_range dims i -> octree_get t i = Ok (Some v) -> weighted_storable samples v) ->
  let R := (4 * dims + (c_len tp + c_len cd))%nat in
  exists es file t', octree_traverse t = Ok es /\
    storage_save (octree_backend merge dims) (weighted_format junk tp cd dflt samples) t = Ok file /\
    (ceil_div (length es * R) (R + 8) <= length es)%nat /\
    (exists unread, storage_load junk (octree_backend merge dims) dims (weighted_format junk tp cd dflt samples)
       file (octree_new g') = Ok (t', unread)) /\
    (forall i, in_tree_range dims i -> octree_get t' i = Ok (assoc (firstn (ceil_div (length es * R) (R + 8)) es) i)) /\
    (8 * length es < R + 8 -> forall i, in_tree_range dims i -> octree_get t' i = octree_get t i)%nat.
Proof.
  intros Ht Hcd H0 Hd Hops Hrun Hok R.
  destruct (l_trav (octree_laws merge dims) t (octree_run_wf merge dims ops g t Hops Hrun)) as [es [E _]].
  cbn [octree_backend btrav] in E.
  destruct (octree_records merge (weighted_storable samples) dims ops g t Hops Hrun Hok es E) as [Hg [_ Ha]].
  pose proof (weighted_format_ok junk tp cd dflt samples Ht Hcd H0) as Hf.
  set (k := ceil_div (length es * R) (R + 8)).
  destruct (octree_insert_first merge (weighted_storable samples) dims ops g t Hops Hrun Hok es g' k E) as [t' [F G]].
  destruct (storage_overcount junk (octree_backend merge dims) dims _ _ _ Hf es (octree_new g') 8 Hg) as [Hk HL].
  { cbn [weighted_format f_count]. destruct Ht as [_ [_ ->]], Hcd as [_ [_ ->]]. lia. }
  { lia. }
  fold R in Hk, HL. fold k in Hk, HL.
  exists es, (storage_bytes (weighted_format junk tp cd dflt samples) es), t'. split; [exact E|].
  split; [unfold storage_save; cbn [octree_backend btrav]; rewrite E; reflexivity|].
  split; [exact Hk|]. split; [eexists; rewrite HL, F; reflexivity|]. split; [exact G|].
  intros Hsmall i Hi. rewrite (G i Hi), (Ha i Hi).
  assert (Hkn : k = length es).
  { apply Nat.le_antisymm; [exact Hk|]. unfold k, ceil_div. apply Nat.div_le_lower_bound; nia. }
  rewrite Hkn, firstn_all. reflexivity.
Qed.

Lemma dynamic_header_trip' (junk : list Z -> nat -> list Z) {Po T : Type} (po : codec Po) (tp : codec T) (dim : nat)
  (origin : Po) (resolution : T) (min max : idx) (indices : list idx) :
  codec_ok po -> codec_ok tp -> (0 < dim)%nat ->
  length min = dim -> int_index min -> length max = dim -> int_index max ->
  (forall d, (d < dim)%nat -> INT_MIN <= nth d max 0 - nth d min 0 <= INT_MAX) ->
  Forall (fun bi => length bi = dim /\ int_index bi) indices ->
  exists file, dynamic_header_bytes po tp origin resolution min max indices = Ok file /\
    dynamic_header_load junk po tp dim file = Ok (origin, resolution, (min, max), indices).
Proof.
  intros Hpo Htp Hd A B C D H Hi. apply dynamic_header_trip; auto.
  - split; [exact A|apply int_index_ok; exact B].
  - split; [exact C|apply int_index_ok; exact D].
  - intros d Hlt. specialize (H d Hlt). unfold int_ok. apply andb_true_intro. split; apply Z.leb_le; lia.
  - revert Hi. apply Forall_impl. intros bi [L R]. split; [exact L|apply int_index_ok; exact R].
Qed.

Lemma static_header_trip (junk : list Z -> nat -> list Z) {Po T : Type} (po : codec Po) (tp : codec T) (dim : nat)
  (h : header Po T) :
  codec_ok po -> codec_ok tp -> (0 < dim)%nat ->
  length (h_size h) = dim -> Forall (fun z => 0 <= z < 2 ^ 64) (h_size h) ->
  length (h_min h) = dim -> int_index (h_min h) ->
  Forall (fun bi => length bi = dim /\ int_index bi) (h_indices h) ->
  header_load junk po tp dim (header_bytes po tp h) = Ok h.
Proof.
  intros Hpo Htp Hd A B C D Hi. apply header_round_trip; auto.
  - split; [exact C|apply int_index_ok; exact D].
  - revert Hi. apply Forall_impl. intros bi [L R]. split; [exact L|apply int_index_ok; exact R].
Qed.

Lemma dynamic_header_cut (junk : list Z -> nat -> list Z) {Po T : Type} (po : codec Po) (tp : codec T) (dim : nat)
  (origin : Po) (resolution : T) (min max : idx) (indices : list idx) (k : nat) :
  codec_ok po -> codec_ok tp -> (0 < dim)%nat ->
  length min = dim -> int_index min -> length max = dim -> int_index max ->
  (forall d, (d < dim)%nat -> INT_MIN <= nth d max 0 - nth d min 0 <= INT_MAX) ->
  Forall (fun bi => length bi = dim /\ int_index bi) indices -> (k <= length indices)%nat ->
  exists file, dynamic_header_bytes po tp origin resolution min max indices = Ok file /\
    dynamic_header_load junk po tp dim (firstn (c_len po + c_len tp + 12 * dim + k * (4 * dim)) file) =
      Ok (origin, resolution, (min, max), firstn k indices).
Proof.
  intros Hpo Htp Hd A B C D H Hi Hk.
  destruct (dynamic_header_trip' junk po tp dim origin resolution min max (firstn k indices) Hpo Htp Hd A B C D H) as [f [E F]].
  { rewrite <- (firstn_skipn k indices) in Hi. apply Forall_app in Hi. apply Hi. }
  destruct (dynamic_size_max min max ltac:(congruence)) as [size [Es [L _]]].
  { apply int_index_ok; exact D. }
  { intros d Hlt. specialize (H d ltac:(lia)). unfold int_ok. apply andb_true_intro. split; apply Z.leb_le; lia. }
  unfold dynamic_header_bytes in *. rewrite Es in *. cbn [obind] in *. injection E as <-.
  eexists. split; [reflexivity|]. rewrite header_cut; cbn [h_origin h_resolution h_size h_min h_indices]; auto; try congruence.
  revert Hi. apply Forall_impl. intros bi [Lb R]. split; [exact Lb|apply int_index_ok; exact R].
Qed.

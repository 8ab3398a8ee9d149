(** Proofs about point clouds and markers. *)
From Coq Require Import String Reals Lra.
From Verif Require Import Base SeqModel IndexModel IndexFacts OctreeSpec MapModel MapFacts MapHist BackendModel SysModel SysSpec SysFacts
  MapPropFacts ConvSpec ConvFacts JetModel CloudModel CloudSpec.
Open Scope Z_scope.

(** ** The message *)

Section Message.
Context {F : Type}.
Variable float_bytes : F -> list Z.
Hypothesis Hlen : forall f, length (float_bytes f) = 4%nat.

Lemma bytes_length (l : list F) : length (flat_map float_bytes l) = (4 * length l)%nat.
Proof. induction l as [|f l IH]; [reflexivity|]. cbn [flat_map length]. rewrite app_length, Hlen, IH. lia. Qed.

Lemma floats_length (es : list (F * F * F * F)) : length (cloud_floats es) = (4 * length es)%nat.
Proof. induction es as [|[[[x y] z] v] es IH]; [reflexivity|]. unfold cloud_floats in *. cbn [flat_map app length]. rewrite IH. lia. Qed.

Lemma skip_floats (l : list F) : forall n, skipn (4 * n) (flat_map float_bytes l) = flat_map float_bytes (skipn n l).
Proof.
  induction l as [|f l IH]; intros n; [now rewrite !skipn_nil|].
  destruct n as [|n]; [reflexivity|]. cbn [flat_map]. rewrite skipn_app, Hlen.
  rewrite skipn_all2 by (rewrite Hlen; lia). replace (4 * S n - 4)%nat with (4 * n)%nat by lia. exact (IH n).
Qed.

Lemma nth_float (l : list F) (n : nat) (f : F) :
  nth_error l n = Some f -> firstn 4 (skipn (4 * n) (flat_map float_bytes l)) = float_bytes f.
Proof.
  intros H. rewrite skip_floats. apply nth_error_split in H. destruct H as [l1 [l2 [-> <-]]].
  rewrite skipn_app, skipn_all2, Nat.sub_diag by lia. cbn [app skipn flat_map].
  rewrite firstn_app, Hlen, Nat.sub_diag, app_nil_r. apply firstn_all2. rewrite Hlen; lia.
Qed.

Lemma nth_floats (es : list (F * F * F * F)) : forall n e,
  nth_error es n = Some e ->
  let '(x, y, z, v) := e in
  nth_error (cloud_floats es) (4 * n) = Some x /\ nth_error (cloud_floats es) (4 * n + 1) = Some y /\
  nth_error (cloud_floats es) (4 * n + 2) = Some z /\ nth_error (cloud_floats es) (4 * n + 3) = Some v.
Proof.
  induction es as [|[[[a b] d] w] es IH]; intros n e H; [destruct n; discriminate|].
  destruct n as [|n]; cbn [nth_error] in H.
  - injection H as <-. cbn. auto.
  - specialize (IH n e H). destruct e as [[[x y] z] v].
    replace (4 * S n)%nat with (S (S (S (S (4 * n))))) by lia. cbn [Nat.add]. exact IH.
Qed.

Lemma message_ok (es : list (F * F * F * F)) :
  es <> [] -> Z.of_nat (length es) < 2 ^ 28 ->
  exists msg, cloud_message float_bytes (cloud_floats es) = Ok msg /\
    pc_width msg = Z.of_nat (length es) /\ pc_height msg = 1 /\ pc_bigendian msg = false /\ sizes_agree msg /\
    map pf_name (pc_fields msg) = ["x"; "y"; "z"; "intensity"]%string /\
    (forall f, In f (pc_fields msg) -> pf_datatype f = FLOAT32 /\ pf_count f = Z.of_nat (length es)) /\
    forall k e j f, nth_error es k = Some e -> nth_error (pc_fields msg) j = Some f ->
      field_bytes msg f 0 (Z.of_nat k) = float_bytes (entry_field j e).
Proof.
  intros Hne Hlt. unfold cloud_message.
  assert (L : Z.of_nat (length (cloud_floats es)) = 4 * Z.of_nat (length es)) by (rewrite floats_length; lia).
  destruct (cloud_floats es) as [|f0 fl] eqn:E.
  { exfalso. cbn [length] in L. destruct es; [contradiction|cbn [length] in L; lia]. }
  rewrite <- E in *. clear E f0 fl.
  assert (W : uint32 (Z.of_nat (length (cloud_floats es)) / 4) = Z.of_nat (length es)).
  { rewrite L, Z.mul_comm, Z.div_mul by lia. apply Z.mod_small. lia. }
  eexists. split; [reflexivity|]. cbn [pc_width pc_height pc_bigendian pc_fields map pf_name].
  split; [exact W|]. split; [reflexivity|]. split; [reflexivity|]. split; [|split; [reflexivity|split]].
  - split; cbn [pc_row_step pc_width pc_point_step pc_data pc_height].
    + rewrite W, L. unfold uint32. rewrite Z.mod_small by lia. lia.
    + rewrite bytes_length, Nat2Z.inj_mul, L. unfold uint32. rewrite Z.mod_small by lia. lia.
  - intros f [<-|[<-|[<-|[<-|[]]]]]; cbn [pf_datatype pf_count]; auto.
  - intros k e j f Hk Hj. unfold field_bytes. cbn [pc_data pc_point_step pc_row_step].
    pose proof (nth_floats es k e Hk) as N. destruct e as [[[x y] z] v]. destruct N as [N0 [N1 [N2 N3]]].
    destruct j as [|[|[|[|j]]]]; cbn [nth_error] in Hj; [| | | |destruct j; discriminate Hj];
      injection Hj as <-; cbn [pf_offset entry_field].
    + replace (Z.to_nat _) with (4 * (4 * k))%nat by lia. now apply nth_float.
    + replace (Z.to_nat _) with (4 * (4 * k + 1))%nat by lia. now apply nth_float.
    + replace (Z.to_nat _) with (4 * (4 * k + 2))%nat by lia. now apply nth_float.
    + replace (Z.to_nat _) with (4 * (4 * k + 3))%nat by lia. now apply nth_float.
Qed.

(** The row step overflows. *)
Lemma message_large (es : list (F * F * F * F)) :
  Z.of_nat (length es) = 2 ^ 28 ->
  exists msg, cloud_message float_bytes (cloud_floats es) = Ok msg /\ pc_width msg = 2 ^ 28 /\ pc_row_step msg = 0.
Proof.
  intros Hl. unfold cloud_message.
  assert (L : Z.of_nat (length (cloud_floats es)) = 4 * 2 ^ 28) by (rewrite floats_length; lia).
  destruct (cloud_floats es) as [|f0 fl] eqn:E; [cbn [length] in L; lia|]. rewrite <- E in *. clear E f0 fl.
  eexists. split; [reflexivity|]. cbn [pc_width pc_row_step]. rewrite L. split; reflexivity.
Qed.
End Message.

(** ** The entries *)

Lemma collect_app {A B : Type} (f : A -> option B) (l1 l2 : list A) : collect f (l1 ++ l2) = collect f l1 ++ collect f l2.
Proof. induction l1 as [|a l1 IH]; [reflexivity|]. cbn [collect app]. rewrite IH. destruct (f a); reflexivity. Qed.
Lemma collect_map {A B E : Type} (g : A -> B) (f : B -> option E) (l : list A) : collect f (map g l) = collect (fun a => f (g a)) l.
Proof. induction l as [|a l IH]; [reflexivity|]. cbn [collect map]. rewrite IH. reflexivity. Qed.
Lemma collect_ext {A B : Type} (f g : A -> option B) (l : list A) : (forall a, In a l -> f a = g a) -> collect f l = collect g l.
Proof.
  induction l as [|a l IH]; intros H; [reflexivity|]. cbn [collect]. rewrite (H a) by (left; reflexivity).
  rewrite IH by (intros; apply H; right; assumption). reflexivity.
Qed.

Lemma nodup_app {A : Type} (l1 l2 : list A) : NoDup l1 -> NoDup l2 -> (forall x, In x l1 -> ~ In x l2) -> NoDup (l1 ++ l2).
Proof.
  intros H1 H2 H. induction l1 as [|a l1 IH]; [exact H2|]. inversion H1 as [|? ? Ha H1']; subst. cbn [app]. constructor.
  - rewrite in_app_iff. intros [I|I]; [contradiction|]. apply (H a); [left; reflexivity|exact I].
  - apply IH; [exact H1'|]. intros x Hx. apply H. right; exact Hx.
Qed.

Section Entries.
Context {P E : Type}.
Variable c : config P.
Hypothesis Hc : config_ok c.
Variable show : P -> outcome (option E).
Variable f : P -> option E.
Hypothesis Hshow : forall d, show d = Ok (f d).

Lemma process_list (es : list (idx * P)) : forall tmp,
  ofold (process_item show) es tmp = Ok (tmp ++ collect (fun e => f (snd e)) es).
Proof.
  induction es as [|[j d] es IH]; intros tmp; cbn [ofold collect]; [now rewrite app_nil_r|].
  unfold process_item at 1. cbn [snd]. rewrite Hshow. cbn [obind]. rewrite IH. f_equal.
  destruct (f d); [now rewrite <- app_assoc|reflexivity].
Qed.

(** All stored distributions, storage by storage. *)
Lemma all_storages (m : cmap c) : cInv c m ->
  exists parts, length parts = bin_count (dimc c) /\
    (forall i es, nth_error parts i = Some es -> cdists c m i = Ok es) /\
    let keys := flat_map (fun p => map (fun e => (fst p, fst e)) (snd p)) (combine (seq 0 (bin_count (dimc c))) parts) in
    NoDup keys /\
    (forall i j, In (i, j) keys <-> (i < bin_count (dimc c))%nat /\ cddom c (cshape c (new_map c)) i j /\ cdget c m i j <> None) /\
    (forall g : P -> option E, concat (map (collect (fun e => g (snd e))) parts) =
       collect (fun k => match cdget c m (fst k) (snd k) with Some d => g d | None => None end) keys).
Proof.
  intros HI.
  assert (G : forall n a, (a + n <= bin_count (dimc c))%nat ->
    exists parts, length parts = n /\
    (forall i es, nth_error parts i = Some es -> cdists c m (a + i) = Ok es) /\
    let keys := flat_map (fun p => map (fun e => (fst p, fst e)) (snd p)) (combine (seq a n) parts) in
    NoDup keys /\
    (forall i j, In (i, j) keys <-> (a <= i < a + n)%nat /\ cddom c (cshape c (new_map c)) i j /\ cdget c m i j <> None) /\
    (forall g : P -> option E, concat (map (collect (fun e => g (snd e))) parts) =
       collect (fun k => match cdget c m (fst k) (snd k) with Some d => g d | None => None end) keys)).
  { induction n as [|n IH]; intros a Ha.
    - exists []. split; [reflexivity|]. split; [intros [|i] es H; discriminate H|]. cbn.
      split; [constructor|]. split; [intros; split; [intros []|lia]|reflexivity].
    - destruct (IH (S a) ltac:(lia)) as [parts [L [D [Hn [Hin Hcol]]]]].
      destruct (store_list c m a HI ltac:(lia)) as [es [Ees [Hnd Hes]]].
      exists (es :: parts). split; [cbn; lia|]. split.
      { intros [|i] es' H; cbn [nth_error] in H.
        - injection H as <-. rewrite Nat.add_0_r. exact Ees.
        - replace (a + S i)%nat with (S a + i)%nat by lia. now apply D. }
      cbn [seq combine flat_map fst snd]. cbn zeta in *.
      set (rest := flat_map _ (combine (seq (S a) n) parts)) in *.
      assert (Hhead : forall i j, In (i, j) (map (fun e => (a, fst e)) es) <->
                i = a /\ cddom c (cshape c (new_map c)) a j /\ cdget c m a j <> None).
      { intros i j. rewrite in_map_iff. split.
        - intros [[j' d] [Eq Hi]]. cbn [fst] in Eq. injection Eq as <- <-. apply Hes in Hi. destruct Hi as [A B].
          split; [reflexivity|]. split; [exact A|congruence].
        - intros [-> [A B]]. destruct (cdget c m a j) as [d|] eqn:Ed; [|contradiction].
          exists (j, d). split; [reflexivity|]. apply Hes. auto. }
      split; [|split].
      + apply nodup_app; [|exact Hn|].
        * clear -Hnd. induction es as [|[j d] es IH]; [constructor|]. cbn [map fst] in *.
          inversion Hnd as [|? ? Hni Hnd']; subst. constructor; [|apply IH; exact Hnd'].
          rewrite in_map_iff. intros [[j' d'] [Eq Hi]]. cbn [fst] in Eq. injection Eq as ->. apply Hni.
          apply in_map_iff. exists (j, d'). auto.
        * intros [i j] A B. apply Hhead in A. apply Hin in B. lia.
      + intros i j. rewrite in_app_iff, Hhead, Hin. split.
        * intros [[-> [A B]]|[A B]]; [split; [lia|auto]|split; [lia|exact B]].
        * intros [A B]. destruct (Nat.eq_dec i a) as [->|Ne]; [left; auto|right; split; [lia|exact B]].
      + intros g. cbn [map concat]. rewrite collect_app, <- Hcol. f_equal. rewrite collect_map.
        apply collect_ext. intros [j d] Hi. cbn [fst snd]. apply Hes in Hi. destruct Hi as [_ ->]. reflexivity. }
  destruct (G (bin_count (dimc c)) 0%nat ltac:(lia)) as [parts [L [D [Hn [Hin Hcol]]]]].
  exists parts. split; [exact L|]. split; [exact D|]. split; [exact Hn|]. split; [|exact Hcol].
  intros i j. rewrite Hin. split; intros [A B]; (split; [lia|exact B]).
Qed.

Lemma entries_concat (m : cmap c) (parts : list (list (idx * P))) :
  forall n a, length parts = n -> (forall i es, nth_error parts i = Some es -> cdists c m (a + i) = Ok es) ->
  forall tmp, ofold (process_storage c show m) (seq a n) tmp = Ok (tmp ++ concat (map (collect (fun e => f (snd e))) parts)).
Proof.
  induction parts as [|es parts IH]; intros n a L D tmp; subst n; cbn [length seq ofold map concat]; [now rewrite app_nil_r|].
  unfold process_storage at 1. pose proof (D 0%nat es eq_refl) as D0. rewrite Nat.add_0_r in D0. rewrite D0. cbn [obind].
  rewrite process_list. cbn [obind]. rewrite (IH _ (S a) eq_refl).
  - rewrite app_assoc. reflexivity.
  - intros i es' H. specialize (D (S i) es' H). rewrite <- D. f_equal. lia.
Qed.

Lemma numbered_app (l1 l2 : list E) : forall a, numbered a (l1 ++ l2) = numbered a l1 ++ numbered (a + Z.of_nat (length l1)) l2.
Proof.
  induction l1 as [|x l1 IH]; intros a; cbn [app numbered length]; [f_equal; lia|]. rewrite IH. do 3 f_equal. lia.
Qed.
Lemma mark_list (es : list (idx * P)) : forall dst id,
  0 <= id -> id + Z.of_nat (length (collect (fun e => f (snd e)) es)) <= INT_MAX ->
  ofold (mark_item show) es (dst, id) =
  Ok (dst ++ numbered id (collect (fun e => f (snd e)) es), id + Z.of_nat (length (collect (fun e => f (snd e)) es))).
Proof.
  induction es as [|[j d] es IH]; intros dst id H0 H1; cbn [ofold collect] in *.
  - cbn [length numbered]. rewrite app_nil_r. do 2 f_equal. lia.
  - unfold mark_item at 1. cbn [snd] in *. rewrite Hshow. cbn [obind]. destruct (f d) as [x|] eqn:Ef.
    + cbn [length] in *. unfold increment.
      replace (int_ok (id + 1)) with true by (symmetry; unfold int_ok, INT_MIN, INT_MAX in *; apply andb_true_intro; split; apply Z.leb_le; lia).
      cbn [obind]. rewrite IH by lia. cbn [numbered]. rewrite <- app_assoc. cbn [app]. do 2 f_equal. lia.
    + cbn [obind]. apply IH; assumption.
Qed.

Lemma mark_concat (m : cmap c) (parts : list (list (idx * P))) :
  forall n a, length parts = n -> (forall i es, nth_error parts i = Some es -> cdists c m (a + i) = Ok es) ->
  forall dst id, 0 <= id -> id + Z.of_nat (length (concat (map (collect (fun e => f (snd e))) parts))) <= INT_MAX ->
  exists id', ofold (fun s i => let* es := cdists c m i in ofold (mark_item show) es s) (seq a n) (dst, id) =
    Ok (dst ++ numbered id (concat (map (collect (fun e => f (snd e))) parts)), id').
Proof.
  induction parts as [|es parts IH]; intros n a L D dst id H0 H1; subst n; cbn [length seq ofold map concat] in *.
  { exists id. cbn [numbered]. now rewrite app_nil_r. }
  rewrite app_length in H1. pose proof (D 0%nat es eq_refl) as D0. rewrite Nat.add_0_r in D0. rewrite D0. cbn [obind].
  rewrite mark_list by lia. cbn [obind].
  destruct (IH _ (S a) eq_refl) with (dst := dst ++ numbered id (collect (fun e => f (snd e)) es))
     (id := id + Z.of_nat (length (collect (fun e => f (snd e)) es))) as [id' ->].
  - intros i es' H. specialize (D (S i) es' H). rewrite <- D. f_equal. lia.
  - lia.
  - lia.
  - exists id'. rewrite numbered_app, app_assoc. reflexivity.
Qed.

Lemma cell_of_present (m : cmap c) (i : nat) (j : idx) :
  cInv c m -> region c 0 m -> (i < bin_count (dimc c))%nat -> cddom c (cshape c (new_map c)) i j -> cdget c m i j <> None ->
  cell_exists c i j.
Proof.
  intros HI HR Hi Hd Hp. apply (present_iff c m i j HI Hd Hi) in Hp. destruct Hp as [bi [A [B <-]]].
  apply bundle_cell; [apply (HR bi A B)|]. rewrite <- two_pow_spec. exact Hi.
Qed.

(** What is stored after a history, as a list. *)
Lemma history_cells (l : list (map_action (P:=P))) : fits c l ->
  exists m parts keys, cact_all c l (new_map c) = Ok m /\
    length parts = bin_count (dimc c) /\
    (forall i es, nth_error parts i = Some es -> cdists c m (0 + i) = Ok es) /\
    shown_cells c l keys /\
    concat (map (collect (fun e => f (snd e))) parts) = collect (fun k => f (after c l k)) keys /\
    (only_changes l -> forall i j, In (i, j) keys -> changes l i j <> []) /\
    (forall i j, In (i, j) keys <-> exists v, has_value c m i j v).
Proof.
  intros Hf. destruct (run_spec c Hc l Hf) as [m [Em [HI [HR [HC [Hn Ho]]]]]].
  destruct (all_storages m HI) as [parts [L [D [Hnd [Hin Hcol]]]]]. cbn zeta in *.
  set (keys := flat_map _ _) in *. exists m, parts, keys. split; [exact Em|]. split; [exact L|]. split; [exact D|].
  assert (Hcells : forall i j, In (i, j) keys -> cell_exists c i j).
  { intros i j H. apply Hin in H. destruct H as [A [B C]]. eapply cell_of_present; eassumption. }
  split; [split; [exact Hnd|split; [exact Hcells|]]|split; [|split]].
  - intros i j Hij Hch. apply Hin. assert (Hi : (i < bin_count (dimc c))%nat) by (rewrite two_pow_spec; apply Hij).
    split; [exact Hi|]. split; [apply (cell_ddom c Hc); exact Hij|].
    apply (present_iff c m i j HI (cell_ddom c Hc i j Hij) Hi).
    assert (X : exists bi g, In (Modify bi g) l /\ generate_index bi i = j).
    { clear -Hch. induction l as [|a l IH]; [contradiction|]. destruct a as [bi g|bi|]; cbn [changes] in Hch.
      - destruct (idx_eqb_spec (generate_index bi i) j) as [Eq|Ne]; [exists bi, g; split; [left; reflexivity|exact Eq]|].
        destruct (IH Hch) as [b [h [A B]]]. exists b, h. split; [right; exact A|exact B].
      - destruct (IH Hch) as [b [h [A B]]]. exists b, h. split; [right; exact A|exact B].
      - destruct (IH Hch) as [b [h [A B]]]. exists b, h. split; [right; exact A|exact B]. }
    destruct X as [bi [g [A B]]]. exists bi.
    assert (Hbd : cbdom c (cshape c (new_map c)) bi).
    { unfold fits in Hf. rewrite Forall_forall in Hf. specialize (Hf _ A). cbn [act_fits] in Hf.
      apply (usable_bdom c Hc (expansions l)); [apply expansions_nonneg|exact Hf]. }
    split; [exact Hbd|]. split; [|exact B]. apply (Hn bi (Modify bi g) A Hbd). reflexivity.
  - rewrite Hcol. apply collect_ext. intros [i j] Hk. cbn [fst snd]. apply Hin in Hk. destruct Hk as [A [B C]].
    specialize (HC i j B). unfold ccontent, content in HC. fold (cdget c m i j) in HC.
    destruct (cdget c m i j) as [d|] eqn:Ed; [|contradiction]. unfold after. cbn [fst snd]. now rewrite <- HC.
  - intros Hoc i j Hk. apply Hin in Hk. destruct Hk as [A [B C]].
    apply (present_iff c m i j HI B A) in C. destruct C as [bi [Hbd [Hb Hg]]].
    destruct (Ho bi Hbd) as [a [Ha Hna]]; [|exact Hb|].
    + intros X. unfold only_changes in Hoc. rewrite Forall_forall in Hoc. exact (Hoc _ X).
    + unfold only_changes in Hoc. rewrite Forall_forall in Hoc. specialize (Hoc _ Ha). destruct a as [b g|b|]; [|contradiction|contradiction].
      cbn [names] in Hna. subst b. clear -Ha Hg. induction l as [|a l IH]; [contradiction|].
      rewrite changes_cons. destruct Ha as [->|Ha].
      * cbn [changes]. destruct (idx_eqb_spec (generate_index bi i) j) as [_|Ne]; [discriminate|contradiction].
      * intros X. apply app_eq_nil in X. exact (IH Ha (proj2 X)).
  - intros i j. split.
    + intros Hk. pose proof (Hcells i j Hk) as Hj. apply Hin in Hk. destruct Hk as [A [B C]].
      destruct (cdget c m i j) as [v|] eqn:Ev; [|contradiction]. exists v. apply (has_value_iff c Hc m i j v HI). auto.
    + intros [v Hv]. apply (has_value_iff c Hc m i j v HI) in Hv. destruct Hv as [Hj Hv]. apply Hin.
      split; [rewrite two_pow_spec; apply Hj|]. split; [apply (cell_ddom c Hc); exact Hj|congruence].
Qed.

Lemma convert_spec (allocate_all : bool) (l : list (map_action (P:=P))) : fits c (history allocate_all l) ->
  exists m m' keys, cact_all c l (new_map c) = Ok m /\
    cloud_convert c show allocate_all m = Ok (m', collect (fun k => f (after c l k)) keys) /\ shown_cells c l keys /\
    (allocate_all = false -> m' = m) /\
    (only_changes l -> allocate_all = false -> forall i j, In (i, j) keys -> changes l i j <> []) /\
    (allocate_all = true -> cact c m ExpandAll = Ok m') /\ (forall i j, In (i, j) keys <-> exists v, has_value c m' i j v).
Proof.
  intros Hf. destruct (history_cells (history allocate_all l) Hf) as [m' [parts [keys [Em [L [D [[S1 [S2 S3]] [Hcol [Hoc Hkv]]]]]]]]].
  assert (Hch : forall i j, changes (history allocate_all l) i j = changes l i j).
  { intros i j. unfold history. destruct allocate_all; [|reflexivity]. rewrite changes_app. cbn [changes]. apply app_nil_r. }
  assert (X : exists m, cact_all c l (new_map c) = Ok m /\ (if allocate_all then cact c m ExpandAll else Ok m) = Ok m').
  { destruct allocate_all; cbn [history] in Em; [|exists m'; auto].
    rewrite cact_all_app in Em. obreak Em. exists a. split; [exact E0|].
    unfold cact_all, act_all in Em. cbn [ofold] in Em. obreak Em. injection Em as <-. exact E1. }
  destruct X as [m [E1 E2]]. exists m, m', keys. split; [exact E1|]. split; [|split; [|split; [|split; [|split; [|exact Hkv]]]]].
  - unfold cloud_convert. rewrite E2. cbn [obind]. unfold cloud_entries.
    rewrite (entries_concat m' parts _ 0%nat L D). cbn [obind app]. rewrite Hcol. do 2 f_equal.
    apply collect_ext. intros k _. unfold after. now rewrite Hch.
  - split; [exact S1|]. split; [exact S2|]. intros i j A B. apply S3; [exact A|]. now rewrite Hch.
  - intros ->. cbn in E2. congruence.
  - intros A -> i j B. exact (Hoc A i j B).
  - intros ->. exact E2.
Qed.

Lemma marker_spec (l : list (map_action (P:=P))) : fits c l ->
  exists m keys, cact_all c l (new_map c) = Ok m /\ shown_cells c l keys /\
    (only_changes l -> forall i j, In (i, j) keys -> changes l i j <> []) /\
    (Z.of_nat (length (collect (fun k => f (after c l k)) keys)) < INT_MAX ->
     marker_array c show m = Ok (DeleteAll 0 :: numbered 1 (collect (fun k => f (after c l k)) keys))).
Proof.
  intros Hf. destruct (history_cells l Hf) as [m [parts [keys [Em [L [D [S [Hcol [Hoc _]]]]]]]]].
  exists m, keys. split; [exact Em|]. split; [exact S|]. split; [exact Hoc|]. intros Hlt.
  unfold marker_array. change (increment 0) with (Ok 1). cbn [obind]. rewrite <- Hcol in *.
  destruct (mark_concat m parts _ 0%nat L D [DeleteAll 0] 1) as [id' ->]; [lia|lia|]. cbn [obind fst app]. reflexivity.
Qed.
End Entries.

(** ** Contents *)

Lemma exponent_at_mean (dim : nat) (mean : nat -> R) (inf : nat -> nat -> R) : @eq R (exponent real_number dim mean inf mean) 0%R.
Proof.
  unfold exponent. cbn [real_number nadd nsub nmul scale of_double].
  assert (G : forall n (g : nat -> R), (forall i, g i = 0%R) -> @eq R (nsum real_number n g) 0%R).
  { intros n g H. induction n as [|n IH]; [reflexivity|]. cbn [nsum]. cbn [real_number nadd].
    change (@eq R (nsum real_number n g + g n)%R 0%R). rewrite IH, H. ring. }
  apply G. intros j. change (@eq R (nsum real_number dim (fun i => (inf i j * (- (1 / 2) * (mean i - mean i)))%R) * (mean j - mean j))%R 0%R). ring.
Qed.
Lemma rsample_at_mean (dim : nat) (valid : bool) (mean : nat -> R) (inf : nat -> nat -> R) :
  rsample dim valid mean inf mean = (if valid then 1 else 0)%R.
Proof. unfold rsample. destruct valid; [|reflexivity]. rewrite exponent_at_mean. apply exp_0. Qed.

(** The nested ordered index set is a set, its box query is exact. *)
From Coq Require Import Sorted.
From Verif Require Import Base IndexSetModel IndexSetSpec.
Open Scope Z_scope.

Definition keys_sorted {T : Type} (l : list (Z * T)) : Prop := StronglySorted (fun a b => fst a < fst b) l.
Fixpoint iset_ok (dim : nat) : iset dim -> Prop :=
  match dim with
  | O => fun _ => True
  | S d => fun s => keys_sorted s /\ Forall (fun e => iset_ok d (snd e)) s
  end.

Section StdMap.
Context {T : Type}.
Lemma sorted_head (j : Z) (t : T) (l : list (Z * T)) (k : Z) (u : T) :
  keys_sorted ((j, t) :: l) -> In (k, u) l -> j < k.
Proof. intros H Hin. inversion H as [|? ? _ HF]; subst. rewrite Forall_forall in HF. exact (HF (k, u) Hin). Qed.
Lemma sorted_tail (e : Z * T) (l : list (Z * T)) : keys_sorted (e :: l) -> keys_sorted l.
Proof. intros H. inversion H; assumption. Qed.

Lemma entry_find_in (l : list (Z * T)) (k : Z) (t : T) : keys_sorted l -> (entry_find l k = Some t <-> In (k, t) l).
Proof.
  induction l as [|[j u] l IH]; intros Hs; [cbn; split; [discriminate|intros []]|].
  specialize (IH (sorted_tail _ _ Hs)). cbn [entry_find In].
  destruct (Z.ltb_spec j k).
  - rewrite IH. split; [auto|]. intros [E|H']; [injection E as ->; lia|exact H'].
  - destruct (Z.ltb_spec k j).
    + split; [discriminate|]. intros [E|H']; [injection E as ->; lia|].
      pose proof (sorted_head _ _ _ _ _ Hs H'). lia.
    + assert (j = k) by lia. subst j. split; [intros E; injection E as ->; auto|].
      intros [E|H']; [congruence|]. pose proof (sorted_head _ _ _ _ _ Hs H'). lia.
Qed.

Lemma entry_change_in (fresh : T) (f : T -> T) (l : list (Z * T)) (k j : Z) (t : T) : keys_sorted l ->
  (In (j, t) (entry_change fresh f l k) <->
   (j <> k /\ In (j, t) l) \/ (j = k /\ t = f (match entry_find l k with Some u => u | None => fresh end))).
Proof.
  induction l as [|[i u] l IH]; intros Hs.
  - cbn. split; [intros [E|[]]; injection E as <- <-; auto|]. intros [[_ []]|[-> ->]]; auto.
  - specialize (IH (sorted_tail _ _ Hs)). cbn [entry_change entry_find].
    destruct (Z.ltb_spec i k).
    + cbn [In]. rewrite IH. split.
      * intros [E|[[A B]|C]]; [injection E as <- <-; left; split; [lia|auto]|left; auto|right; exact C].
      * intros [[A [E|B]]|C]; auto.
    + destruct (Z.ltb_spec k i).
      * cbn [In]. split.
        -- intros [E|[E|B]]; [injection E as <- <-; right; auto| |].
           ++ injection E as <- <-. left. split; [lia|auto].
           ++ left. pose proof (sorted_head _ _ _ _ _ Hs B). split; [lia|auto].
        -- intros [[A [E|B]]|[-> ->]]; auto.
      * assert (i = k) by lia. subst i. cbn [In]. split.
        -- intros [E|B]; [injection E as <- <-; right; auto|].
           pose proof (sorted_head _ _ _ _ _ Hs B). left. split; [lia|auto].
        -- intros [[A [E|B]]|[-> ->]]; [injection E as -> _; lia|auto|auto].
Qed.
Lemma entry_change_sorted (fresh : T) (f : T -> T) (l : list (Z * T)) (k : Z) :
  keys_sorted l -> keys_sorted (entry_change fresh f l k).
Proof.
  induction l as [|[i u] l IH]; intros Hs; cbn [entry_change].
  - repeat constructor.
  - destruct (Z.ltb_spec i k).
    + constructor; [apply IH, (sorted_tail _ _ Hs)|]. apply Forall_forall. intros [j t] Hin. cbn.
      apply (entry_change_in fresh f l k j t (sorted_tail _ _ Hs)) in Hin.
      destruct Hin as [[_ B]|[-> _]]; [exact (sorted_head _ _ _ _ _ Hs B)|lia].
    + destruct (Z.ltb_spec k i).
      * constructor; [exact Hs|]. apply Forall_forall. intros [j t] [E|Hin]; cbn.
        -- injection E as <- _. lia.
        -- pose proof (sorted_head _ _ _ _ _ Hs Hin). lia.
      * inversion Hs as [|? ? H1 H2]; subst. constructor; [exact H1|]. exact H2.
Qed.

Lemma between_in (a b : Z) (l : list (Z * T)) (k : Z) (t : T) : keys_sorted l ->
  (In (k, t) (before_upper_bound b (from_lower_bound a l)) <-> In (k, t) l /\ a <= k <= b).
Proof.
  intros Hs.
  assert (Hup : forall l, keys_sorted l -> (In (k, t) (before_upper_bound b l) <-> In (k, t) l /\ k <= b)).
  { clear. induction l as [|[j u] l IH]; intros Hs; [cbn; split; [intros []|intros [[] _]]|].
    specialize (IH (sorted_tail _ _ Hs)). cbn [before_upper_bound]. destruct (Z.ltb_spec b j).
    - split; [intros []|]. intros [[E|Hin] Hk]; [injection E as -> _; lia|].
      pose proof (sorted_head _ _ _ _ _ Hs Hin). lia.
    - cbn [In]. rewrite IH. split; [intros [E|[A B]]; [injection E as <- <-; split; [auto|lia]|auto]|].
      intros [[E|A] B]; auto. }
  assert (Hlo : forall l, keys_sorted l -> keys_sorted (from_lower_bound a l) /\
                  (In (k, t) (from_lower_bound a l) <-> In (k, t) l /\ a <= k)).
  { clear. induction l as [|[j u] l IH]; intros Hs; [cbn; split; [constructor|split; [intros []|intros [[] _]]]|].
    cbn [from_lower_bound]. destruct (Z.ltb_spec j a).
    - destruct (IH (sorted_tail _ _ Hs)) as [H1 H2]. split; [exact H1|]. rewrite H2. cbn [In].
      split; [intros [A B]; auto|]. intros [[E|A] B]; [injection E as -> _; lia|auto].
    - split; [exact Hs|]. split; [|intros [A _]; exact A]. intros Hin. split; [exact Hin|].
      destruct Hin as [E|Hin]; [injection E as -> _; lia|]. pose proof (sorted_head _ _ _ _ _ Hs Hin). lia. }
  destruct (Hlo l Hs) as [H1 H2]. rewrite (Hup _ H1), H2. intuition lia.
Qed.
Lemma lower_sorted (a : Z) (l : list (Z * T)) : keys_sorted l -> keys_sorted (from_lower_bound a l).
Proof.
  induction l as [|[j u] l IH]; intros Hs; cbn [from_lower_bound]; [exact Hs|].
  destruct (j <? a); [apply IH, (sorted_tail _ _ Hs)|exact Hs].
Qed.
Lemma upper_sub (b : Z) (l : list (Z * T)) (e : Z * T) : In e (before_upper_bound b l) -> In e l.
Proof.
  induction l as [|[j u] l IH]; cbn [before_upper_bound]; [auto|]. destruct (b <? j); [intros []|].
  intros [E|H]; [left; exact E|right; auto].
Qed.
Lemma upper_sorted (b : Z) (l : list (Z * T)) : keys_sorted l -> keys_sorted (before_upper_bound b l).
Proof.
  induction l as [|[j u] l IH]; intros Hs; cbn [before_upper_bound]; [exact Hs|].
  destruct (b <? j); [constructor|]. constructor; [apply IH, (sorted_tail _ _ Hs)|].
  apply Forall_forall. intros [k t] Hin. apply upper_sub in Hin. exact (sorted_head _ _ _ _ _ Hs Hin).
Qed.
End StdMap.

Lemma empty_ok (dim : nat) : iset_ok dim (iset_empty dim).
Proof. destruct dim; cbn; [exact I|]. split; constructor. Qed.
Lemma empty_find (dim : nat) (i : idx) : (0 < dim)%nat -> iset_find dim (iset_empty dim) i = false.
Proof. destruct dim; [lia|]. reflexivity. Qed.

Lemma insert_S (d : nat) (s : list (Z * iset d)) (i : idx) : iset_insert (S d) s i =
  entry_change (T:=iset d) (iset_empty d) (fun t => iset_insert d t (tl i)) s (hd 0 i).
Proof. reflexivity. Qed.
Lemma find_S (d : nat) (s : list (Z * iset d)) (i : idx) : iset_find (S d) s i =
  match entry_find (T:=iset d) s (hd 0 i) with Some t => iset_find d t (tl i) | None => false end.
Proof. reflexivity. Qed.
Lemma found_ok (d : nat) (o : option (iset d)) : (forall u, o = Some u -> iset_ok d u) ->
  iset_ok d (match o with Some u => u | None => iset_empty d end).
Proof. destruct o as [u|]; intros H; [apply H; reflexivity|apply empty_ok]. Qed.
Lemma insert_ok (dim : nat) : forall s i, iset_ok dim s -> iset_ok dim (iset_insert dim s i).
Proof.
  induction dim as [|d IH]; intros s i; [auto|]. cbn [iset_ok iset_insert]. intros [Hs HF].
  split; [apply entry_change_sorted; exact Hs|]. apply Forall_forall. intros [j t] Hin. cbn [snd].
  apply entry_change_in in Hin; [|exact Hs]. rewrite Forall_forall in HF.
  destruct Hin as [[_ Hin]|[-> ->]]; [exact (HF _ Hin)|]. apply IH.
  apply found_ok. intros u E. apply (entry_find_in s (hd 0 i) u Hs) in E. exact (HF _ E).
Qed.

(** Inserting adds exactly one index. *)
Lemma insert_find (dim : nat) : forall s i x, iset_ok dim s -> length i = dim -> length x = dim -> (0 < dim)%nat ->
  iset_find dim (iset_insert dim s i) x = true <-> x = i \/ iset_find dim s x = true.
Proof.
  induction dim as [|d IH]; intros s i x Hs Hi Hx Hd; [lia|].
  destruct i as [|i0 i]; [discriminate|]. destruct x as [|x0 x]; [discriminate|].
  injection Hi as Hi. injection Hx as Hx. cbn [iset_ok] in Hs. destruct Hs as [Hs HF]. rewrite Forall_forall in HF.
  change (iset (S d)) with (list (Z * iset d)) in s. rewrite insert_S, !find_S. cbn [hd tl].
  set (g := fun t => iset_insert d t i).
  pose proof (entry_change_sorted (iset_empty d) g s i0 Hs) as Hs'.
  assert (Hsub : forall u, entry_find s i0 = Some u -> iset_ok d u).
  { intros u E. apply entry_find_in in E; [|exact Hs]. exact (HF _ E). }
  destruct (Z.eq_dec x0 i0) as [->|Hne].
  - assert (E : entry_find (entry_change (iset_empty d) g s i0) i0 =
                Some (g (match entry_find s i0 with Some u => u | None => iset_empty d end))).
    { apply entry_find_in; [exact Hs'|]. apply entry_change_in; [exact Hs|]. right. auto. }
    rewrite E. unfold g. destruct d as [|d].
    + destruct i; [|discriminate]. destruct x; [|discriminate]. cbn. intuition.
    + rewrite IH; [|destruct (entry_find s i0) as [u|] eqn:Eu; [apply Hsub; reflexivity|apply empty_ok]|assumption|assumption|lia].
      destruct (entry_find s i0) as [u|].
      * split; [intros [->|H]; auto|]. intros [H|H]; [injection H as ->; auto|auto].
      * rewrite empty_find by lia. split; [intros [->|H]; [auto|discriminate]|].
        intros [H|H]; [injection H as ->; auto|discriminate].
  - assert (E : entry_find (entry_change (iset_empty d) g s i0) x0 = entry_find s x0).
    { destruct (entry_find s x0) as [u|] eqn:Eu.
      - apply entry_find_in; [exact Hs'|]. apply entry_change_in; [exact Hs|]. left. split; [exact Hne|].
        apply entry_find_in; assumption.
      - destruct (entry_find (entry_change (iset_empty d) g s i0) x0) as [u|] eqn:Ev; [|reflexivity].
        apply entry_find_in in Ev; [|exact Hs']. apply entry_change_in in Ev; [|exact Hs].
        destruct Ev as [[_ Ev]|[H _]]; [|congruence]. apply entry_find_in in Ev; [|exact Hs]. congruence. }
    rewrite E. split; [auto|]. intros [H|H]; [injection H as H _; congruence|exact H].
Qed.

Lemma between_spec (dim : nat) : forall s p q x, iset_ok dim s -> length p = dim -> length q = dim ->
  In x (iset_between dim s p q) <-> length x = dim /\ iset_find dim s x = true /\ in_box p q x.
Proof.
  induction dim as [|d IH]; intros s p q x Hs Hp Hq.
  - cbn. split.
    + intros [<-|[]]. split; [reflexivity|]. split; [reflexivity|]. intros d Hd. cbn in Hd. lia.
    + intros [H _]. destruct x; [auto|discriminate].
  - destruct p as [|p0 p]; [discriminate|]. destruct q as [|q0 q]; [discriminate|].
    injection Hp as Hp. injection Hq as Hq. cbn [iset_ok] in Hs. destruct Hs as [Hs HF]. rewrite Forall_forall in HF.
    cbn [iset_between hd tl].
    assert (Hab : (if q0 <? p0 then (q0, p0) else (p0, q0)) = (Z.min p0 q0, Z.max p0 q0)).
    { destruct (Z.ltb_spec q0 p0); f_equal; lia. }
    rewrite Hab. rewrite in_flat_map. split.
    + intros [[k t] [Hin Hx]]. apply between_in in Hin; [|exact Hs]. destruct Hin as [Hin Hk].
      cbn [fst snd] in Hx. apply in_map_iff in Hx. destruct Hx as [y [<- Hy]].
      apply IH in Hy; [|exact (HF _ Hin)|exact Hp|exact Hq]. destruct Hy as [HL [Hf Hb]].
      split; [cbn; congruence|]. split.
      * cbn [iset_find hd tl]. rewrite (proj2 (entry_find_in s k t Hs) Hin). exact Hf.
      * intros [|e] He; cbn [nth]; [lia|]. apply Hb. cbn in He. lia.
    + intros [HL [Hf Hb]]. destruct x as [|k y]; [discriminate|]. injection HL as HL.
      cbn [iset_find hd tl] in Hf. destruct (entry_find s k) as [t|] eqn:E; [|discriminate].
      apply entry_find_in in E; [|exact Hs]. exists (k, t). split.
      * apply between_in; [exact Hs|]. split; [exact E|]. apply (Hb 0%nat). cbn; lia.
      * cbn [fst snd]. apply in_map. apply IH; [exact (HF _ E)|exact Hp|exact Hq|]. split; [exact HL|]. split; [exact Hf|].
        intros e He. apply (Hb (S e)). cbn. lia.
Qed.

(** The result comes in ascending order, so without repetition. *)
Lemma between_sorted (dim : nat) : forall s p q, iset_ok dim s -> StronglySorted lex_less (iset_between dim s p q).
Proof.
  induction dim as [|d IH]; intros s p q Hs; [repeat constructor|].
  cbn [iset_ok] in Hs. destruct Hs as [Hs HF]. cbn [iset_between].
  destruct (if hd 0 q <? hd 0 p then (hd 0 q, hd 0 p) else (hd 0 p, hd 0 q)) as [a b].
  assert (Hl : keys_sorted (before_upper_bound b (from_lower_bound a s))) by (apply upper_sorted, lower_sorted, Hs).
  assert (HF' : Forall (fun e => iset_ok d (snd e)) (before_upper_bound b (from_lower_bound a s))).
  { rewrite Forall_forall in HF |- *. intros [k t] Hin. apply between_in in Hin; [|exact Hs]. apply (HF (k, t)), Hin. }
  revert Hl HF'. generalize (before_upper_bound b (from_lower_bound a s)). clear -IH.
  induction l as [|[k t] l IHl]; intros Hl HF; [constructor|]. cbn [flat_map fst snd].
  inversion HF as [|? ? Ht HF']; subst. specialize (IHl (sorted_tail _ _ Hl) HF').
  assert (Hrest : forall x, In x (flat_map (fun e => map (cons (fst e)) (iset_between d (snd e) (tl p) (tl q))) l) ->
                    exists k' y, x = k' :: y /\ k < k').
  { intros x Hx. apply in_flat_map in Hx. destruct Hx as [[k' t'] [Hin Hx]]. apply in_map_iff in Hx.
    destruct Hx as [y [<- _]]. exists k', y. split; [reflexivity|]. exact (sorted_head _ _ _ _ _ Hl Hin). }
  pose proof (IH t (tl p) (tl q) Ht) as Hsub. revert Hsub.
  induction (iset_between d t (tl p) (tl q)) as [|x xs IHx]; intros Hsub; [exact IHl|].
  inversion Hsub as [|? ? H1 H2]; subst. cbn [map app]. constructor; [apply IHx; exact H1|].
  apply Forall_forall. intros z Hz. apply in_app_or in Hz. destruct Hz as [Hz|Hz].
  - apply in_map_iff in Hz. destruct Hz as [y [<- Hy]]. cbn. right. split; [reflexivity|].
    rewrite Forall_forall in H2. exact (H2 y Hy).
  - destruct (Hrest z Hz) as [k' [y [-> Hk]]]. cbn. left. exact Hk.
Qed.

Lemma insert_all (dim : nat) (l : list idx) : (0 < dim)%nat -> Forall (fun i => length i = dim) l ->
  iset_ok dim (fold_left (iset_insert dim) l (iset_empty dim)) /\
  forall x, length x = dim -> (iset_find dim (fold_left (iset_insert dim) l (iset_empty dim)) x = true <-> In x l).
Proof.
  intros Hd HF.
  assert (G : forall s, iset_ok dim s -> iset_ok dim (fold_left (iset_insert dim) l s) /\
    forall x, length x = dim ->
      (iset_find dim (fold_left (iset_insert dim) l s) x = true <-> In x l \/ iset_find dim s x = true)).
  { induction l as [|i l IH]; intros s Hs.
    - split; [exact Hs|]. intros x _. cbn. intuition.
    - inversion HF; subst. cbn [fold_left].
      destruct (IH ltac:(assumption) (iset_insert (length i) s i) (insert_ok _ s i Hs)) as [H3 H4].
      split; [exact H3|]. intros x Hx. rewrite H4 by exact Hx. rewrite insert_find by (auto || lia). cbn [In]. intuition. }
  destruct (G (iset_empty dim) (empty_ok dim)) as [H1 H2]. split; [exact H1|].
  intros x Hx. rewrite H2 by exact Hx. rewrite empty_find by exact Hd. intuition discriminate.
Qed.

(** The line query: only the first corner can be returned. *)
Lemma dot_fold (l : list (Z * Z)) : forall r, fold_left (fun r p => r + fst p * snd p) l r =
  r + fold_right (fun p r => fst p * snd p + r) 0 l.
Proof. induction l as [|p l IH]; intros r; cbn [fold_left fold_right]; [lia|]. rewrite IH. lia. Qed.
Definition dot' (a b : list Z) : Z := fold_right (fun p r => fst p * snd p + r) 0 (combine a b).
Lemma dot_eq (a b : list Z) : dot a b = dot' a b.
Proof. unfold dot, dot'. rewrite dot_fold. lia. Qed.

Lemma diff_dot (p q x : idx) : length p = length x -> length q = length x -> in_box p q x ->
  dot' (map (fun e => fst e - snd e) (combine p x)) (map (fun e => fst e - snd e) (combine q p)) <= 0.
Proof.
  revert p q; induction x as [|x0 x IH]; intros [|p0 p] [|q0 q] Hp Hq Hb; try discriminate.
  injection Hp as Hp. injection Hq as Hq. unfold dot'. cbn [combine map fold_right fst snd].
  specialize (IH p q Hp Hq ltac:(intros d Hd; apply (Hb (S d)); cbn; lia)). unfold dot' in IH.
  pose proof (Hb 0%nat ltac:(cbn; lia)) as H0. cbn [nth] in H0.
  assert ((p0 - x0) * (q0 - p0) <= 0) by nia. lia.
Qed.
Lemma square_sum (l : list Z) : 0 <= dot' l l /\ (dot' l l < 1 -> Forall (fun z => z = 0) l).
Proof.
  induction l as [|z l [IH1 IH2]]; [cbn; split; [lia|constructor]|].
  unfold dot' in *. cbn [combine fold_right fst snd]. split; [nia|]. intros H. constructor; [nia|]. apply IH2. nia.
Qed.
Lemma diff_zero (p x : idx) : length p = length x ->
  (Forall (fun z => z = 0) (map (fun e => fst e - snd e) (combine p x)) <-> x = p).
Proof.
  revert p; induction x as [|x0 x IH]; intros [|p0 p] HL; try discriminate; [cbn; split; auto|].
  injection HL as HL. cbn [combine map fst snd]. split.
  - intros H. inversion H as [|? ? H1 H2]; subst. f_equal; [lia|]. apply (IH p HL), H2.
  - intros H. injection H as <- <-. constructor; [lia|]. apply (IH x eq_refl). reflexivity.
Qed.

Lemma scale_zero (n : nat) : forall a b : list Z, length a = n -> length b = n ->
  map (fun p => fst p - snd p * 0) (combine a b) = a.
Proof.
  induction n as [|n IH]; intros [|x a] [|y b] Ha Hb; try discriminate; [reflexivity|].
  cbn. rewrite IH by (cbn in *; lia). f_equal. lia.
Qed.

Lemma fold_only (f : list (idx * Z) -> idx -> outcome (list (idx * Z))) (p : idx) (l : list idx) :
  StronglySorted lex_less l ->
  (forall r x, In x l -> f r x = Ok (if idx_eqb x p then r ++ [(p, 0)] else r)) ->
  forall r, ofold f l r = Ok (r ++ if in_dec (list_eq_dec Z.eq_dec) p l then [(p, 0)] else []).
Proof.
  assert (Hirr : forall x, ~ lex_less x x). { induction x as [|z x IH]; cbn; [auto|]. intros [H|[_ H]]; [lia|auto]. }
  induction l as [|x l IH]; intros Hs Hf r; [cbn; rewrite app_nil_r; reflexivity|].
  inversion Hs as [|? ? H1 H2]; subst. cbn [ofold]. rewrite (Hf r x (or_introl eq_refl)). cbn [obind].
  rewrite IH; [|exact H1|intros r' y Hy; apply Hf; right; exact Hy]. f_equal.
  destruct (idx_eqb_spec x p) as [->|Hne].
  - destruct (in_dec (list_eq_dec Z.eq_dec) p l) as [Hin|Hin].
    + rewrite Forall_forall in H2. exfalso. exact (Hirr p (H2 p Hin)).
    + destruct (in_dec (list_eq_dec Z.eq_dec) p (p :: l)) as [_|Hn]; [rewrite app_nil_r; reflexivity|].
      exfalso. apply Hn. left; reflexivity.
  - destruct (in_dec (list_eq_dec Z.eq_dec) p l) as [Hin|Hin];
      destruct (in_dec (list_eq_dec Z.eq_dec) p (x :: l)) as [Hin'|Hin']; try reflexivity.
    + exfalso. apply Hin'. right; exact Hin.
    + destruct Hin' as [E|E]; contradiction.
Qed.

Lemma get_between_spec (dim : nat) (s : iset dim) (p q : idx) :
  iset_ok dim s -> length p = dim -> length q = dim ->
  Forall (fun z => -2 ^ 30 <= z < 2 ^ 30) p -> Forall (fun z => -2 ^ 30 <= z < 2 ^ 30) q ->
  get_between dim s p q = Ok (if iset_find dim s p then [(p, 0)] else []).
Proof.
  intros Hs Hp Hq Rp Rq. unfold get_between.
  assert (Hdiff : forall a b, length a = dim -> length b = dim ->
     Forall (fun z => -2 ^ 30 <= z < 2 ^ 30) a -> Forall (fun z => -2 ^ 30 <= z < 2 ^ 30) b ->
     int_diff a b = Ok (map (fun e => fst e - snd e) (combine a b))).
  { intros a b Ha Hb Ra Rb. unfold int_diff. rewrite (proj2 (forallb_forall _ _)); [reflexivity|].
    intros z Hz. apply in_map_iff in Hz. destruct Hz as [[u v] [<- Hin]]. rewrite Forall_forall in Ra, Rb.
    specialize (Ra u (in_combine_l _ _ _ _ Hin)). specialize (Rb v (in_combine_r _ _ _ _ Hin)).
    unfold int_ok, INT_MIN, INT_MAX. cbn [fst snd]. lia. }
  rewrite (Hdiff q p Hq Hp Rq Rp). cbn [obind].
  rewrite (fold_only _ p _ (between_sorted dim s p q Hs)).
  - cbn [app]. f_equal. assert (Hpp : in_box p q p) by (intros d Hd; lia).
    pose proof (between_spec dim s p q p Hs Hp Hq) as Hin.
    destruct (in_dec (list_eq_dec Z.eq_dec) p (iset_between dim s p q)) as [Hi|Hi];
      destruct (iset_find dim s p) eqn:Ef; try reflexivity.
    + apply Hin in Hi. destruct Hi as [_ [Hi _]]. congruence.
    + exfalso. apply Hi. apply Hin. auto.
  - intros r x Hx. apply between_spec in Hx; [|assumption|assumption|assumption]. destruct Hx as [HL [_ Hb]].
    assert (Rx : Forall (fun z => -2 ^ 30 <= z < 2 ^ 30) x).
    { apply Forall_forall. intros z Hz. destruct (In_nth x z 0 Hz) as [d [Hd <-]]. specialize (Hb d Hd).
      rewrite Forall_forall in Rp, Rq. specialize (Rp (nth d p 0) ltac:(apply nth_In; lia)).
      specialize (Rq (nth d q 0) ltac:(apply nth_In; lia)). lia. }
    rewrite (Hdiff p x Hp HL Rp Rx). cbn [obind]. cbn zeta. rewrite dot_eq.
    pose proof (diff_dot p q x ltac:(congruence) ltac:(congruence) Hb) as Hle.
    set (ap := map (fun e => fst e - snd e) (combine p x)) in *.
    set (n := map (fun e => fst e - snd e) (combine q p)) in *.
    assert (Hap : length ap = dim) by (unfold ap; rewrite map_length, combine_length, Hp, HL; apply Nat.min_id).
    assert (Hn : length n = dim) by (unfold n; rewrite map_length, combine_length, Hp, Hq; apply Nat.min_id).
    destruct (idx_eqb_spec x p) as [->|Hne].
    + assert (Hz : Forall (fun z => z = 0) ap) by (apply diff_zero; reflexivity).
      assert (Hd : forall b, dot' ap b = 0).
      { revert Hz. clear. induction ap as [|z ap IH]; intros Hz [|w b]; try reflexivity. inversion Hz; subst.
        unfold dot' in *. cbn [combine fold_right fst snd]. rewrite IH by assumption. lia. }
      rewrite (Hd n). cbn [Z.leb Z.ltb Z.compare andb].
      rewrite (scale_zero dim ap n Hap Hn), dot_eq, (Hd ap). reflexivity.
    + destruct (0 <=? dot' ap n) eqn:E0; [|reflexivity]. apply Z.leb_le in E0.
      assert (Ez : dot' ap n = 0) by lia. rewrite Ez. cbn [Z.ltb Z.compare andb].
      rewrite (scale_zero dim ap n Hap Hn), dot_eq.
      destruct (Z.ltb_spec (dot' ap ap) 1) as [H1|H1]; [|reflexivity].
      apply square_sum in H1. exfalso. apply Hne. apply (diff_zero p x ltac:(congruence)). exact H1.
Qed.

Lemma box_query (dim : nat) (l : list idx) (p q : idx) :
  (0 < dim)%nat -> Forall (fun i => length i = dim) l -> length p = dim -> length q = dim ->
  StronglySorted lex_less (iset_between dim (fold_left (iset_insert dim) l (iset_empty dim)) p q) /\
  forall x, In x (iset_between dim (fold_left (iset_insert dim) l (iset_empty dim)) p q) <-> In x l /\ in_box p q x.
Proof.
  intros Hd HF Hp Hq. destruct (insert_all dim l Hd HF) as [Hok Hf]. split; [apply between_sorted; exact Hok|].
  intros x. rewrite between_spec by assumption. split.
  - intros [HL [H1 H2]]. split; [apply Hf; assumption|exact H2].
  - intros [H1 H2]. rewrite Forall_forall in HF. specialize (HF x H1). split; [exact HF|]. split; [apply Hf; assumption|exact H2].
Qed.
Lemma only_start (dim : nat) (l : list idx) (p q : idx) :
  (0 < dim)%nat -> Forall (fun i => length i = dim) l -> length p = dim -> length q = dim ->
  Forall (fun z => -2 ^ 30 <= z < 2 ^ 30) p -> Forall (fun z => -2 ^ 30 <= z < 2 ^ 30) q ->
  (In p l -> get_between dim (fold_left (iset_insert dim) l (iset_empty dim)) p q = Ok [(p, 0)]) /\
  (~ In p l -> get_between dim (fold_left (iset_insert dim) l (iset_empty dim)) p q = Ok []).
Proof.
  intros Hd HF Hp Hq Rp Rq. destruct (insert_all dim l Hd HF) as [Hok Hf].
  rewrite (get_between_spec dim _ p q Hok Hp Hq Rp Rq). specialize (Hf p Hp).
  destruct (iset_find dim (fold_left (iset_insert dim) l (iset_empty dim)) p).
  - split; [reflexivity|]. intros H. exfalso. apply H, Hf. reflexivity.
  - split; [|reflexivity]. intros H. apply Hf in H. discriminate.
Qed.

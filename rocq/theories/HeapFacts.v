From Verif Require Import Base HeapModel HeapSpec.

Section Facts.
Context {D C : Type}.
Variable d_empty : D.
Variable d_plus : D -> D -> D.
Variable c_plus : C -> C -> C.
Notation memory := (memory D C).
Notation object := (object C).

Lemma nth_error_upd_same {A : Type} (l : list A) (n : nat) (x : A) (l' : list A) :
  upd l n x = Some l' -> nth_error l' n = Some x.
Proof. intros H. rewrite (upd_nth_error _ _ _ n _ H), Nat.eqb_refl. reflexivity. Qed.
Lemma nth_error_upd_other {A : Type} (l : list A) (n m : nat) (x : A) (l' : list A) :
  upd l n x = Some l' -> n <> m -> nth_error l' m = nth_error l m.
Proof. intros H Hn. rewrite (upd_nth_error _ _ _ m _ H). destruct (Nat.eqb_spec n m); [contradiction|reflexivity]. Qed.
Lemma upd_in {A : Type} (l : list A) (n : nat) (x y : A) :
  nth_error l n = Some y -> exists l', upd l n x = Some l'.
Proof. intros H. apply upd_some. apply nth_error_Some. rewrite H. discriminate. Qed.

(** Objects [i] and [j] as separate: values [v] and [w] and distinct valid pointers. *)
Definition holds (s : memory) (i : nat) (p : option nat) (v : C * option D) : Prop :=
  nth_error (objects s) i = Some {| misses_ := fst v; pointer := p |} /\
  match p with
  | None => snd v = None
  | Some a => exists d, nth_error (heap s) a = Some d /\ snd v = Some d
  end.

Lemma show_holds (s : memory) (i : nat) (v : C * option D) :
  show s i = Ok v <-> exists p, holds s i p v.
Proof.
  unfold show, get_object, deref, holds. destruct v as [c od]. cbn [fst snd].
  destruct (nth_error (objects s) i) as [o|].
  2:{ cbn. split; [discriminate|intros [p [H _]]; discriminate]. }
  cbn [obind]. destruct o as [oc op]. cbn [pointer misses_]. split.
  - destruct op as [a|].
    + destruct (nth_error (heap s) a) as [d|] eqn:E; cbn [obind]; [|discriminate].
      intros H; injection H as <- <-. exists (Some a). split; [reflexivity|]. exists d. auto.
    + intros H; injection H as <- <-. exists None. auto.
  - intros [p [H1 H2]]. injection H1 as -> ->. destruct p as [a|].
    + destruct H2 as [d [E ->]]. rewrite E. reflexivity.
    + rewrite H2. reflexivity.
Qed.

Definition apart (p q : option nat) : Prop := match p, q with Some a, Some b => a <> b | _, _ => True end.

Lemma apart_sym (p q : option nat) : apart p q -> apart q p.
Proof. destruct p, q; cbn; auto. Qed.

Lemma app_nth {A : Type} (l : list A) (n : nat) (x : A) (y : A) :
  nth_error l n = Some y -> nth_error (l ++ [x]) n = Some y.
Proof. intros H. rewrite nth_error_app1; [exact H|]. apply nth_error_Some. rewrite H; discriminate. Qed.
Lemma app_last {A : Type} (l : list A) (x : A) : nth_error (l ++ [x]) (length l) = Some x.
Proof. rewrite nth_error_app2 by lia. rewrite Nat.sub_diag. reflexivity. Qed.

Lemma holds_fresh (s : memory) (j : nat) (q : option nat) (w : C * option D) :
  holds s j q w -> apart (Some (length (heap s))) q.
Proof.
  intros [_ H]. destruct q as [b|]; [|exact I]. destruct H as [d [H _]]. cbn. intros <-.
  assert (length (heap s) < length (heap s))%nat by (apply nth_error_Some; rewrite H; discriminate). lia.
Qed.

(** One update of [i] while [j] watches. *)
Lemma update_apart (s : memory) (i j : nat) (p q : option nat) (v w : C * option D) (u : object_update D C) :
  i <> j -> holds s i p v -> holds s j q w -> apart p q ->
  exists s' p', update_object d_empty d_plus c_plus s (i, u) = Ok s' /\
    holds s' i p' (plain_update d_empty d_plus c_plus v u) /\ holds s' j q w /\ apart p' q.
Proof.
  intros Hij Hi Hj Ha. pose proof (holds_fresh s j q w Hj) as Hf.
  destruct Hi as [Hi1 Hi2], Hj as [Hj1 Hj2].
  unfold update_object. cbn [fst snd]. destruct u as [n|f|d]; cbn [plain_update].
  - unfold updateFree, get_object, set_object. rewrite Hi1. cbn [obind misses_ pointer].
    destruct (upd_in _ _ {| misses_ := c_plus (fst v) n; pointer := p |} _ Hi1) as [l' E]. rewrite E.
    eexists _, p. split; [reflexivity|]. split; [|split; [|exact Ha]].
    + split; cbn [objects heap fst snd]; [apply (nth_error_upd_same _ _ _ _ E)|exact Hi2].
    + split; cbn [objects heap]; [rewrite (nth_error_upd_other _ _ _ _ _ E Hij); exact Hj1|exact Hj2].
  - unfold updateOccupied_point, ensure, get_object. rewrite Hi1. cbn [obind misses_ pointer].
    destruct p as [a|].
    + destruct Hi2 as [d [Ed Hd]]. cbn [obind]. unfold deref, write. rewrite Ed. cbn [obind].
      destruct (upd_in _ _ (f d) _ Ed) as [l' E]. rewrite E.
      eexists _, (Some a). split; [reflexivity|]. rewrite Hd. split; [|split; [|exact Ha]].
      * split; cbn [objects heap fst snd]; [exact Hi1|]. exists (f d). split; [apply (nth_error_upd_same _ _ _ _ E)|reflexivity].
      * split; cbn [objects heap]; [exact Hj1|]. destruct q as [b|]; [|exact Hj2]. destruct Hj2 as [e [Ee He]].
        exists e. split; [rewrite (nth_error_upd_other _ _ _ _ _ E Ha); exact Ee|exact He].
    + unfold allocate, set_object. cbn [objects heap].
      destruct (upd_in _ _ {| misses_ := fst v; pointer := Some (length (heap s)) |} _ Hi1) as [l' E]. rewrite E.
      cbn [obind]. unfold deref, write. cbn [heap]. rewrite app_last. cbn [obind].
      destruct (upd_in (heap s ++ [d_empty]) (length (heap s)) (f d_empty) _ (app_last _ _)) as [h' Eh]. rewrite Eh.
      eexists _, (Some (length (heap s))). split; [reflexivity|]. split; [|split; [|exact Hf]].
      * split; cbn [objects heap fst snd]; [apply (nth_error_upd_same _ _ _ _ E)|].
        exists (f d_empty). split; [apply (nth_error_upd_same _ _ _ _ Eh)|rewrite Hi2; reflexivity].
      * split; cbn [objects heap]; [rewrite (nth_error_upd_other _ _ _ _ _ E Hij); exact Hj1|].
        destruct q as [b|]; [|exact Hj2]. destruct Hj2 as [e [Ee He]].
        exists e. split; [rewrite (nth_error_upd_other _ _ _ _ _ Eh Hf); apply app_nth; exact Ee|exact He].
  - unfold updateOccupied_dist, ensure, get_object. rewrite Hi1. cbn [obind misses_ pointer].
    destruct p as [a|].
    + destruct Hi2 as [e [Ed Hd]]. unfold deref, write. rewrite Ed. cbn [obind].
      destruct (upd_in _ _ (d_plus e d) _ Ed) as [l' E]. rewrite E.
      eexists _, (Some a). split; [reflexivity|]. rewrite Hd. split; [|split; [|exact Ha]].
      * split; cbn [objects heap fst snd]; [exact Hi1|]. eexists. split; [apply (nth_error_upd_same _ _ _ _ E)|reflexivity].
      * split; cbn [objects heap]; [exact Hj1|]. destruct q as [b|]; [|exact Hj2]. destruct Hj2 as [e' [Ee He]].
        exists e'. split; [rewrite (nth_error_upd_other _ _ _ _ _ E Ha); exact Ee|exact He].
    + unfold allocate, set_object. cbn [objects heap].
      destruct (upd_in _ _ {| misses_ := fst v; pointer := Some (length (heap s)) |} _ Hi1) as [l' E]. rewrite E.
      cbn [obind]. eexists _, (Some (length (heap s))). split; [reflexivity|]. split; [|split; [|exact Hf]].
      * split; cbn [objects heap fst snd]; [apply (nth_error_upd_same _ _ _ _ E)|].
        exists d. split; [apply app_last|rewrite Hi2; reflexivity].
      * split; cbn [objects heap]; [rewrite (nth_error_upd_other _ _ _ _ _ E Hij); exact Hj1|].
        destruct q as [b|]; [|exact Hj2]. destruct Hj2 as [e [Ee He]].
        exists e. split; [apply app_nth; exact Ee|exact He].
Qed.

Lemma updates_of_cons (i : nat) (iu : nat * object_update D C) (l : list (nat * object_update D C)) :
  updates_of i (iu :: l) = if Nat.eqb (fst iu) i then snd iu :: updates_of i l else updates_of i l.
Proof. unfold updates_of. cbn [filter]. destruct (Nat.eqb (fst iu) i); reflexivity. Qed.

Lemma apart_independent (s : memory) (i j : nat) (p q : option nat) (v w : C * option D) :
  i <> j -> holds s i p v -> holds s j q w -> apart p q ->
  independent d_empty d_plus c_plus s i j.
Proof.
  intros Hij Hi Hj Ha. exists v, w. split; [apply show_holds; exists p; exact Hi|].
  split; [apply show_holds; exists q; exact Hj|].
  intros l Hl. revert s p q v w Hi Hj Ha.
  induction Hl as [|[k u] l Hk _ IH]; intros s p q v w Hi Hj Ha.
  - exists s. split; [reflexivity|]. split; apply show_holds; [exists p|exists q]; assumption.
  - cbn [fst] in Hk. cbn [ofold]. rewrite !updates_of_cons. cbn [fst snd]. destruct Hk as [->| ->].
    + destruct (update_apart s i j p q v w u Hij Hi Hj Ha) as [s' [p' [E [Hi' [Hj' Ha']]]]].
      rewrite E. cbn [obind]. rewrite Nat.eqb_refl. destruct (Nat.eqb_spec i j); [contradiction|].
      cbn [fold_left]. eapply IH; eassumption.
    + destruct (update_apart s j i q p w v u (not_eq_sym Hij) Hj Hi (apart_sym _ _ Ha)) as [s' [q' [E [Hj' [Hi' Ha']]]]].
      rewrite E. cbn [obind]. rewrite Nat.eqb_refl. destruct (Nat.eqb_spec j i); [congruence|].
      cbn [fold_left]. eapply IH; [exact Hi'|exact Hj'|apply apart_sym; exact Ha'].
Qed.

Lemma sound_holds (s : memory) (i : nat) (o : object) :
  sound_memory s -> nth_error (objects s) i = Some o -> exists v, holds s i (pointer o) v /\ fst v = misses_ o.
Proof.
  intros Hs Ho. pose proof Ho as Ho'. apply nth_error_In in Ho'. unfold sound_memory in Hs. rewrite Forall_forall in Hs. specialize (Hs o Ho').
  destruct o as [c [a|]]; cbn [pointer misses_] in *.
  - destruct (nth_error (heap s) a) as [d|] eqn:E; [|apply nth_error_None in E; lia].
    exists (c, Some d). split; [|reflexivity]. split; [exact Ho|]. exists d. auto.
  - exists (c, None). split; [|reflexivity]. split; [exact Ho|reflexivity].
Qed.

Lemma object_exists (s : memory) (i : nat) :
  (i < length (objects s))%nat -> exists o, nth_error (objects s) i = Some o.
Proof. intros H. destruct (nth_error (objects s) i) eqn:E; [eauto|]. apply nth_error_None in E. lia. Qed.

(** Copy construction. *)
Lemma deep_copy (s : memory) (i : nat) :
  sound_memory s -> (i < length (objects s))%nat ->
  exists s' v, copy_construct true s i = Ok s' /\ show s i = Ok v /\ show s' i = Ok v /\
    show s' (length (objects s)) = Ok v /\ independent d_empty d_plus c_plus s' i (length (objects s)).
Proof.
  intros Hs Hi. destruct (object_exists s i Hi) as [o Ho]. destruct (sound_holds s i o Hs Ho) as [v [Hv Hc]].
  assert (Hne : i <> length (objects s)) by lia.
  unfold copy_construct, get_object. rewrite Ho. cbn [obind]. destruct o as [c [a|]]; cbn [pointer misses_] in *.
  - destruct Hv as [Hv1 [d [Ed Hd]]]. unfold copy_pointer, deref. rewrite Ed. cbn [obind allocate heap objects].
    assert (A : holds {| heap := heap s ++ [d]; objects := objects s ++ [{| misses_ := c; pointer := Some (length (heap s)) |}] |} i (Some a) v).
    { split; cbn [objects heap]; [apply app_nth; exact Hv1|]. exists d. split; [apply app_nth; exact Ed|exact Hd]. }
    assert (B : holds {| heap := heap s ++ [d]; objects := objects s ++ [{| misses_ := c; pointer := Some (length (heap s)) |}] |}
                  (length (objects s)) (Some (length (heap s))) v).
    { split; cbn [objects heap]; [rewrite Hc; apply app_last|]. exists d. split; [apply app_last|exact Hd]. }
    eexists _, v. split; [reflexivity|].
    split; [apply show_holds; exists (Some a); split; [exact Hv1|exists d; auto]|].
    split; [apply show_holds; eexists; exact A|]. split; [apply show_holds; eexists; exact B|].
    eapply apart_independent; [exact Hne|exact A|exact B|]. cbn. intros ->.
    assert (length (heap s) < length (heap s))%nat by (apply nth_error_Some; rewrite Ed; discriminate). lia.
  - cbn [copy_pointer obind heap objects].
    destruct Hv as [Hv1 Hv2].
    assert (A : holds {| heap := heap s; objects := objects s ++ [{| misses_ := c; pointer := None |}] |} i None v).
    { split; cbn [objects heap]; [apply app_nth; exact Hv1|exact Hv2]. }
    assert (B : holds {| heap := heap s; objects := objects s ++ [{| misses_ := c; pointer := None |}] |} (length (objects s)) None v).
    { split; cbn [objects heap]; [rewrite Hc; apply app_last|exact Hv2]. }
    eexists _, v. split; [reflexivity|]. split; [apply show_holds; exists None; split; assumption|].
    split; [apply show_holds; eexists; exact A|]. split; [apply show_holds; eexists; exact B|].
    eapply apart_independent; [exact Hne|exact A|exact B|exact I].
Qed.

(** Assignment of another object. *)
Lemma deep_assign (s : memory) (i j : nat) :
  sound_memory s -> (i < length (objects s))%nat -> (j < length (objects s))%nat -> i <> j ->
  exists s' v, assign true s i j = Ok s' /\ show s j = Ok v /\ show s' j = Ok v /\ show s' i = Ok v /\
    independent d_empty d_plus c_plus s' i j.
Proof.
  intros Hs Hi Hj Hij. destruct (object_exists s i Hi) as [oi Hoi]. destruct (object_exists s j Hj) as [o Ho].
  destruct (sound_holds s j o Hs Ho) as [v [Hv Hc]].
  unfold assign, get_object. rewrite Ho. cbn [obind]. destruct o as [c [a|]]; cbn [pointer misses_] in *.
  - destruct Hv as [Hv1 [d [Ed Hd]]]. unfold copy_pointer, deref. rewrite Ed. cbn [obind allocate heap objects].
    unfold set_object. cbn [objects heap].
    destruct (upd_in _ _ {| misses_ := c; pointer := Some (length (heap s)) |} _ Hoi) as [l' E]. rewrite E.
    assert (A : holds {| heap := heap s ++ [d]; objects := l' |} j (Some a) v).
    { split; cbn [objects heap]; [rewrite (nth_error_upd_other _ _ _ _ _ E Hij); exact Hv1|].
      exists d. split; [apply app_nth; exact Ed|exact Hd]. }
    assert (B : holds {| heap := heap s ++ [d]; objects := l' |} i (Some (length (heap s))) v).
    { split; cbn [objects heap]; [rewrite Hc; apply (nth_error_upd_same _ _ _ _ E)|]. exists d. split; [apply app_last|exact Hd]. }
    eexists _, v. split; [reflexivity|].
    split; [apply show_holds; exists (Some a); split; [exact Hv1|exists d; auto]|].
    split; [apply show_holds; eexists; exact A|]. split; [apply show_holds; eexists; exact B|].
    eapply apart_independent; [exact Hij|exact B|exact A|]. cbn. intros <-.
    assert (length (heap s) < length (heap s))%nat by (apply nth_error_Some; rewrite Ed; discriminate). lia.
  - cbn [copy_pointer obind heap objects]. destruct Hv as [Hv1 Hv2]. unfold set_object. 
    destruct (upd_in _ _ {| misses_ := c; pointer := None |} _ Hoi) as [l' E]. rewrite E.
    assert (A : holds {| heap := heap s; objects := l' |} j None v).
    { split; cbn [objects heap]; [rewrite (nth_error_upd_other _ _ _ _ _ E Hij); exact Hv1|exact Hv2]. }
    assert (B : holds {| heap := heap s; objects := l' |} i None v).
    { split; cbn [objects heap]; [rewrite Hc; apply (nth_error_upd_same _ _ _ _ E)|exact Hv2]. }
    eexists _, v. split; [reflexivity|]. split; [apply show_holds; exists None; split; assumption|].
    split; [apply show_holds; eexists; exact A|]. split; [apply show_holds; eexists; exact B|].
    eapply apart_independent; [exact Hij|exact B|exact A|exact I].
Qed.

(** Self-assignment keeps the value. *)
Lemma deep_assign_self (s : memory) (i : nat) :
  sound_memory s -> (i < length (objects s))%nat ->
  exists s' v, assign true s i i = Ok s' /\ show s i = Ok v /\ show s' i = Ok v.
Proof.
  intros Hs Hi. destruct (object_exists s i Hi) as [o Ho]. destruct (sound_holds s i o Hs Ho) as [v [Hv Hc]].
  unfold assign, get_object. rewrite Ho. cbn [obind]. destruct o as [c [a|]]; cbn [pointer misses_] in *.
  - destruct Hv as [Hv1 [d [Ed Hd]]]. unfold copy_pointer, deref. rewrite Ed. cbn [obind allocate heap objects].
    unfold set_object. cbn [objects heap].
    destruct (upd_in _ _ {| misses_ := c; pointer := Some (length (heap s)) |} _ Ho) as [l' E]. rewrite E.
    eexists _, v. split; [reflexivity|].
    split; [apply show_holds; exists (Some a); split; [exact Hv1|exists d; auto]|].
    apply show_holds. exists (Some (length (heap s))).
    split; cbn [objects heap]; [rewrite Hc; apply (nth_error_upd_same _ _ _ _ E)|]. exists d. split; [apply app_last|exact Hd].
  - cbn [copy_pointer obind heap objects]. destruct Hv as [Hv1 Hv2]. unfold set_object.
    destruct (upd_in _ _ {| misses_ := c; pointer := None |} _ Ho) as [l' E]. rewrite E.
    eexists _, v. split; [reflexivity|]. split; [apply show_holds; exists None; split; assumption|].
    apply show_holds. exists None. split; cbn [objects heap]; [rewrite Hc; apply (nth_error_upd_same _ _ _ _ E)|exact Hv2].
Qed.

(** A shallow copy of an object without statistics. *)
Lemma shallow_copy_null (s : memory) (i : nat) (n : C) :
  show s i = Ok (n, None) ->
  exists s', copy_construct false s i = Ok s' /\ show s' (length (objects s)) = Ok (n, None) /\
    independent d_empty d_plus c_plus s' i (length (objects s)).
Proof.
  intros H. apply show_holds in H. destruct H as [p [H1 H2]]. cbn [fst snd] in *.
  destruct p as [a|]; [destruct H2 as [d [_ H2]]; discriminate|].
  assert (Hi : (i < length (objects s))%nat) by (apply nth_error_Some; rewrite H1; discriminate).
  unfold copy_construct, get_object. rewrite H1. cbn [obind copy_pointer pointer misses_ heap objects].
  eexists. split; [reflexivity|].
  assert (A : holds {| heap := heap s; objects := objects s ++ [{| misses_ := n; pointer := None |}] |} i None (n, None)).
  { split; [apply app_nth; exact H1|reflexivity]. }
  assert (B : holds {| heap := heap s; objects := objects s ++ [{| misses_ := n; pointer := None |}] |} (length (objects s)) None (n, None)).
  { split; [apply app_last|reflexivity]. }
  split; [apply show_holds; eexists; exact B|]. eapply apart_independent; [lia|exact A|exact B|exact I].
Qed.

Lemma shallow_assign_null (s : memory) (i j : nat) (n : C) :
  (i < length (objects s))%nat -> i <> j -> show s j = Ok (n, None) ->
  exists s', assign false s i j = Ok s' /\ show s' i = Ok (n, None) /\
    independent d_empty d_plus c_plus s' i j.
Proof.
  intros Hi Hij H. destruct (object_exists s i Hi) as [oi Hoi]. apply show_holds in H. destruct H as [p [H1 H2]]. cbn [fst snd] in *.
  destruct p as [a|]; [destruct H2 as [d [_ H2]]; discriminate|].
  unfold assign, get_object. rewrite H1. cbn [obind copy_pointer pointer misses_ heap objects]. unfold set_object.
  destruct (upd_in _ _ {| misses_ := n; pointer := None |} _ Hoi) as [l' E]. rewrite E.
  eexists. split; [reflexivity|].
  assert (A : holds {| heap := heap s; objects := l' |} j None (n, None)).
  { split; cbn [objects heap]; [rewrite (nth_error_upd_other _ _ _ _ _ E Hij); exact H1|reflexivity]. }
  assert (B : holds {| heap := heap s; objects := l' |} i None (n, None)).
  { split; cbn [objects heap]; [apply (nth_error_upd_same _ _ _ _ E)|reflexivity]. }
  split; [apply show_holds; eexists; exact B|]. eapply apart_independent; [exact Hij|exact B|exact A|exact I].
Qed.

Lemma distinct_intro (s : memory) (i j : nat) :
  sound_memory s -> (i < length (objects s))%nat -> (j < length (objects s))%nat -> i <> j -> unshared s i j ->
  i <> j /\ exists p q v w, holds s i p v /\ holds s j q w /\ apart p q.
Proof.
  intros Hs Hi Hj Hij Hu. split; [exact Hij|]. destruct (object_exists s i Hi) as [oi Hoi]. destruct (object_exists s j Hj) as [oj Hoj].
  destruct (sound_holds s i oi Hs Hoi) as [v [Hv _]]. destruct (sound_holds s j oj Hs Hoj) as [w [Hw _]].
  exists (pointer oi), (pointer oj), v, w. split; [exact Hv|]. split; [exact Hw|].
  unfold unshared in Hu. rewrite Hoi, Hoj in Hu. destruct oi as [ci [a|]], oj as [cj [b|]]; cbn; auto.
  intros ->. exact (Hu b eq_refl eq_refl).
Qed.

Lemma merge_adds (s : memory) (i j : nat) (p q : option nat) (v w : C * option D) :
  i <> j -> holds s i p v -> holds s j q w -> apart p q ->
  exists s', merge d_plus c_plus s i j = Ok s' /\
    holds s' i (match p with Some a => Some a | None => q end) (plain_merge d_plus c_plus v w) /\ holds s' j q w.
Proof.
  intros Hij Hi Hj Ha. destruct Hi as [Hi1 Hi2], Hj as [Hj1 Hj2].
  unfold merge, get_object, set_object. rewrite Hi1, Hj1. cbn [obind misses_ pointer].
  destruct (upd_in _ _ {| misses_ := c_plus (fst v) (fst w); pointer := p |} _ Hi1) as [l' E]. rewrite E.
  cbn [obind objects]. rewrite (nth_error_upd_other _ _ _ _ _ E Hij), Hj1. cbn [obind pointer].
  destruct q as [b|].
  - destruct Hj2 as [e [Ee He]]. destruct p as [a|].
    + destruct Hi2 as [d [Ed Hd]]. unfold deref, write. cbn [heap]. rewrite Ed, Ee. cbn [obind].
      destruct (upd_in _ _ (d_plus d e) _ Ed) as [h' Eh]. rewrite Eh. eexists. split; [reflexivity|]. split.
      * split; cbn [objects heap plain_merge fst snd]; [apply (nth_error_upd_same _ _ _ _ E)|].
        exists (d_plus d e). split; [apply (nth_error_upd_same _ _ _ _ Eh)|]. rewrite Hd, He. reflexivity.
      * split; cbn [objects heap]; [rewrite (nth_error_upd_other _ _ _ _ _ E Hij); exact Hj1|].
        exists e. split; [rewrite (nth_error_upd_other _ _ _ _ _ Eh Ha); exact Ee|exact He].
    + destruct (upd_in _ _ {| misses_ := c_plus (fst v) (fst w); pointer := Some b |} _ (nth_error_upd_same _ _ _ _ E)) as [l2 E2].
      rewrite E2. eexists. split; [reflexivity|]. split.
      * split; cbn [objects heap plain_merge fst snd]; [apply (nth_error_upd_same _ _ _ _ E2)|].
        exists e. split; [exact Ee|]. rewrite Hi2, He. reflexivity.
      * split; cbn [objects heap].
        -- rewrite (nth_error_upd_other _ _ _ _ _ E2 Hij), (nth_error_upd_other _ _ _ _ _ E Hij). exact Hj1.
        -- exists e. auto.
  - eexists. split; [reflexivity|]. split.
    + split; cbn [objects heap plain_merge fst snd].
      * destruct p; apply (nth_error_upd_same _ _ _ _ E).
      * rewrite Hj2. destruct p as [a|]; exact Hi2.
    + split; cbn [objects heap]; [rewrite (nth_error_upd_other _ _ _ _ _ E Hij); exact Hj1|exact Hj2].
Qed.

(** Merging into an object that already has statistics, or from one without. *)
Lemma merge_independent (s : memory) (i j : nat) (v w : C * option D) :
  sound_memory s -> (i < length (objects s))%nat -> (j < length (objects s))%nat -> i <> j -> unshared s i j ->
  show s i = Ok v -> show s j = Ok w -> (snd v <> None \/ snd w = None) ->
  exists s', merge d_plus c_plus s i j = Ok s' /\ show s' i = Ok (plain_merge d_plus c_plus v w) /\ show s' j = Ok w /\
    independent d_empty d_plus c_plus s' i j.
Proof.
  intros Hs Li Lj Hij0 Hu Sv Sw Hc. destruct (distinct_intro s i j Hs Li Lj Hij0 Hu) as [Hij [p [q [v' [w' [Hi [Hj Ha]]]]]]].
  assert (v' = v). { assert (K : show s i = Ok v') by (apply show_holds; exists p; exact Hi). congruence. }
  assert (w' = w). { assert (K : show s j = Ok w') by (apply show_holds; exists q; exact Hj). congruence. }
  subst v' w'. destruct (merge_adds s i j p q v w Hij Hi Hj Ha) as [s' [E [A B]]].
  exists s'. split; [exact E|]. split; [apply show_holds; eexists; exact A|]. split; [apply show_holds; eexists; exact B|].
  eapply apart_independent; [exact Hij|exact A|exact B|].
  destruct p as [a|]; [exact Ha|]. destruct q as [b|]; [|exact I].
  destruct Hi as [_ Hi], Hj as [_ [e [_ He]]]. destruct Hc as [Hc|Hc]; [contradiction|congruence].
Qed.

Lemma merge_shows (s : memory) (i j : nat) (v w : C * option D) :
  sound_memory s -> (i < length (objects s))%nat -> (j < length (objects s))%nat -> i <> j -> unshared s i j ->
  show s i = Ok v -> show s j = Ok w ->
  exists s', merge d_plus c_plus s i j = Ok s' /\ show s' i = Ok (plain_merge d_plus c_plus v w) /\ show s' j = Ok w.
Proof.
  intros Hs Li Lj Hij0 Hu Sv Sw. destruct (distinct_intro s i j Hs Li Lj Hij0 Hu) as [Hij [p [q [v' [w' [Hi [Hj Ha]]]]]]].
  assert (v' = v). { assert (K : show s i = Ok v') by (apply show_holds; exists p; exact Hi). congruence. }
  assert (w' = w). { assert (K : show s j = Ok w') by (apply show_holds; exists q; exact Hj). congruence. }
  subst v' w'. destruct (merge_adds s i j p q v w Hij Hi Hj Ha) as [s' [E [A B]]].
  exists s'. split; [exact E|]. split; apply show_holds; eexists; eassumption.
Qed.

End Facts.

(** Facts about octrees used by several threads. *)
From Verif Require Import Base OctreeSpec OctreeModel TreeHeapSpec TreeHeapModel TreeHeapFacts ShareModel.
Open Scope Z_scope.

Ltac ostep := match goal with |- context [obind ?x _] => destruct x; cbn [obind]; try reflexivity end.

Section Facts.
Context {V : Type}.
Local Notation prog := (prog V).
Local Notation shared := (shared V).

Definition stopped {A : Type} (p : prog A) : option A := match p with Ret a => Some a | _ => None end.

Lemma alone_step {A : Type} (p : prog A) (s : shared) :
  stopped p = None -> alone p s = let* r := pstep p s in alone (snd r) (fst r).
Proof.
  destruct p; cbn [stopped alone pstep]; intros H; try discriminate; try reflexivity.
  - destruct (tree_at s t); reflexivity.
  - destruct (tree_at s t); cbn [obind]; try reflexivity. destruct (set_tree _ _ _); reflexivity.
  - destruct (tree_at s t); reflexivity.
  - destruct (tree_at s t); cbn [obind]; try reflexivity. destruct (set_tree _ _ _); reflexivity.
  - destruct (word_of _ _); reflexivity.
  - destruct (word_of _ _); cbn [obind]; try reflexivity. destruct (store _ _ _); reflexivity.
  - destruct (array_of _ _); cbn [obind]; try reflexivity. destruct (entry _ _); reflexivity.
  - destruct (array_of _ _); cbn [obind]; try reflexivity. destruct (upd _ _ _); cbn [obind]; try reflexivity.
    destruct (store _ _ _); reflexivity.
  - destruct (data_of _ _); reflexivity.
  - destruct (data_of _ _); cbn [obind]; try reflexivity. destruct (store _ _ _); reflexivity.
Qed.

Lemma alone_bind {A B : Type} (p : prog A) (q : A -> prog B) (s : shared) :
  alone (pbind p q) s = let* r := alone p s in alone (q (snd r)) (fst r).
Proof.
  revert s; induction p; intros s; cbn [pbind alone]; try reflexivity;
    repeat (match goal with |- context [obind (tree_at ?s ?t) _] => destruct (tree_at s t); cbn [obind]; try reflexivity end);
    auto.
  - destruct (set_tree _ _ _); cbn [obind]; auto.
  - destruct (set_tree _ _ _); cbn [obind]; auto.
  - destruct (word_of _ _); cbn [obind]; auto.
  - destruct (word_of _ _); cbn [obind]; auto. destruct (store _ _ _); cbn [obind]; auto.
  - destruct (array_of _ _); cbn [obind]; auto. destruct (entry _ _); cbn [obind]; auto.
  - destruct (array_of _ _); cbn [obind]; auto. destruct (upd _ _ _); cbn [obind]; auto. destruct (store _ _ _); cbn [obind]; auto.
  - destruct (data_of _ _); cbn [obind]; auto.
  - destruct (data_of _ _); cbn [obind]; auto. destruct (store _ _ _); cbn [obind]; auto.
  - unfold new_object. apply H.
Qed.

(** ** Programs without effect *)
Fixpoint quiet {A : Type} (p : prog A) (s : shared) : Prop :=
  match p with
  | Ret _ | Crash => True
  | ReadRoot t k => forall x, tree_at s t = Ok x -> quiet (k (root_ x)) s
  | ReadSize t k => forall x, tree_at s t = Ok x -> quiet (k (tree_size_ x)) s
  | ReadWord n k => forall w, word_of (mem s) n = Ok w -> quiet (k w) s
  | ReadEntry a pos k => forall l x, array_of (mem s) a = Ok l -> entry l pos = Ok x -> quiet (k x) s
  | ReadData d k => forall e, data_of (mem s) d = Ok e -> quiet (k e) s
  | _ => False
  end.

Lemma quiet_step {A : Type} (p p' : prog A) (s s' : shared) :
  quiet p s -> pstep p s = Ok (s', p') -> s' = s /\ quiet p' s.
Proof.
  destruct p; cbn [quiet pstep]; intros Q H; try contradiction; try discriminate.
  - injection H as <- <-. auto.
  - obreak H. injection H as <- <-. auto.
  - obreak H. injection H as <- <-. auto.
  - obreak H. injection H as <- <-. auto.
  - obreak H. obreak H. injection H as <- <-. eauto.
  - obreak H. injection H as <- <-. auto.
Qed.

Lemma quiet_alone {A : Type} (p : prog A) (s s' : shared) (a : A) :
  quiet p s -> alone p s = Ok (s', a) -> s' = s.
Proof.
  revert s; induction p; intros s; cbn [quiet alone]; intros Q H'; try contradiction; try discriminate.
  - congruence.
  - obreak H'. eauto.
  - obreak H'. eauto.
  - obreak H'. eauto.
  - obreak H'. obreak H'. eauto.
  - obreak H'. eauto.
Qed.

Lemma quiet_bind {A B : Type} (p : prog A) (q : A -> prog B) (s : shared) :
  quiet p s -> (forall a, alone p s = Ok (s, a) -> quiet (q a) s) -> quiet (pbind p q) s.
Proof.
  revert s; induction p; intros s; cbn [quiet pbind alone]; intros Q HQ; try contradiction; auto.
  - intros x Hx. apply H; [auto|]. intros a Ha. apply HQ. rewrite Hx. exact Ha.
  - intros x Hx. apply H; [auto|]. intros a Ha. apply HQ. rewrite Hx. exact Ha.
  - intros x Hx. apply H; [auto|]. intros a Ha. apply HQ. rewrite Hx. exact Ha.
  - intros l x Hl Hx. apply H; [eauto|]. intros b Ha. apply HQ. rewrite Hl. cbn [obind]. rewrite Hx. exact Ha.
  - intros x Hx. apply H; [auto|]. intros a Ha. apply HQ. rewrite Hx. exact Ha.
Qed.

Lemma quiet_lift {A : Type} (x : outcome A) (s : shared) : quiet (lift x) s.
Proof. destruct x; exact I. Qed.

Lemma quiet_children (n : nat) (s : shared) : quiet (p_children n) s.
Proof. cbn. intros [| |] _; exact I. Qed.
Lemma quiet_data_ptr (n : nat) (s : shared) : quiet (p_data_ptr n) s.
Proof. cbn. intros [| |] _; exact I. Qed.
Lemma quiet_childExists (n pos : nat) (s : shared) : quiet (p_childExists n pos) s.
Proof. apply quiet_bind; [apply quiet_children|]. intros [a|] _; cbn; auto. Qed.
Lemma quiet_getChild (n pos : nat) (s : shared) : quiet (p_getChild n pos) s.
Proof. apply quiet_bind; [apply quiet_children|]. intros [a|] _; cbn; [|exact I]. intros l [x|] _ _; exact I. Qed.
Lemma quiet_at_get (r n : nat) (i : idx) (s : shared) : quiet (p_at_get r n i) s.
Proof.
  revert n; induction r as [|r IH]; intros n; [apply quiet_data_ptr|]. cbn [p_at_get].
  apply quiet_bind; [apply quiet_lift|]. intros pos _.
  apply quiet_bind; [apply quiet_childExists|]. intros [|] _; [|exact I].
  apply quiet_bind; [apply quiet_getChild|]. intros c _. apply IH.
Qed.
Lemma quiet_get (t : nat) (i : idx) (s : shared) : quiet (p_get t i) s.
Proof. cbn [p_get quiet]. intros x _. destruct (root_ x); [apply quiet_at_get|exact I]. Qed.

(** Number of accesses of a program on its own. *)
Fixpoint turns {A : Type} (p : prog A) (s : shared) : nat :=
  match p with
  | Ret _ | Crash => O
  | ReadRoot t k => match tree_at s t with Ok x => S (turns (k (root_ x)) s) | _ => O end
  | WriteRoot t n k =>
      match tree_at s t with
      | Ok x => match set_tree s t {| root_ := Some n; tree_size_ := tree_size_ x |} with Ok s' => S (turns k s') | _ => O end
      | _ => O end
  | ReadSize t k => match tree_at s t with Ok x => S (turns (k (tree_size_ x)) s) | _ => O end
  | WriteSize t z k =>
      match tree_at s t with
      | Ok x => match set_tree s t {| root_ := root_ x; tree_size_ := z |} with Ok s' => S (turns k s') | _ => O end
      | _ => O end
  | ReadWord n k => match word_of (mem s) n with Ok w => S (turns (k w) s) | _ => O end
  | WriteWord n w k => match store (mem s) n (ONode w) with Ok h => S (turns k (set_mem s h)) | _ => O end
  | ReadEntry a pos k =>
      match array_of (mem s) a with
      | Ok l => match entry l pos with Ok x => S (turns (k x) s) | _ => O end
      | _ => O end
  | WriteEntry a pos c k =>
      match array_of (mem s) a with
      | Ok l => match upd l pos (Some c) with
                | Some l' => match store (mem s) a (OChildren l') with Ok h => S (turns k (set_mem s h)) | _ => O end
                | None => O end
      | _ => O end
  | ReadData d k => match data_of (mem s) d with Ok e => S (turns (k e) s) | _ => O end
  | UpdateData d f k =>
      match data_of (mem s) d with
      | Ok e => match store (mem s) d (OData (fst e) (f (snd e))) with Ok h => S (turns k (set_mem s h)) | _ => O end
      | _ => O end
  | NewObject o k => let (h, a) := new_object (mem s) o in S (turns (k a) (set_mem s h))
  end.

Lemma turns_step {A : Type} (p p' : prog A) (s s' : shared) :
  pstep p s = Ok (s', p') -> turns p' s' = pred (turns p s).
Proof.
  destruct p; cbn [pstep turns]; intros H; try discriminate.
  - injection H as <- <-. reflexivity.
  - obreak H. injection H as <- <-. rewrite E. reflexivity.
  - obreak H. obreak H. injection H as <- <-. rewrite E, E0. reflexivity.
  - obreak H. injection H as <- <-. rewrite E. reflexivity.
  - obreak H. obreak H. injection H as <- <-. rewrite E, E0. reflexivity.
  - obreak H. injection H as <- <-. rewrite E. reflexivity.
  - obreak H. obreak H. injection H as <- <-. rewrite E0. reflexivity.
  - obreak H. obreak H. injection H as <- <-. rewrite E, E0. reflexivity.
  - obreak H. rewrite E. destruct (upd a0 pos (Some c)); [|discriminate]. obreak H. injection H as <- <-. rewrite E0. reflexivity.
  - obreak H. injection H as <- <-. rewrite E. reflexivity.
  - obreak H. obreak H. injection H as <- <-. rewrite E, E0. reflexivity.
  - injection H as <- <-. reflexivity.
Qed.

Lemma turns_stop {A : Type} (p : prog A) (s s' : shared) (a : A) :
  alone p s = Ok (s', a) -> turns p s = O -> p = Ret a.
Proof.
  destruct p; cbn [alone turns]; intros H T; try discriminate.
  - congruence.
  - obreak H. rewrite E in T. discriminate.
  - obreak H. obreak H. rewrite E, E0 in T. discriminate.
  - obreak H. rewrite E in T. discriminate.
  - obreak H. obreak H. rewrite E, E0 in T. discriminate.
  - obreak H. rewrite E in T. discriminate.
  - obreak H. obreak H. rewrite E0 in T. discriminate.
  - obreak H. obreak H. rewrite E, E0 in T. discriminate.
  - obreak H. rewrite E in T. destruct (upd a1 pos (Some c)); [|discriminate]. obreak H. rewrite E0 in T. discriminate.
  - obreak H. rewrite E in T. discriminate.
  - obreak H. obreak H. rewrite E, E0 in T. discriminate.
Qed.

(** A step of a program that would finish alone. *)
Lemma alone_pstep {A : Type} (p : prog A) (s s' : shared) (a : A) :
  alone p s = Ok (s', a) -> exists s1 p1, pstep p s = Ok (s1, p1) /\ alone p1 s1 = Ok (s', a).
Proof.
  intros H. destruct (stopped p) as [b|] eqn:E.
  - destruct p; try discriminate. exists s, (Ret a0). auto.
  - rewrite (alone_step p s E) in H. obreak H. destruct a0 as [s1 p1]. exists s1, p1. auto.
Qed.

Definition given (i : nat) (schedule : list nat) : nat := count_occ Nat.eq_dec schedule i.

Lemma nth_upd {A : Type} (l l' : list A) (i j : nat) (x y : A) :
  upd l i x = Some l' -> nth_error l' j = Some y -> (i = j /\ y = x) \/ (i <> j /\ nth_error l j = Some y).
Proof.
  intros U H. rewrite (upd_nth_error l l' i j x U) in H. destruct (Nat.eqb_spec i j); [left|right]; split; congruence.
Qed.

Lemma quiet_at_traverse (dims r n : nat) (s : shared) : quiet (p_at_traverse dims r n) s.
Proof.
  revert n; induction r as [|r IH]; intros n; cbn [p_at_traverse].
  - apply quiet_bind; [apply quiet_data_ptr|]. intros [d|] _; [intros e _; exact I|exact I].
  - generalize (seq 0 (2 ^ dims)%nat). intros l. induction l as [|i l IHl]; [exact I|].
    apply quiet_bind; [apply quiet_childExists|]. intros [|] _; [|exact IHl].
    apply quiet_bind; [apply quiet_getChild|]. intros c _. apply quiet_bind; [apply IH|]. intros a _.
    apply quiet_bind; [exact IHl|]. intros b _. exact I.
Qed.
Lemma quiet_traverse (dims t : nat) (s : shared) : quiet (p_traverse dims t) s.
Proof. intros x _. destruct (root_ x); [apply quiet_at_traverse|exact I]. Qed.

(** Any number of programs that change nothing. *)
Lemma interleave_quiet {A : Type} (schedule : list nat) (s : shared) (ps : list (prog A)) :
  (forall i p, nth_error ps i = Some p -> quiet p s /\ exists r, alone p s = Ok (s, r)) ->
  exists ps', interleave schedule s ps = Ok (s, ps') /\ length ps' = length ps /\
    forall i p p', nth_error ps i = Some p -> nth_error ps' i = Some p' ->
      quiet p' s /\ alone p' s = alone p s /\ turns p' s = (turns p s - given i schedule)%nat.
Proof.
  unfold interleave. revert ps; induction schedule as [|j schedule IH]; intros ps H.
  - exists ps. split; [reflexivity|]. split; [reflexivity|]. intros i p p' E E'. rewrite E in E'. injection E' as <-.
    split; [apply (H i p E)|]. split; [reflexivity|]. cbn. lia.
  - cbn [ofold]. unfold turn at 1. cbn [fst snd]. destruct (nth_error ps j) as [p|] eqn:E.
    + destruct (H j p E) as [Q [r R]]. destruct (alone_pstep p s s r R) as [s1 [p1 [P R1]]].
      destruct (quiet_step p p1 s s1 Q P) as [-> Q1]. rewrite P. cbn [obind fst snd].
      destruct (upd_some ps j p1) as [ps1 U]; [apply nth_error_Some; congruence|]. rewrite U. cbn [obind].
      destruct (IH ps1) as [ps' [I [L K]]].
      { intros i q Hq. destruct (nth_upd ps ps1 j i p1 q U Hq) as [[-> ->]|[N Hi]]; eauto. }
      exists ps'. split; [exact I|]. split; [rewrite L; eapply upd_length; exact U|].
      intros i q q' Hq Hq'. assert (B : (i < length ps1)%nat) by (rewrite (upd_length ps ps1 j p1 U); apply nth_error_Some; congruence).
      apply nth_error_Some in B. destruct (nth_error ps1 i) as [q1|] eqn:E1; [|congruence].
      destruct (K i q1 q' E1 Hq') as [K0 [K1 K2]]. split; [exact K0|]. rewrite K1, K2. unfold given. cbn [count_occ].
      destruct (nth_upd ps ps1 j i p1 q1 U E1) as [[-> ->]|[N Hi]].
      * rewrite E in Hq. injection Hq as <-. split; [congruence|]. rewrite (turns_step p p1 s s P).
        destruct (Nat.eq_dec i i); lia.
      * rewrite Hi in Hq. injection Hq as <-. split; [reflexivity|]. destruct (Nat.eq_dec j i); [congruence|reflexivity].
    + cbn [obind]. destruct (IH ps H) as [ps' [I [L K]]]. exists ps'. split; [exact I|]. split; [exact L|].
      intros i q q' Hq Hq'. destruct (K i q q' Hq Hq') as [K0 [K1 K2]]. split; [exact K0|]. split; [exact K1|]. rewrite K2.
      unfold given. cbn [count_occ]. destruct (Nat.eq_dec j i); [congruence|reflexivity].
Qed.

Lemma quiet_access {A : Type} (p : prog A) (s : shared) (l : location) (w : bool) :
  quiet p s -> access p = Some (l, w) -> w = false.
Proof. destruct p; cbn [quiet access]; intros Q H; try contradiction; try discriminate; injection H as <- <-; reflexivity. Qed.
Lemma quiet_race_free {A : Type} (ps : list (prog A)) (s : shared) :
  (forall i p, nth_error ps i = Some p -> quiet p s) -> race_free ps.
Proof.
  intros H i j p q _ Hp Hq [l [w [w' [A1 [A2 B]]]]].
  rewrite (quiet_access p s l w (H i p Hp) A1), (quiet_access q s l w' (H j q Hq) A2) in B. discriminate.
Qed.

Lemma quiet_together {A B : Type} (run : B -> prog A) (s : shared) (threads : list B) :
  (forall b, In b threads -> quiet (run b) s /\ exists s' r, alone (run b) s = Ok (s', r)) ->
  exists needed : nat -> nat, forall schedule,
  exists ps, interleave schedule s (map run threads) = Ok (s, ps) /\
    length ps = length threads /\ race_free ps /\
    forall t l r s', nth_error threads t = Some l -> alone (run l) s = Ok (s', r) ->
      ((needed t <= given t schedule)%nat -> nth_error ps t = Some (Ret r)) /\
      (forall r', nth_error ps t = Some (Ret r') -> r' = r).
Proof.
  intros HA.
  exists (fun t => match nth_error threads t with Some l => turns (run l) s | None => O end). intros schedule.
  destruct (interleave_quiet schedule s (map run threads)) as [ps [I [L K]]].
  { intros i p Hp. rewrite nth_error_map in Hp. destruct (nth_error threads i) as [l|] eqn:E; [|discriminate]. injection Hp as <-.
    assert (In l threads) by (eapply nth_error_In; exact E).
    destruct (HA l H) as [Q [s' [r R]]]. split; [exact Q|]. rewrite (quiet_alone _ _ _ _ Q R) in R. eauto. }
  rewrite map_length in L. exists ps. split; [exact I|]. split; [exact L|].
  assert (C : forall i p, nth_error ps i = Some p -> exists l, nth_error threads i = Some l /\ nth_error (map run threads) i = Some (run l)).
  { intros i p Hp. destruct (nth_error threads i) as [l|] eqn:E; [exists l; rewrite nth_error_map, E; auto|]. exfalso.
    apply nth_error_None in E. assert (i < length ps)%nat by (apply nth_error_Some; congruence). lia. }
  split.
  - apply quiet_race_free with (s := s). intros i p Hp. destruct (C i p Hp) as [l [_ Hl]]. apply (K i _ p Hl Hp).
  - intros t l r s' Hl R. assert (Hm : nth_error (map run threads) t = Some (run l)) by (rewrite nth_error_map, Hl; reflexivity).
    rewrite Hl. destruct (nth_error ps t) as [p|] eqn:Ep.
    2:{ exfalso. apply nth_error_None in Ep. assert (t < length threads)%nat by (apply nth_error_Some; congruence). lia. }
    destruct (K t _ p Hm Ep) as [_ [K1 K2]]. rewrite R in K1. split.
    + intros N. assert (Z : turns p s = O) by lia. rewrite (turns_stop _ _ _ _ K1 Z). reflexivity.
    + intros r' E. injection E as ->. cbn [alone] in K1. congruence.
Qed.
End Facts.

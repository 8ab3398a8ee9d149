(** Proofs about the map loader node. *)
From Coq Require Import Permutation.
From Verif Require Import Base NodeStateModel NodeStateSpec.
Open Scope Z_scope.

Section Facts.
Context {M Path : Type}.
Notation prec := (precision (M:=M) (Path:=Path)).

(** The node holds exactly the messages [l] under their topics. *)
Definition held (n : node M) : list (topic * M) :=
  let one tp (o : option (message M)) := match o with Some m => [(tp, content m)] | None => [] end in
  one TCells (n_cells n) ++ one TOccCells (n_occ_cells n) ++ one TDists (n_dists n) ++ one TOccDists (n_occ_dists n).
(** Members exist in pairs. *)
Definition paired (n : node M) : Prop :=
  present (n_cells n) = present (n_dists n) /\ present (n_occ_cells n) = present (n_occ_dists n).

Lemma resend_held (three : bool) (t : Z) (n : node M) : paired n ->
  let '(n', out, r) := resend three t n in
  paired n' /\ held n' = held n /\ n_service n' = n_service n /\ out = stamped t (held n) /\ r = nonempty (held n).
Proof.
  intros [H1 H2]. unfold resend. destruct n as [a b c d s]. cbn [n_cells n_occ_cells n_dists n_occ_dists n_service] in *.
  destruct a as [a|], c as [c|]; try discriminate H1; destruct b as [b|], d as [d|]; try discriminate H2;
    destruct three; cbn; unfold paired; cbn; repeat split; reflexivity.
Qed.

Lemma spin_held (three : bool) (calls : list Z) : forall n, paired n -> n_service n = true ->
  spin three true calls n = map (fun t => (stamped t (held n), Some (nonempty (held n)))) calls.
Proof.
  induction calls as [|t calls IH]; intros n Hp Hs; [reflexivity|]. cbn [spin map]. rewrite Hs. cbn [andb].
  pose proof (resend_held three t n Hp) as H. destruct (resend three t n) as [[n' out] r].
  destruct H as [Hp' [Hh [Hs' [-> ->]]]]. rewrite IH; [rewrite Hh; reflexivity|exact Hp'|congruence].
Qed.
Lemma spin_dead (three : bool) (calls : list Z) : forall n : node M,
  spin three false calls n = map (fun _ => ([], None)) calls.
Proof. induction calls as [|t calls IH]; intros n; [reflexivity|]. cbn [spin map andb]. rewrite IH. reflexivity. Qed.

(** Only members of given paths are set. *)
Definition only (path path_occ : option Path) (n : node M) : Prop :=
  paired n /\ (path = None -> n_cells n = None) /\ (path_occ = None -> n_occ_cells n = None).

Lemma only_new (path path_occ : option Path) : only path path_occ node_new.
Proof. repeat split. Qed.

Lemma setup_spec (T : prec) (t : Z) (path path_occ : option Path) (n : node M) : only path path_occ n ->
  match messages_of T path path_occ with
  | UB => setup_node T t path path_occ n = UB
  | Throw => setup_node T t path path_occ n = Throw
  | Ok None => exists n', setup_node T t path path_occ n = Ok (n', false) /\ only path path_occ n' /\ n_service n' = n_service n
  | Ok (Some l) => exists n', setup_node T t path path_occ n = Ok (n', true) /\ only path path_occ n' /\ n_service n' = true /\
                     Permutation (held n') l
  end.
Proof.
  intros [[H1 H2] [H3 H4]]. unfold messages_of, setup_node, setup_map, setup_occ.
  destruct n as [a b c d s]. cbn [n_cells n_occ_cells n_dists n_occ_dists n_service] in *.
  destruct path as [p|].
  - destruct (load_map T p) as [[x|]| |]; cbn [obind]; try reflexivity.
    2: { eexists. split; [reflexivity|]. unfold only, paired. cbn. repeat split; assumption. }
    destruct (map_cells T x) as [ma| |]; cbn [obind]; try reflexivity.
    destruct (map_dists T x) as [mb| |]; cbn [obind]; try reflexivity.
    destruct path_occ as [q|].
    + destruct (load_occ T q) as [[y|]| |]; cbn [obind]; try reflexivity.
      2: { eexists. split; [reflexivity|]. unfold only, paired. cbn. repeat split; try assumption; intros X; discriminate X. }
      destruct (occ_cells T y) as [mc| |]; cbn [obind]; try reflexivity.
      destruct (occ_dists T y) as [md| |]; cbn [obind]; try reflexivity.
      eexists. split; [reflexivity|]. unfold only, paired, held. cbn. repeat split; try (intros X; discriminate X).
      apply perm_skip. apply perm_swap.
    + rewrite (H4 eq_refl) in *. destruct d as [d|]; [discriminate H2|].
      eexists. split; [reflexivity|]. unfold only, paired, held. cbn. repeat split; try (intros X; discriminate X); try reflexivity.
  - rewrite (H3 eq_refl) in *. destruct c as [c|]; [discriminate H1|]. cbn [obind].
    destruct path_occ as [q|].
    + destruct (load_occ T q) as [[y|]| |]; cbn [obind]; try reflexivity.
      2: { eexists. split; [reflexivity|]. unfold only, paired. cbn. repeat split; try assumption; intros X; discriminate X. }
      destruct (occ_cells T y) as [mc| |]; cbn [obind]; try reflexivity.
      destruct (occ_dists T y) as [md| |]; cbn [obind]; try reflexivity.
      eexists. split; [reflexivity|]. unfold only, paired, held. cbn. repeat split; try (intros X; discriminate X); try reflexivity.
    + rewrite (H4 eq_refl) in *. destruct d as [d|]; [discriminate H2|].
      eexists. split; [reflexivity|]. unfold only, paired, held. cbn. repeat split; try reflexivity.
Qed.
End Facts.

Lemma messages_some {M Path : Type} (T : precision (M:=M) (Path:=Path)) (path path_occ : option Path) (l : list (topic * M)) :
  messages_of T path path_occ = Ok (Some l) -> nonempty l = (present path || present path_occ)%bool.
Proof.
  unfold messages_of. intros H. destruct path as [p|].
  - cbn [present orb]. destruct (load_map T p) as [[x|]| |]; cbn [obind] in H; try discriminate H.
    destruct (map_cells T x); cbn [obind] in H; try discriminate H.
    destruct (map_dists T x); cbn [obind] in H; try discriminate H.
    match type of H with (let* y := ?e in _) = _ => destruct e as [[l2|]| |] end; cbn [obind] in H; try discriminate H.
    injection H as <-. reflexivity.
  - cbn [obind present orb] in *. destruct path_occ as [q|]; cbn [present].
    + destruct (load_occ T q) as [[x|]| |]; cbn [obind] in H; try discriminate H.
      destruct (occ_cells T x); cbn [obind] in H; try discriminate H.
      destruct (occ_dists T x); cbn [obind] in H; try discriminate H.
      injection H as <-. reflexivity.
    + cbn [obind] in H. injection H as <-. reflexivity.
Qed.

Lemma nonempty_perm {X : Type} (l l' : list X) : Permutation l l' -> nonempty l = nonempty l'.
Proof.
  intros H. destruct l, l'; try reflexivity.
  - apply Permutation_nil in H. discriminate H.
  - apply Permutation_sym, Permutation_nil in H. discriminate H.
Qed.

Lemma node_publishes {M Path : Type} (double float : precision (M:=M) (Path:=Path)) (three : bool)
  (t1 t2 : Z) (path path_occ : option Path) (calls : list Z) :
  let r := run_node double float t1 t2 path path_occ in
  let publishes (l : list (topic * M)) :=
    exists n out l', r = Ok (n, out, true) /\ Permutation l' l /\
      spin three true calls n = map (fun t => (stamped t l', Some (present path || present path_occ))) calls in
  match messages_of double path path_occ with
  | Ok (Some l) => publishes l
  | Ok None =>
      match messages_of float path path_occ with
      | Ok (Some l) => publishes l
      | Ok None => exists n out, r = Ok (n, out, false) /\ spin three false calls n = map (fun _ => ([], None)) calls
      | UB => r = UB
      | Throw => r = Throw
      end
  | UB => r = UB
  | Throw => r = Throw
  end.
Proof.
  intros r publishes.
  assert (K : forall T n l out, messages_of T path path_occ = Ok (Some l) -> only path path_occ n -> n_service n = true ->
    Permutation (held n) l -> r = Ok (n, out, true) -> publishes l).
  { intros T n l out El [Hp _] Hs HP Er. exists n, out, (held n). split; [exact Er|]. split; [exact HP|].
    rewrite (spin_held three calls n Hp Hs), (nonempty_perm _ _ HP), (messages_some T path path_occ l El). reflexivity. }
  pose proof (setup_spec double t1 path path_occ node_new (only_new path path_occ)) as S1.
  unfold run_node in r. destruct (messages_of double path path_occ) as [[l|]| |] eqn:E1.
  - destruct S1 as [n [En [Ho [Hs HP]]]]. subst r. eapply (K double n l); try eassumption. rewrite En. reflexivity.
  - destruct S1 as [n [En [Ho Hs]]]. subst r. rewrite En in *. cbn [obind] in *.
    pose proof (setup_spec float t2 path path_occ n Ho) as S2.
    destruct (messages_of float path path_occ) as [[l|]| |] eqn:E2.
    + destruct S2 as [n' [En' [Ho' [Hs' HP]]]]. eapply (K float n' l); try eassumption. rewrite En'. reflexivity.
    + destruct S2 as [n' [En' _]]. exists n'. eexists. rewrite En'. split; [reflexivity|]. apply spin_dead.
    + rewrite S2. reflexivity.
    + rewrite S2. reflexivity.
  - subst r. rewrite S1. reflexivity.
  - subst r. rewrite S1. reflexivity.
Qed.

(** ** Before the first successful setup *)
Lemma failed_setup {M Path : Type} (T : precision (M:=M) (Path:=Path)) (t : Z) (path path_occ : option Path) (n n' : node M) :
  setup_node T t path path_occ n = Ok (n', false) -> n_service n' = n_service n.
Proof.
  unfold setup_node. destruct (setup_map T t path n) as [[n1 ok1]| |] eqn:E1; cbn [obind]; try discriminate.
  assert (S1 : n_service n1 = n_service n).
  { unfold setup_map in E1. destruct path as [p|]; [|injection E1 as <- <-; reflexivity].
    destruct (load_map T p) as [[x|]| |]; cbn [obind] in E1; try discriminate; [|injection E1 as <- <-; reflexivity].
    destruct (map_cells T x); cbn [obind] in E1; try discriminate.
    destruct (map_dists T x); cbn [obind] in E1; try discriminate. injection E1 as <- <-; reflexivity. }
  destruct ok1; [|intros [= <-]; exact S1].
  destruct (setup_occ T t path_occ n1) as [[n2 ok2]| |] eqn:E2; cbn [obind]; try discriminate.
  assert (S2 : n_service n2 = n_service n1).
  { unfold setup_occ in E2. destruct path_occ as [p|]; [|injection E2 as <- <-; reflexivity].
    destruct (load_occ T p) as [[x|]| |]; cbn [obind] in E2; try discriminate; [|injection E2 as <- <-; reflexivity].
    destruct (occ_cells T x); cbn [obind] in E2; try discriminate.
    destruct (occ_dists T x); cbn [obind] in E2; try discriminate. injection E2 as <- <-; reflexivity. }
  destruct ok2; [discriminate|]. intros [= <-]. congruence.
Qed.
Lemma spin_silent {M : Type} (three alive : bool) (calls : list Z) (n : node M) : n_service n = false ->
  spin three alive calls n = map (fun _ => ([], None)) calls.
Proof.
  intros H. induction calls as [|t calls IH]; [reflexivity|]. cbn [spin map]. rewrite H, andb_false_r, IH. reflexivity.
Qed.
Lemma silent_before_setup {M Path : Type} (attempts : list (precision (M:=M) (Path:=Path) * Z * option Path * option Path))
  (three : bool) (calls : list Z) (n : node M) :
  ofold (fun n a => let '(T, t, path, path_occ) := a in
           let* (n', ok) := setup_node T t path path_occ n in if ok then Throw else Ok n') attempts node_new = Ok n ->
  spin three true calls n = map (fun _ => ([], None)) calls.
Proof.
  intros H. apply spin_silent.
  assert (G : forall n0, n_service n0 = false ->
    ofold (fun n a => let '(T, t, path, path_occ) := a in
           let* (n', ok) := setup_node T t path path_occ n in if ok then Throw else Ok n') attempts n0 = Ok n -> n_service n = false).
  { clear H. induction attempts as [|[[[T t] path] path_occ] l IH]; intros n0 H0 H; cbn [ofold] in H; [congruence|].
    destruct (setup_node T t path path_occ n0) as [[n1 [|]]| |] eqn:E; cbn [obind] in H; try discriminate.
    apply (IH n1); [|exact H]. rewrite (failed_setup _ _ _ _ _ _ E). exact H0. }
  apply (G node_new); [reflexivity|exact H].
Qed.

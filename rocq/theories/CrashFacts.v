(** Facts about interrupted saves. *)
From Verif Require Import Base SeqModel SeqFacts IndexModel IndexFacts OctreeSpec OctreeModel OctreeFacts
  MapModel MapFacts MapHist BackendModel BackendFacts SysModel SysSpec SysFacts MapLifeFacts ConvSpec ConvFacts
  LoaderModel SerialModel SerialSpec SerialFacts HeapFacts ThreadModel ThreadSpec ThreadFacts FileModel FileFacts CrashModel CrashSpec.
Open Scope Z_scope.

Lemma set_file_length l i f : length (set_file l i f) = length l.
Proof. unfold set_file. destruct (upd l i f) eqn:E; [eapply upd_length; exact E|reflexivity]. Qed.
Lemma set_file_same l i f : (i < length l)%nat -> nth_error (set_file l i f) i = Some f.
Proof. intros H. unfold set_file. destruct (upd_exists l i f H) as [l' E]. rewrite E. eapply nth_error_upd_same; exact E. Qed.
Lemma set_file_other l i k f : i <> k -> nth_error (set_file l i f) k = nth_error l k.
Proof.
  intros H. unfold set_file. destruct (upd l i f) as [l'|] eqn:E; [|reflexivity].
  eapply nth_error_upd_other; [exact E|exact H].
Qed.

Lemma disk_app (n : nat) (p : place) (a b : list effect) : disk n p (a ++ b) = disk n (disk n p a) b.
Proof. apply fold_left_app. Qed.

(** ** A completed save *)
Lemma removal_gone (n : nat) (p : place) (rm : list effect) : removal n p rm -> disk n p rm = None.
Proof.
  destruct p as [d|]; cbn [removal].
  - intros [r [_ ->]]. rewrite disk_app. unfold disk. cbn [fold_left]. destruct (fold_left (on_disk n) r (Some d)); reflexivity.
  - intros ->. reflexivity.
Qed.

Lemma append_header_pieces (n : nat) (hs : list (list Z)) : forall a fs,
  disk n (Some {| header_file := Some a; store_files := fs |}) (map AppendHeader hs) =
  Some {| header_file := Some (a ++ concat hs); store_files := fs |}.
Proof.
  induction hs as [|h hs IH]; intros a fs; cbn [map concat]; [rewrite app_nil_r; reflexivity|].
  change (disk n (Some {| header_file := Some a; store_files := fs |}) (AppendHeader h :: map AppendHeader hs))
    with (disk n (Some {| header_file := Some (a ++ h); store_files := fs |}) (map AppendHeader hs)).
  rewrite IH, app_assoc. reflexivity.
Qed.

(** The effects of one thread on its own file. *)
Definition file_effect (f : option (list Z)) (e : effect) : option (list Z) :=
  match e with OpenStore _ => Some [] | AppendStore _ bs => append_file f bs | _ => f end.
Definition of_store (i : nat) (e : effect) : Prop :=
  match e with OpenStore k => k = i | AppendStore k _ => k = i | _ => False end.

Lemma store_step (n : nat) (h : option (list Z)) (fs : list (option (list Z))) (i : nat) (e : effect) (f : option (list Z)) :
  of_store i e -> nth_error fs i = Some f ->
  exists fs', on_disk n (Some {| header_file := h; store_files := fs |}) e = Some {| header_file := h; store_files := fs' |} /\
    length fs' = length fs /\ nth_error fs' i = Some (file_effect f e) /\ forall k, k <> i -> nth_error fs' k = nth_error fs k.
Proof.
  intros Ho Hf. assert (Hi : (i < length fs)%nat) by (apply nth_error_Some; congruence).
  destruct e; cbn [of_store] in Ho; try contradiction; subst i0; cbn [on_disk header_file store_files file_effect].
  - eexists. split; [reflexivity|]. rewrite set_file_length, set_file_same by exact Hi. split; [reflexivity|].
    split; [reflexivity|]. intros k Hk. apply set_file_other; congruence.
  - eexists. split; [reflexivity|]. rewrite set_file_length, set_file_same by exact Hi. rewrite Hf. split; [reflexivity|].
    split; [reflexivity|]. intros k Hk. apply set_file_other; congruence.
Qed.

Lemma interleaving_files (n : nat) (h : option (list Z)) (ls : list (list effect)) (ts : list effect) :
  interleaving ls ts -> forall fs (goal : list (option (list Z))),
  length fs = length ls -> length goal = length ls ->
  (forall i l, nth_error ls i = Some l -> Forall (of_store i) l) ->
  (forall i l f, nth_error ls i = Some l -> nth_error fs i = Some f -> nth_error goal i = Some (fold_left file_effect l f)) ->
  disk n (Some {| header_file := h; store_files := fs |}) ts = Some {| header_file := h; store_files := goal |}.
Proof.
  induction 1 as [ls Hnil|ls i e l ls' es Hi Hu Hr IH]; intros fs goal L1 L2 Hof Hgoal.
  - cbn [disk fold_left]. do 2 f_equal. apply nth_error_ext_list; [congruence|]. intros i Hi.
    destruct (nth_error ls i) as [l|] eqn:El; [|apply nth_error_None in El; lia].
    destruct (nth_error fs i) as [f|] eqn:Ef; [|apply nth_error_None in Ef; lia].
    rewrite (Hgoal i l f El Ef). rewrite Forall_forall in Hnil. rewrite (Hnil l (nth_error_In _ _ El)). reflexivity.
  - assert (Hlt : (i < length ls)%nat) by (apply nth_error_Some; congruence).
    destruct (nth_error fs i) as [f|] eqn:Ef; [|apply nth_error_None in Ef; lia].
    pose proof (Hof i _ Hi) as Hall. inversion Hall as [|? ? He Hl]; subst.
    destruct (store_step n h fs i e f He Ef) as [fs' [E [L' [S O]]]].
    change (disk n (Some {| header_file := h; store_files := fs |}) (e :: es))
      with (disk n (on_disk n (Some {| header_file := h; store_files := fs |}) e) es).
    rewrite E. pose proof (upd_length _ _ _ _ Hu) as Lu.
    assert (Hnew : forall k x, nth_error ls' k = Some x -> (k = i /\ x = l) \/ (k <> i /\ nth_error ls k = Some x)).
    { intros k x Hx. destruct (Nat.eq_dec k i) as [->|Hne].
      - left. rewrite (nth_error_upd_same _ _ _ _ Hu) in Hx. split; congruence.
      - right. rewrite (nth_error_upd_other _ _ _ _ _ Hu) in Hx by congruence. auto. }
    apply IH; try congruence.
    + intros k x Hx. destruct (Hnew k x Hx) as [[-> ->]|[_ Hx']]; [exact Hl|apply Hof; exact Hx'].
    + intros k x y Hx Hy. destruct (Hnew k x Hx) as [[-> ->]|[Hne Hx']].
      * rewrite S in Hy. injection Hy as <-. rewrite (Hgoal i _ f Hi Ef). reflexivity.
      * rewrite (O k Hne) in Hy. apply Hgoal; assumption.
Qed.

Lemma append_pieces (i : nat) (cs : list (list Z)) : forall a,
  fold_left file_effect (map (AppendStore i) cs) (Some a) = Some (a ++ concat cs).
Proof.
  induction cs as [|x cs IH]; intros a; cbn [map fold_left concat]; [rewrite app_nil_r; reflexivity|].
  cbn [file_effect append_file]. rewrite IH, app_assoc. reflexivity.
Qed.

Lemma threads_of (n : nat) (css : list (list (list Z))) (i : nat) : length css = n ->
  nth_error (map (fun ic => store_effects (fst ic) (snd ic)) (combine (seq 0 n) css)) i =
  option_map (store_effects i) (nth_error css i).
Proof.
  intros L. rewrite nth_error_map.
  assert (H : forall s (l : list (list (list Z))), nth_error (combine (seq s (length l)) l) i = option_map (fun x => ((s + i)%nat, x)) (nth_error l i)).
  { clear. revert i. intros i s l; revert i s; induction l as [|x l IH]; intros [|i] s; cbn [length seq combine nth_error option_map]; try reflexivity.
    - rewrite Nat.add_0_r. reflexivity.
    - rewrite IH. replace (S s + i)%nat with (s + S i)%nat by lia. reflexivity. }
  rewrite <- L, H. destruct (nth_error css i); reflexivity.
Qed.

Lemma save_completed (n : nat) (p : place) (d : directory) (es : list effect) :
  save_effects n p d es -> disk n p es = Some d.
Proof.
  intros [h [files [rm [hs [css [ts [Eh [Ef [Lf [Hrm [Hhs [Hcss [Hts ->]]]]]]]]]]]]].
  rewrite disk_app, (removal_gone n p rm Hrm).
  change (disk n None (MakeDirectory :: OpenHeader :: map AppendHeader hs ++ ts))
    with (disk n (Some {| header_file := Some []; store_files := repeat None n |}) (map AppendHeader hs ++ ts)).
  rewrite disk_app, append_header_pieces. cbn [app].
  assert (Lc : length css = n) by (rewrite <- Lf, <- Hcss, map_length; reflexivity).
  rewrite (interleaving_files n (Some (concat hs)) _ ts Hts (repeat None n) (store_files d)).
  - destruct d as [dh df]. cbn [header_file store_files] in *. congruence.
  - rewrite map_length, combine_length, seq_length, repeat_length. lia.
  - rewrite Ef, !map_length, combine_length, seq_length. lia.
  - intros i l Hl. rewrite (threads_of n css i Lc) in Hl. destruct (nth_error css i) as [cs|]; [|discriminate].
    injection Hl as <-. unfold store_effects. constructor; [reflexivity|]. apply Forall_forall. intros e He.
    apply in_map_iff in He. destruct He as [bs [<- _]]. reflexivity.
  - intros i l f Hl Hf. rewrite (threads_of n css i Lc) in Hl. destruct (nth_error css i) as [cs|] eqn:Ec; [|discriminate].
    injection Hl as <-. unfold store_effects. cbn [fold_left file_effect]. rewrite append_pieces. cbn [app].
    rewrite Ef, <- Hcss, map_map, nth_error_map, Ec. reflexivity.
Qed.

(** ** An interrupted save *)
(** File [i] is missing, or the header is. *)
Definition incomplete (p : place) : Prop :=
  match p with None => True | Some d => header_file d = None \/ In None (store_files d) end.

Section Load.
Variable junk : list Z -> nat -> list Z.
Context {P Po T : Type}.
Variable po : codec Po.
Variable tp : codec T.
Variable fmt : format P.
Variable c : config P.

Lemma incomplete_load (e : environment) (s : list nat) (g : nat -> Z) (p : place) :
  incomplete p -> map_load junk po tp fmt c e s g p = Ok None.
Proof.
  destruct p as [d|]; cbn [incomplete map_load]; [|reflexivity]. intros [H|H].
  - rewrite H. destruct forallb; reflexivity.
  - assert (E : forallb (fun f => match f with Some _ => true | None => false end) (store_files d) = false).
    { apply not_true_is_false. intros E. rewrite forallb_forall in E. specialize (E None H). discriminate E. }
    rewrite E. reflexivity.
Qed.
End Load.

(** Removing keeps what is missing missing. *)
Definition removes (n : nat) (e : effect) : Prop :=
  match e with RemoveHeader | RemoveDirectory => True | RemoveStore i => (i < n)%nat | _ => False end.
Definition files_of (n : nat) (p : place) : Prop := match p with Some d => length (store_files d) = n | None => True end.
Lemma removing (n : nat) (es : list effect) : Forall (removes n) es -> forall p, files_of n p ->
  files_of n (disk n p es) /\ (incomplete p \/ es <> [] -> incomplete (disk n p es)).
Proof.
  induction 1 as [|e es He Hes IH]; intros p Hp.
  - split; [exact Hp|]. intros [H|H]; [exact H|contradiction].
  - change (disk n p (e :: es)) with (disk n (on_disk n p e) es).
    assert (Hstep : files_of n (on_disk n p e) /\ incomplete (on_disk n p e)).
    { destruct p as [d|]; destruct e; cbn [removes] in He; try contradiction; cbn [on_disk files_of incomplete header_file store_files]; auto.
      cbn [files_of] in Hp. rewrite set_file_length. split; [exact Hp|]. right.
      apply (nth_error_In _ i). apply set_file_same. lia. }
    destruct (IH _ (proj1 Hstep)) as [A B]. split; [exact A|]. intros _. apply B. left. apply Hstep.
Qed.

(** A file stays missing until it is opened. *)
Definition creates (e : effect) : Prop :=
  match e with OpenHeader | AppendHeader _ | OpenStore _ | AppendStore _ _ => True | _ => False end.
Lemma creating (n i : nat) (es : list effect) : Forall creates es -> ~ In (OpenStore i) es ->
  forall d, nth_error (store_files d) i = Some None ->
  exists d', disk n (Some d) es = Some d' /\ nth_error (store_files d') i = Some None.
Proof.
  induction 1 as [|e es He Hes IH]; intros Hni d Hd; [exists d; auto|].
  change (disk n (Some d) (e :: es)) with (disk n (on_disk n (Some d) e) es).
  assert (Hi : (i < length (store_files d))%nat) by (apply nth_error_Some; congruence).
  assert (Hstep : exists d', on_disk n (Some d) e = Some d' /\ nth_error (store_files d') i = Some None).
  { destruct e; cbn [creates] in He; try contradiction; cbn [on_disk]; eexists; (split; [reflexivity|]); cbn [store_files]; auto.
    - rewrite set_file_other; [exact Hd|]. intros ->. apply Hni. left; reflexivity.
    - destruct (Nat.eq_dec i0 i) as [->|Hne]; [rewrite set_file_same by exact Hi; rewrite Hd; reflexivity|].
      rewrite set_file_other by exact Hne. exact Hd. }
  destruct Hstep as [d' [-> Hd']]. apply IH; [|exact Hd']. intros H. apply Hni. right; exact H.
Qed.

Lemma interleaving_in (ls : list (list effect)) (ts : list effect) : interleaving ls ts ->
  forall e, In e ts -> exists l, In l ls /\ In e l.
Proof.
  induction 1 as [|ls i e l ls' es Hi Hu Hr IH]; intros x Hx; [destruct Hx|].
  destruct Hx as [<-|Hx]; [exists (e :: l); split; [eapply nth_error_In; exact Hi|left; reflexivity]|].
  destruct (IH x Hx) as [l' [Hl' Hx']]. apply In_nth_error in Hl'. destruct Hl' as [k Hk].
  destruct (Nat.eq_dec i k) as [<-|Hne].
  - rewrite (nth_error_upd_same _ _ _ _ Hu) in Hk. injection Hk as <-.
    exists (e :: l). split; [eapply nth_error_In; exact Hi|right; exact Hx'].
  - rewrite (nth_error_upd_other _ _ _ _ _ Hu) in Hk by exact Hne. exists l'. split; [eapply nth_error_In; exact Hk|exact Hx'].
Qed.

Lemma split_prefix {A : Type} (a b c d : list A) : a ++ b = c ++ d ->
  (exists x, c = a ++ x) \/ (exists x, a = c ++ x /\ x ++ b = d).
Proof.
  revert c; induction a as [|x a IH]; intros [|y c] H; cbn [app] in *.
  - left. exists []. reflexivity.
  - left. exists (y :: c). reflexivity.
  - right. exists (x :: a). auto.
  - injection H as -> H. destruct (IH c H) as [[z ->]|[z [-> E]]]; [left|right]; exists z; auto.
Qed.

(** Until the last storage file has been opened nothing but the old map can be loaded. *)
Lemma interrupted (n : nat) (p : place) (d : directory) (es done : list effect) (i : nat) :
  files_of n p -> save_effects n p d es -> done_of es done -> done <> [] -> (i < n)%nat ->
  ~ In (OpenStore i) done -> incomplete (disk n p done).
Proof.
  intros Hp [h [files [rm [hs [css [ts [Eh [Ef [Lf [Hrm [Hhs [Hcss [Hts ->]]]]]]]]]]]]] [rest E] Hne Hi Hno.
  assert (Hrem : Forall (removes n) rm).
  { destruct p as [pd|]; cbn [removal] in Hrm; [|subst rm; constructor]. destruct Hrm as [r [Hperm ->]].
    apply Forall_app. split; [|repeat constructor]. apply Forall_forall. intros e He. apply (Permutation_in _ Hperm) in He.
    destruct He as [<-|He]; [exact I|]. apply in_map_iff in He. destruct He as [k [<- Hk]]. apply in_seq in Hk. cbn. lia. }
  destruct (split_prefix done rest rm _ E) as [[x Hx]|[x [Hx Hd]]].
  - (* during the removal *)
    assert (H' : Forall (removes n) done) by (rewrite Hx in Hrem; apply Forall_app in Hrem; apply Hrem).
    apply (removing n done H' p Hp). right. exact Hne.
  - subst done. rewrite disk_app, (removal_gone n p rm Hrm).
    destruct x as [|e x]; [exact I|]. cbn [app] in Hd. injection Hd as -> Hd.
    change (disk n None (MakeDirectory :: x)) with (disk n (Some {| header_file := None; store_files := repeat None n |}) x).
    assert (Hcr : Forall creates (OpenHeader :: map AppendHeader hs ++ ts)).
    { constructor; [exact I|]. apply Forall_app. split.
      - apply Forall_forall. intros e He. apply in_map_iff in He. destruct He as [y [<- _]]. exact I.
      - apply Forall_forall. intros e He. destruct (interleaving_in _ _ Hts e He) as [l [Hl He']].
        apply in_map_iff in Hl. destruct Hl as [[k cs] [<- _]]. cbn [fst snd store_effects] in He'.
        destruct He' as [<-|He']; [exact I|]. apply in_map_iff in He'. destruct He' as [y [<- _]]. exact I. }
    rewrite <- Hd in Hcr. apply Forall_app in Hcr. destruct Hcr as [Hcr _].
    destruct (creating n i x Hcr) with (d := {| header_file := None; store_files := repeat (@None (list Z)) n |}) as [d' [Ed' Hd']].
    + intros Hin. apply Hno. apply in_or_app. right. right. exact Hin.
    + cbn [store_files]. apply nth_repeat_error. exact Hi.
    + rewrite Ed'. cbn [incomplete]. right. eapply nth_error_In; exact Hd'.
Qed.

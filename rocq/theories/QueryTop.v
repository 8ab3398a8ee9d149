(** Restored and converted maps answer like the originals. *)
From Coq Require Import QArith.
From Verif Require Import Base SeqModel IndexModel OctreeSpec MapModel BackendModel SysModel SysSpec SysFacts MapLifeFacts
  GridFacts InsertModel ConvModel ConvSpec ConvFacts SerialModel SerialSpec SerialFacts ThreadModel ThreadSpec FileModel FileFacts StaticTripFacts
  QuerySpec QueryFacts.
Open Scope Z_scope.

Section Reached.
Context {P : Type}.
Variable c c' : config P.
Hypothesis Hc : config_ok c.
Hypothesis Hcw : kindc c = Dynamic -> aminc c = cw_min /\ amaxc c = cw_max.

Lemma reached_queries (l : list (map_action (P:=P))) (m : cmap c) (m' : cmap c') :
  fits c l -> cact_all c l (new_map c) = Ok m -> twin c c' m m' -> same_queries c c' m m'.
Proof.
  intros Hf E HT. pose proof HT as [Hc' [Hdim _]]. destruct (run_spec c Hc l Hf) as [m0 [E0 [HI [HR _]]]]. assert (m0 = m) by congruence. subst m0.
  apply twin_queries; assumption.
Qed.
Lemma reached_grids (l : list (map_action (P:=P))) (m : cmap c) (m' : cmap c') :
  fits c l -> cact_all c l (new_map c) = Ok m -> twin c c' m m' -> min_bi m' = min_bi m -> max_bi m' = max_bi m ->
  dimc c = 2%nat -> same_grids c c' m m'.
Proof.
  intros Hf E HT Hn Hx H2. pose proof HT as [Hc' [Hdim _]]. destruct (run_spec c Hc l Hf) as [m0 [E0 [HI [HR _]]]]. assert (m0 = m) by congruence. subst m0.
  apply twin_grids; try assumption. intros es Ees. apply (bundle_range c Hc H2 Hcw l m es Hf E Ees).
Qed.
End Reached.

Lemma run_app {P : Type} (c : config P) (l1 l2 : list (map_action (P:=P))) (m m2 : cmap c) :
  cact_all c l1 (new_map c) = Ok m -> cact_all c l2 m = Ok m2 -> cact_all c (l1 ++ l2) (new_map c) = Ok m2.
Proof. unfold cact_all, act_all. intros E1 E2. rewrite ofold_app, E1. exact E2. Qed.

Section Loaded.
Context {P Po T : Type}.
Variable junk : list Z -> nat -> list Z.
Variable po : codec Po.
Variable tp : codec T.
Variable fmt : format P.
Variable ok : P -> Prop.
Variable len : nat.
Hypothesis Hpo : codec_ok po.
Hypothesis Htp : codec_ok tp.
Hypothesis Hfmt : format_ok fmt ok len.
Hypothesis Hcount : f_count fmt = Z.of_nat len.

Lemma loaded_dynamic (c : config P) (l : list (map_action (P:=P))) (s1 s2 : list nat) (g : nat -> Z) (origin : Po) (resolution : T) (m : cmap c) :
  config_ok c -> kindc c = Dynamic -> aminc c = cw_min -> amaxc c = cw_max -> (0 < dimc c)%nat ->
  fits c l -> cact_all c l (new_map c) = Ok m -> map_empty c m = false ->
  (forall i j v, has_value c m i j v -> ok v) ->
  complete (bin_count (dimc c)) s1 -> complete (bin_count (dimc c)) s2 ->
  exists d m', map_save po tp fmt c all_open s1 origin resolution m = Ok (true, Some d) /\
    map_load junk po tp fmt c all_open s2 g (Some d) =
      Ok (Some {| l_origin := origin; l_resolution := resolution; l_map := m' |}) /\
    same_queries c c m m' /\ (dimc c = 2%nat -> same_grids c c m m') /\
    (forall l2, fits c (l ++ l2) ->
       exists m2 m2', cact_all c l2 m = Ok m2 /\ cact_all c l2 m' = Ok m2' /\
         same_queries c c m2 m2' /\ (dimc c = 2%nat -> same_grids c c m2 m2')).
Proof.
  intros Hc Hk Hmin Hmax Hdim Hf Hrun He Hok C1 C2.
  destruct (restore_map_twin junk po tp fmt ok len Hpo Htp Hfmt Hcount c l s1 s2 g origin resolution m Hc Hk Hmin Hmax Hdim Hf Hrun He Hok C1 C2)
    as [d [m' [A [B [_ [HT [D [E [_ H]]]]]]]]].
  exists d, m'. split; [exact A|]. split; [exact B|].
  split; [apply (reached_queries c c Hc l); assumption|].
  split; [intros H2; apply (reached_grids c c Hc (fun _ => conj Hmin Hmax) l); assumption|].
  intros l2 Hl2. destruct (H l2 Hl2) as [m2 [m2' [X1 [X2 [_ [X3 [X4 X5]]]]]]]. exists m2, m2'.
  pose proof (run_app c l l2 m m2 Hrun X1) as X.
  split; [exact X1|]. split; [exact X2|]. split; [apply (reached_queries c c Hc (l ++ l2)); assumption|].
  intros H2; apply (reached_grids c c Hc (fun _ => conj Hmin Hmax) (l ++ l2)); assumption.
Qed.

Lemma loaded_static (c : config P) (l : list (map_action (P:=P))) (s1 s2 : list nat) (g : nat -> Z) (origin : Po) (resolution : T) (m : cmap c) :
  config_ok c -> kindc c = Static -> (0 < dimc c)%nat -> Z.even (nth 0 (minc c) 0) = true ->
  Forall (fun z => 0 <= z < 2 ^ 64) (sizec c) -> int_index (minc c) -> int_index (static_max (sizec c) (minc c)) ->
  fits c l -> cact_all c l (new_map c) = Ok m ->
  (forall i j v, has_value c m i j v -> ok v) ->
  complete (bin_count (dimc c)) s1 -> complete (bin_count (dimc c)) s2 ->
  exists d m', map_save po tp fmt c all_open s1 origin resolution m = Ok (true, Some d) /\
    map_load junk po tp fmt c all_open s2 g (Some d) =
      Ok (Some {| l_origin := origin; l_resolution := resolution; l_map := m' |}) /\
    same_queries c c m m' /\ (dimc c = 2%nat -> same_grids c c m m') /\
    (forall l2, fits c (l ++ l2) ->
       exists m2 m2', cact_all c l2 m = Ok m2 /\ cact_all c l2 m' = Ok m2' /\
         same_queries c c m2 m2' /\ (dimc c = 2%nat -> same_grids c c m2 m2')).
Proof.
  intros Hc Hk Hdim Hev Hsz Hmn Hmx Hf Hrun Hok C1 C2.
  destruct (restore_static_twin junk po tp fmt ok len c l s1 s2 g origin resolution m
              Hpo Htp Hfmt Hcount Hc Hk Hdim Hev Hsz Hmn Hmx Hf Hrun Hok C1 C2) as [d [m' [A [B [_ [HT [D [E [_ H]]]]]]]]].
  assert (Hcw : kindc c = Dynamic -> aminc c = cw_min /\ amaxc c = cw_max) by (intros K; congruence).
  exists d, m'. split; [exact A|]. split; [exact B|].
  split; [apply (reached_queries c c Hc l); assumption|].
  split; [intros H2; apply (reached_grids c c Hc Hcw l); assumption|].
  intros l2 Hl2. destruct (H l2 Hl2) as [m2 [m2' [X1 [X2 [_ [X3 [X4 X5]]]]]]]. exists m2, m2'.
  pose proof (run_app c l l2 m m2 Hrun X1) as X.
  split; [exact X1|]. split; [exact X2|]. split; [apply (reached_queries c c Hc (l ++ l2)); assumption|].
  intros H2; apply (reached_grids c c Hc Hcw (l ++ l2)); assumption.
Qed.
End Loaded.

(** ** Conversion *)
Lemma converted_queries {P : Type} (conv : option P -> outcome (P -> P)) (c : config P) (l : list (map_action (P:=P))) (g : nat -> Z) (m : cmap c) :
  config_ok c -> aminc c = cw_min -> amaxc c = cw_max -> fits c l -> cact_all c l (new_map c) = Ok m ->
  (exists size min m' m'',
    to_static conv c m = Ok (existT _ (size, min) m') /\
    same_content c (static_like c size min) m m' /\ twin c (static_like c size min) m m' /\
    to_dynamic conv (static_like c size min) g m' = Ok m'' /\
    same_content c (dynamic_like (static_like c size min) g) m m'' /\ twin c (dynamic_like (static_like c size min) g) m m'' /\
    min_bi m'' = min_bi m /\ max_bi m'' = max_bi m) ->
  exists size min m' m'',
    to_static conv c m = Ok (existT _ (size, min) m') /\ same_queries c (static_like c size min) m m' /\
    to_dynamic conv (static_like c size min) g m' = Ok m'' /\
    same_queries c (dynamic_like (static_like c size min) g) m m'' /\
    (dimc c = 2%nat -> same_grids c (dynamic_like (static_like c size min) g) m m'').
Proof.
  intros Hc Hmin Hmax Hf Hrun [size [min [m' [m'' [A [_ [B [C [_ [D [E F]]]]]]]]]]].
  exists size, min, m', m''. split; [exact A|]. split; [apply (reached_queries c _ Hc l); assumption|]. split; [exact C|].
  split; [apply (reached_queries c _ Hc l); assumption|].
  intros H2. apply (reached_grids c _ Hc (fun _ => conj Hmin Hmax) l); assumption.
Qed.

(** Histories of compound operations, each of which is a list of elementary map actions. *)
From Verif Require Import Base SeqModel IndexModel OctreeSpec MapModel BackendModel SysModel SysSpec SysFacts.
Open Scope Z_scope.

Section OpHist.
Context {P Op : Type}.
Variable c : config P.
Hypothesis Hc : config_ok c.
Variable step : cmap c -> Op -> outcome (cmap c).
Variable acts : Op -> list (map_action (P:=P)).
Variable opfits : Z -> Op -> Prop.
Hypothesis step_acts : forall k m op, cInv c m -> region c k m -> 0 <= k - expansions (acts op) ->
  opfits k op -> step m op = cact_all c (acts op) m.
Hypothesis acts_fit : forall k op, 0 <= k -> opfits k op -> Forall (act_fits c k) (acts op).
Hypothesis opfits_le : forall k k' op, k' <= k -> opfits k op -> opfits k' op.

Lemma run_actions (ops : list Op) : forall (k : Z) (m : cmap c),
  cInv c m -> 0 <= k - expansions (flat_map acts ops) -> region c k m -> Forall (opfits k) ops ->
  ofold step ops m = cact_all c (flat_map acts ops) m.
Proof.
  induction ops as [|op ops IH]; intros k m HI Hk HR HF; [reflexivity|].
  inversion HF as [|? ? Hf HF']; subst. cbn [ofold flat_map] in *. rewrite expansions_app in Hk.
  pose proof (expansions_nonneg (acts op)) as H1. pose proof (expansions_nonneg (flat_map acts ops)) as H2.
  rewrite cact_all_app, (step_acts k m op HI HR ltac:(lia) Hf).
  destruct (hist_spec c Hc (acts op) k m HI ltac:(lia) HR (acts_fit k op ltac:(lia) Hf)) as [m1 [E1 [HI1 [HR1 _]]]].
  rewrite E1. cbn [obind].
  apply (IH (k - expansions (acts op)) m1 HI1 ltac:(lia) HR1).
  revert HF'. apply Forall_impl. intros a. apply opfits_le. lia.
Qed.

Lemma run_from_new (ops : list Op) :
  Forall (opfits (expansions (flat_map acts ops))) ops ->
  fits c (flat_map acts ops) /\
  ofold step ops (new_map c) = cact_all c (flat_map acts ops) (new_map c).
Proof.
  intros HF. pose proof (expansions_nonneg (flat_map acts ops)) as H0. split.
  - unfold fits. apply Forall_forall. intros a Ha. apply in_flat_map in Ha. destruct Ha as [op [Hop Ha]].
    rewrite Forall_forall in HF. pose proof (acts_fit _ op H0 (HF op Hop)) as H.
    rewrite Forall_forall in H. apply H; exact Ha.
  - apply (run_actions ops (expansions (flat_map acts ops))); [apply new_inv; exact Hc|lia| |exact HF].
    intros bi _ H. rewrite new_empty_b in H. contradiction.
Qed.

End OpHist.

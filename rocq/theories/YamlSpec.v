(** Vocabulary of the properties of YAML headers. *)
From Coq Require Import String.
From Verif Require Import Base MapModel SysModel SysSpec ConvSpec YamlModel.
Open Scope Z_scope.

(** The loaded map [m'] stands for [m], which the history [l] made: same content and range, no slot without
    a distribution, and alike after any further history. *)
Definition given_back {P : Type} (c : config P) (l : list (map_action (P:=P))) (m m' : cmap c) : Prop :=
  same_content c c m m' /\ min_bi m' = min_bi m /\ max_bi m' = max_bi m /\
  (forall bi sl, has_bundle c m' bi sl -> length sl = (2 ^ dimc c)%nat /\
     forall i, (i < 2 ^ dimc c)%nat -> exists j v, nth_error sl i = Some (Some j) /\ has_value c m' i j v) /\
  (forall l2, fits c (l ++ l2) ->
     exists m2 m2', cact_all c l2 m = Ok m2 /\ cact_all c l2 m' = Ok m2' /\ same_content c c m2 m2' /\
       min_bi m2' = min_bi m2 /\ max_bi m2' = max_bi m2).

(** Two mappings with the same entries, whatever the order and whatever else they hold. *)
Definition agree_on (keys : list string) (l l' : list (string * node)) : Prop :=
  forall key, In key keys -> get_entry l key = get_entry l' key.
Definition header_keys {P : Type} (c : config P) : list string :=
  match kindc c with
  | Static => ["origin"; "resolution"; "size"; "min_index"; "bundles"]%string
  | Dynamic => ["origin"; "resolution"; "min_index"; "max_index"; "bundles"]%string
  end.

(** A sequence of [dim] numbers between [lo] and [hi]. *)
Definition is_index (dim : nat) (lo hi : Z) (n : node) : Prop :=
  exists zs, n = Sequence (map Number zs) /\ length zs = dim /\ Forall (fun z => lo <= z <= hi) zs.
(** What an entry must look like. *)
Definition entry_good {Po T : Type} (yo : converter Po) (yt : converter T) (dim : nat) (key : string) (n : node) : Prop :=
  if String.eqb key "origin" then exists o, y_decode yo n = Some o
  else if String.eqb key "resolution" then exists r, y_decode yt n = Some r
  else if String.eqb key "size" then is_index dim 0 (2 ^ 64 - 1) n
  else if String.eqb key "bundles" then
    exists l, n = Sequence l /\ Forall (is_index dim INT_MIN INT_MAX) l
  else is_index dim INT_MIN INT_MAX n.

(** Vocabulary of the properties of sessions. *)
From Verif Require Import Base MapModel BackendModel SysModel SysSpec ConvSpec ThreadSpec SerialModel FileModel SessionModel.
Open Scope Z_scope.

(** What the program does to the map when it is never ended. *)
Fixpoint actions {P : Type} (l : list (step (P:=P))) : list (map_action (P:=P)) :=
  match l with
  | [] => []
  | Do a :: l => a :: actions l
  | _ :: l => actions l
  end.

(** Every thread of every [save] and [load] is run to its end. *)
Definition scheduled {P : Type} (n : nat) (o : step (P:=P)) : Prop :=
  match o with
  | Do _ => True
  | Restart s1 s2 _ => complete n s1 /\ complete n s2
  | RestartYaml s1 s2 _ _ => complete n s1 /\ complete n s2
  end.

(** What has to hold of the map of the program without restarts wherever the other one restarts: the values can
    be written, and before a restart with a binary header there is a bundle. *)
Definition savable {P : Type} (c : config P) (ok : P -> Prop) (steps : list (step (P:=P))) : Prop :=
  forall before o after m, steps = before ++ o :: after -> cact_all c (actions before) (new_map c) = Ok m ->
    match o with
    | Do _ => True
    | Restart _ _ _ => (exists bi sl, has_bundle c m bi sl) /\ forall i j v, has_value c m i j v -> ok v
    | RestartYaml _ _ _ _ => forall i j v, has_value c m i j v -> ok v
    end.

(** For static maps nothing but the values matters. *)
Definition writable {P : Type} (c : config P) (ok : P -> Prop) (steps : list (step (P:=P))) : Prop :=
  forall before o after m, steps = before ++ o :: after -> cact_all c (actions before) (new_map c) = Ok m ->
    match o with
    | Do _ => True
    | _ => forall i j v, has_value c m i j v -> ok v
    end.

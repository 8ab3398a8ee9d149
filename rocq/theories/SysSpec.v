(** Vocabulary of the map properties, independent of the implementation. *)
From Verif Require Import Base IndexModel OctreeSpec MapModel SysModel.
Open Scope Z_scope.

Section Spec.
Context {P : Type}.
Variable c : config P.

(** Well-formed configuration: matching lengths, a default distribution is not expanded, the
    neighbourhood is the 3^D one (with or without its centre). *)
Record config_ok : Prop := {
  ok_size : kindc c = Static -> length (sizec c) = dimc c;
  ok_min : kindc c = Static -> length (minc c) = dimc c;
  ok_default : expandc c (defaultc c) = false;
  ok_sound : forall o, In o (offsetsc c) -> length o = dimc c /\ Forall (fun z => -1 <= z <= 1) o;
  ok_complete : forall o, length o = dimc c -> Forall (fun z => -1 <= z <= 1) o ->
                  Exists (fun z => z <> 0) o -> In o (offsetsc c)
}.

(** Bundle indices the map can hold: inside the box of a static map (max excluded), inside
    [-2^15+k, 2^15-1-k] for a dynamic one. *)
Definition usable (k : Z) (bi : idx) : Prop :=
  length bi = dimc c /\
  match kindc c with
  | Dynamic => Forall (fun z => -32768 + k <= z <= 32767 - k) bi
  | Static => forall d, (d < dimc c)%nat ->
                nth d (minc c) 0 <= nth d bi 0 < nth d (minc c) 0 + 2 * nth d (sizec c) 0 - 1
  end.

(** Cells the storage of family [i] can hold. *)
Definition cell_exists (i : nat) (j : idx) : Prop :=
  (i < 2 ^ dimc c)%nat /\ length j = dimc c /\
  match kindc c with
  | Dynamic => Forall (fun z => -32768 <= z <= 32767) j
  | Static => forall d, (d < dimc c)%nat ->
      nth d (minc c) 0 / 2 <= nth d j 0 < nth d (minc c) 0 / 2 + nth d (sizec c) 0 + (if (i =? 0)%nat then 0 else 1)
  end.

(** A history keeps to indices the map can hold, with room for [n] rings of neighbours. *)
Definition act_fits (k : Z) (a : map_action (P:=P)) : Prop :=
  match a with
  | Modify bi _ => usable k bi
  | Touch bi => length bi = dimc c /\ (kindc c = Dynamic -> usable k bi)
  | ExpandAll => True
  end.
Fixpoint expansions (l : list (map_action (P:=P))) : Z :=
  match l with [] => 0 | ExpandAll :: l' => 1 + expansions l' | _ :: l' => expansions l' end.
Definition fits (l : list (map_action (P:=P))) : Prop := Forall (act_fits (expansions l)) l.

(** The changes a history makes to cell [j] of family [i], in order. *)
Fixpoint changes (l : list (map_action (P:=P))) (i : nat) (j : idx) : list (P -> P) :=
  match l with
  | [] => []
  | Modify bi f :: l' => if idx_eqb (generate_index bi i) j then f :: changes l' i j else changes l' i j
  | _ :: l' => changes l' i j
  end.
Definition apply_changes (fs : list (P -> P)) (d : P) : P := fold_left (fun v f => f v) fs d.

End Spec.

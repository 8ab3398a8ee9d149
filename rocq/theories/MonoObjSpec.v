(** Vocabulary for programs with several single-distribution maps, independent of the code: every
    object has a history, the list of changes it shows. *)
From Coq Require Import QArith.
From Verif Require Import Base OctreeSpec MonoModel MonoSpec MonoObjModel.
Open Scope Z_scope.

(** Rotation with cosine [rc] and sine [rs]. *)
Definition rigid_ok (t : rigid) : Prop := (rc t * rc t + rs t * rs t == 1)%Q.
(** Point in an axis-parallel box that includes its lower and excludes its upper faces. *)
Definition in_box (lo hi p : list Q) : Prop :=
  forall d, (d < 2)%nat -> (nth d lo 0 <= nth d p 0)%Q /\ (nth d p 0 < nth d hi 0)%Q.

Section Spec.
Context {V W : Type}.

(** Number of objects after a program. *)
Definition creates (s : mstmt (V:=V) (W:=W)) : bool :=
  match s with SNew _ _ _ | SCopy _ | SMove _ => true | _ => false end.
Definition objects (l : list (mstmt (V:=V) (W:=W))) : nat := length (filter creates l).

(** Programs are read from the last statement to the first ([rl] is a reversed program). *)
(** Objects [j] and [k] share a storage: one was moved from the other, possibly in several steps. *)
Fixpoint shared (rl : list (mstmt (V:=V) (W:=W))) (j k : nat) : bool :=
  match rl with
  | [] => false
  | SMove i :: rl' =>
      let n := objects rl' in
      let source x := if Nat.eqb x n then i else x in shared rl' (source j) (source k)
  | SNew _ _ _ :: rl' | SCopy _ :: rl' =>
      let n := objects rl' in
      if Nat.eqb j n then Nat.eqb k n else if Nat.eqb k n then false else shared rl' j k
  | _ :: rl' => shared rl' j k
  end.

(** The arguments of the constructor call from which object [k] descends, and its history. *)
Fixpoint story (rl : list (mstmt (V:=V) (W:=W))) (k : nat) : option ((Q * list Z * idx) * list (mono_op (V:=V) (W:=W))) :=
  match rl with
  | [] => None
  | SNew res size min :: rl' => if Nat.eqb k (objects rl') then Some ((res, size, min), []) else story rl' k
  | SCopy i :: rl' | SMove i :: rl' => story rl' (if Nat.eqb k (objects rl') then i else k)
  | SOp j op :: rl' =>
      match story rl' k with
      | Some (a, ops) => Some (a, if shared rl' j k then ops ++ [op] else ops)
      | None => None
      end
  | SLookup j i :: rl' =>
      match story rl' k with
      | Some (a, ops) => Some (a, if shared rl' j k then ops ++ [MModify i (fun v => v)] else ops)
      | None => None
      end
  end.

(** Every statement names an existing object, constructor arguments fit, accesses stay off the border. *)
Definition stmt_ok (to_m : W -> list Q) (rl : list (mstmt (V:=V) (W:=W))) (s : mstmt (V:=V) (W:=W)) : Prop :=
  match s with
  | SNew res size min => mono_args res size min
  | SCopy k | SMove k => (k < objects rl)%nat
  | SOp k op => exists a ops, story rl k = Some (a, ops) /\
      off_border to_m (fst (fst a)) (snd (fst a)) (snd a) [op]
  | SLookup k i => exists a ops, story rl k = Some (a, ops) /\ in_cells (snd (fst a)) (snd a) i
  end.
Fixpoint prog_ok (to_m : W -> list Q) (rl : list (mstmt (V:=V) (W:=W))) : Prop :=
  match rl with [] => True | s :: rl' => prog_ok to_m rl' /\ stmt_ok to_m rl' s end.
End Spec.

(** What clients may assume of octrees and the pointers they return: several octrees are created,
    copied, destroyed, filled, looked up and changed through returned pointers. A pointer denotes
    one element (content and index); copies of a non-empty octree use the same content. *)
From Verif Require Import Base OctreeSpec.
Open Scope Z_scope.

(** Operations of the client. Octrees are numbered in the order of their construction; returned
    pointers are numbered in the order of the insertions and lookups that returned them. *)
Inductive tree_op (V : Type) : Type :=
| NewTree (garbage : Z)
| CopyTree (t : nat)
| DestroyTree (t : nat)
| InsertAt (t : nat) (i : idx) (v : V)
| GetAt (t : nat) (i : idx)
| WriteTo (k : nat) (f : V -> V).
Arguments NewTree {V} garbage.
Arguments CopyTree {V} t.
Arguments DestroyTree {V} t.
Arguments InsertAt {V} t i v.
Arguments GetAt {V} t i.
Arguments WriteTo {V} k f.

(** Indices used by an operation are in range. *)
Definition op_in_range {V : Type} (dims : nat) (o : tree_op V) : Prop :=
  match o with InsertAt _ i _ | GetAt _ i => in_tree_range dims i | _ => True end.

(** Contents; for each octree that is not destroyed the content it uses, if any; for each returned
    pointer the element it denotes, or none for the null pointer. *)
Record elements (V : Type) : Type := {
  contents : list (abs_map V);
  uses : list (option (option nat));
  denotes : list (option (nat * idx)) }.
Arguments contents {V} e.
Arguments uses {V} e.
Arguments denotes {V} e.
Definition no_elements {V : Type} : elements V := {| contents := []; uses := []; denotes := [] |}.

Section Spec.
Context {V : Type}.
Variable merge : V -> V -> V.

(** Value of an element. *)
Definition value (w : elements V) (e : nat * idx) : option V :=
  match nth_error (contents w) (fst e) with Some m => m (snd e) | None => None end.
Definition set_value (w : elements V) (e : nat * idx) (v : V) : elements V :=
  {| contents := match nth_error (contents w) (fst e) with
                 | Some m => match upd (contents w) (fst e) (abs_set m (snd e) v) with Some l => l | None => [] end
                 | None => [] end;
     uses := uses w; denotes := denotes w |}.
Definition returned (w : elements V) (r : option (nat * idx)) : elements V :=
  {| contents := contents w; uses := uses w; denotes := denotes w ++ [r] |}.
Definition set_use (w : elements V) (t : nat) (u : option (option nat)) : elements V :=
  {| contents := contents w;
     uses := match upd (uses w) t u with Some l => l | None => [] end; denotes := denotes w |}.

Definition elements_step (w : elements V) (o : tree_op V) : outcome (elements V) :=
  match o with
  | NewTree _ => Ok {| contents := contents w; uses := uses w ++ [Some None]; denotes := denotes w |}
  | CopyTree t =>
      match nth_error (uses w) t with
      | Some (Some c) => Ok {| contents := contents w; uses := uses w ++ [Some c]; denotes := denotes w |}
      | _ => UB
      end
  | DestroyTree t =>
      match nth_error (uses w) t with Some (Some c) => Ok (set_use w t None) | _ => UB end
  | InsertAt t i v =>
      match nth_error (uses w) t with
      | Some (Some (Some c)) =>
          Ok (returned (set_value w (c, i) (match value w (c, i) with None => v | Some x => merge x v end))
                       (Some (c, i)))
      | Some (Some None) =>
          let c := length (contents w) in
          Ok (returned (set_use {| contents := contents w ++ [abs_set abs_empty i v];
                                   uses := uses w; denotes := denotes w |} t (Some (Some c)))
                       (Some (c, i)))
      | _ => UB
      end
  | GetAt t i =>
      match nth_error (uses w) t with
      | Some (Some (Some c)) =>
          Ok (returned w (match value w (c, i) with Some _ => Some (c, i) | None => None end))
      | Some (Some None) => Ok (returned w None)
      | _ => UB
      end
  | WriteTo k f =>
      match nth_error (denotes w) k with
      | Some (Some e) => match value w e with Some x => Ok (set_value w e (f x)) | None => UB end
      | _ => UB
      end
  end.
Definition elements_run (ops : list (tree_op V)) : outcome (elements V) :=
  ofold elements_step ops no_elements.
End Spec.

(** Boxes of indices. *)
From Verif Require Import Base.
Open Scope Z_scope.

(** [x] lies in the box spanned by two opposite corners. *)
Definition in_box (p q x : idx) : Prop :=
  forall d, (d < length x)%nat -> Z.min (nth d p 0) (nth d q 0) <= nth d x 0 <= Z.max (nth d p 0) (nth d q 0).
(** [x] lies within one index step of the segment from [p] to [q]: some point [p + t (q - p)],
    0 <= t < 1 rational [a/b], is closer than 1 (Euclidean, squared and scaled by b). *)
Definition near_segment (p q x : idx) : Prop :=
  exists a b, 0 <= a < b /\
    fold_right Z.add 0 (map (fun d => (b * nth d x 0 - (b * nth d p 0 + a * (nth d q 0 - nth d p 0))) *
                                      (b * nth d x 0 - (b * nth d p 0 + a * (nth d q 0 - nth d p 0)))) (seq 0 (length x))) < b * b.
(** Strictly ascending in the lexicographic order. *)
Fixpoint lex_less (a b : idx) : Prop :=
  match a, b with
  | x :: a', y :: b' => x < y \/ (x = y /\ lex_less a' b')
  | _, _ => False
  end.

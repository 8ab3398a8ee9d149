(** Vocabulary of crash safety. *)
From Verif Require Import Base.

(** What has been done when the process stops after some of the steps [es]. *)
Definition done_of {A : Type} (es done : list A) : Prop := exists rest, done ++ rest = es.

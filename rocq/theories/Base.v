(** Common vocabulary of the model: indices, C++ ints, outcomes. *)
From Coq Require Export ZArith List Bool Lia Permutation.
Export ListNotations.
Open Scope Z_scope.

(** [std::array<int,Dim>]: an index is a list of integers, its length is [Dim].
    (cslibs_ndt/map/abstract_map.hpp:41) *)
Definition idx := list Z.

(** Outcome of a C++ operation: a value, undefined behaviour (null dereference,
    out-of-bounds access, signed overflow, out-of-range float to int cast), or a
    thrown exception. *)
Inductive outcome (A : Type) : Type :=
| Ok (a : A)
| UB
| Throw.
Arguments Ok {A} a.
Arguments UB {A}.
Arguments Throw {A}.

Definition obind {A B : Type} (x : outcome A) (f : A -> outcome B) : outcome B :=
  match x with Ok a => f a | UB => UB | Throw => Throw end.
Notation "'let*' x ':=' e1 'in' e2" := (obind e1 (fun x => e2))
  (at level 200, x pattern, e1 at level 100, e2 at level 200, right associativity).

Fixpoint ofold {A B : Type} (f : A -> B -> outcome A) (l : list B) (a : A) : outcome A :=
  match l with
  | [] => Ok a
  | b :: l' => obind (f a b) (ofold f l')
  end.

(** 32-bit signed [int]. *)
Definition INT_MIN : Z := -2147483648.
Definition INT_MAX : Z := 2147483647.
Definition int_ok (z : Z) : bool := (INT_MIN <=? z) && (z <=? INT_MAX).

Definition idx_eqb (a b : idx) : bool :=
  if list_eq_dec Z.eq_dec a b then true else false.

Lemma idx_eqb_spec (a b : idx) : reflect (a = b) (idx_eqb a b).
Proof. unfold idx_eqb; destruct (list_eq_dec Z.eq_dec a b); constructor; assumption. Qed.

Lemma idx_eqb_refl (a : idx) : idx_eqb a a = true.
Proof. destruct (idx_eqb_spec a a); congruence. Qed.

Lemma idx_eqb_sym (a b : idx) : idx_eqb a b = idx_eqb b a.
Proof. destruct (idx_eqb_spec a b), (idx_eqb_spec b a); congruence. Qed.

Lemma ofold_app {A B : Type} (f : A -> B -> outcome A) (l1 l2 : list B) (a : A) :
  ofold f (l1 ++ l2) a = obind (ofold f l1 a) (ofold f l2).
Proof.
  revert a; induction l1 as [|b l1 IH]; intros a; cbn [ofold app obind]; [reflexivity|].
  destruct (f a b); cbn [obind]; auto.
Qed.

(** Write to position [n] of an array; [None] if out of bounds. *)
Fixpoint upd {A : Type} (l : list A) (n : nat) (x : A) : option (list A) :=
  match l, n with
  | [], _ => None
  | _ :: l', O => Some (x :: l')
  | y :: l', S n' => option_map (cons y) (upd l' n' x)
  end.

Lemma upd_some {A : Type} (l : list A) (n : nat) (x : A) :
  (n < length l)%nat -> exists l', upd l n x = Some l'.
Proof.
  revert n; induction l as [|y l IH]; intros n Hn; cbn [length] in Hn; [lia|].
  destruct n as [|n]; cbn [upd]; [eauto|].
  destruct (IH n ltac:(lia)) as [l' ->]. cbn. eauto.
Qed.

Lemma upd_length {A : Type} (l l' : list A) (n : nat) (x : A) :
  upd l n x = Some l' -> length l' = length l.
Proof.
  revert n l'; induction l as [|y l IH]; intros n l' H; cbn [upd] in H; [discriminate|].
  destruct n as [|n]; [injection H as <-; reflexivity|].
  destruct (upd l n x) as [l0|] eqn:E; cbn in H; [|discriminate].
  injection H as <-. cbn [length]. f_equal. eapply IH; exact E.
Qed.

Lemma upd_nth_error {A : Type} (l l' : list A) (n m : nat) (x : A) :
  upd l n x = Some l' -> nth_error l' m = if Nat.eqb n m then Some x else nth_error l m.
Proof.
  revert n m l'; induction l as [|y l IH]; intros n m l' H; cbn [upd] in H; [discriminate|].
  destruct n as [|n].
  - injection H as <-. destruct m; reflexivity.
  - destruct (upd l n x) as [l0|] eqn:E; cbn in H; [|discriminate].
    injection H as <-. destruct m as [|m]; cbn [nth_error Nat.eqb]; [reflexivity|].
    apply IH; exact E.
Qed.

(** Close [Forall P [concrete list]] with linear arithmetic. *)
Ltac forall_lia :=
  repeat (apply Forall_cons; [cbn beta; unfold INT_MIN, INT_MAX; lia|]); apply Forall_nil.

Lemma obind_ok {A B : Type} (x : outcome A) (f : A -> outcome B) (y : B) :
  obind x f = Ok y -> exists a, x = Ok a /\ f a = Ok y.
Proof. destruct x as [a| |]; cbn [obind]; [|discriminate|discriminate]. intros H; exists a; auto. Qed.
Ltac obreak H :=
  let a := fresh "a" in let E := fresh "E" in
  apply obind_ok in H; destruct H as [a [E H]].

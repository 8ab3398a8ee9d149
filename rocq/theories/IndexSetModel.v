(** The nested ordered index set of map/impl/utility.hpp. Definitions only. *)
From Verif Require Import Base.
Open Scope Z_scope.

(** [Map<Dim>::values]: a [std::map<int, Map<Dim-1>>] as its entries in iteration order
    (utility.hpp:11-14). The innermost [std::map<int,bool>] (utility.hpp:95-98) always holds [true];
    it is modelled with a value that carries no information. The unused member [current] is left out. *)
Fixpoint iset (dim : nat) : Type :=
  match dim with
  | O => unit
  | S d => list (Z * iset d)
  end.
Definition iset_empty (dim : nat) : iset dim :=
  match dim with O => tt | S _ => [] end.

Section StdMap.
Context {T : Type}.
(** [std::map::find]: the entry with this key. *)
Fixpoint entry_find (l : list (Z * T)) (k : Z) : option T :=
  match l with
  | [] => None
  | (j, t) :: l' => if j <? k then entry_find l' k else if k <? j then None else Some t
  end.
(** [std::map::insert] followed by a change of the value at the returned iterator: keeps an
    existing entry, otherwise puts [fresh] at its place in the order (utility.hpp:79-80). *)
Fixpoint entry_change (fresh : T) (f : T -> T) (l : list (Z * T)) (k : Z) : list (Z * T) :=
  match l with
  | [] => [(k, f fresh)]
  | (j, t) :: l' => if j <? k then (j, t) :: entry_change fresh f l' k
                    else if k <? j then (k, f fresh) :: l else (j, f t) :: l'
  end.
(** Entries from [lower_bound(a)] on, and those before [upper_bound(b)]. *)
Fixpoint from_lower_bound (a : Z) (l : list (Z * T)) : list (Z * T) :=
  match l with [] => [] | (j, t) :: l' => if j <? a then from_lower_bound a l' else l end.
Fixpoint before_upper_bound (b : Z) (l : list (Z * T)) : list (Z * T) :=
  match l with [] => [] | (j, t) :: l' => if b <? j then [] else (j, t) :: before_upper_bound b l' end.
End StdMap.

(** utility.hpp:77-80 and 145-147 [insert]. The index is passed as the rest of an array
    ([reinterpret_cast] of [i[1]]): the tail of the list. *)
Fixpoint iset_insert (dim : nat) : iset dim -> idx -> iset dim :=
  match dim with
  | O => fun s _ => s
  | S d => fun s i => entry_change (iset_empty d) (fun t => iset_insert d t (tl i)) s (hd 0 i)
  end.
(** utility.hpp:40-44 and 115-118 [find]. *)
Fixpoint iset_find (dim : nat) : iset dim -> idx -> bool :=
  match dim with
  | O => fun _ _ => true
  | S d => fun s i => match entry_find s (hd 0 i) with Some t => iset_find d t (tl i) | None => false end
  end.
(** utility.hpp:18-38 and 101-113 [find_between]. *)
Fixpoint iset_between (dim : nat) : iset dim -> idx -> idx -> list idx :=
  match dim with
  | O => fun _ _ _ => [[]]
  | S d => fun s first last =>
      let a := hd 0 first in let b := hd 0 last in
      let '(a, b) := if b <? a then (b, a) else (a, b) in
      flat_map (fun e => map (cons (fst e)) (iset_between d (snd e) (tl first) (tl last)))
        (before_upper_bound b (from_lower_bound a s))
  end.

(** utility.hpp:178-204 [Container::get_between]. The differences are computed as [int] and stored
    as [double]; products and sums of the doubles are exact here. [t] is the dot product, which the
    code compares with 0 and 1; [(a_p - n*t).length() < 1] is compared in squared form. *)
Definition int_diff (a b : idx) : outcome (list Z) :=
  let l := map (fun p => fst p - snd p) (combine a b) in if forallb int_ok l then Ok l else UB.
Definition dot (a b : list Z) : Z := fold_left (fun r p => r + fst p * snd p) (combine a b) 0.
Definition get_between (dim : nat) (s : iset dim) (first last : idx) : outcome (list (idx * Z)) :=
  let* n := int_diff last first in
  ofold (fun r x =>
    let* ap := int_diff first x in
    let t := dot ap n in
    if (0 <=? t) && (t <? 1) then
      let d := map (fun p => fst p - snd p * t) (combine ap n) in
      if dot d d <? 1 then Ok (r ++ [(x, t)]) else Ok r
    else Ok r) (iset_between dim s first last) [].

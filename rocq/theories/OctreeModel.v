(** Model of cslibs_ndt/backend/octree.hpp. Definitions only.
    [dims] is [index_if::dimensions]; a node has [2^dims] children. *)
From Verif Require Import Base OctreeSpec.
Open Scope Z_scope.

(** octree.hpp:385-386. *)
Definition tree_depth : nat := 16.
Definition tree_max_val : Z := 32768.

Section Octree.
Context {V : Type}.
(** [data_if::merge<on_duplicate_index_strategy>(value, args)] (octree.hpp:111); the value built
    from the arguments by [data_if::create] is the argument itself. *)
Variable merge : V -> V -> V.
Variable dims : nat.

(** octree.hpp:42-167 [union Node]: null, an array of children, or a pointer to [Data].
    Simplified: which union member is active is part of the node, so reading the wrong
    member of a non-null node is [UB]; a null pointer reads as null through both members.
    [assert]s are compiled out; what they guard is [UB] here. *)
Inductive node : Type :=
| NNull
| NChildren (children : list (option node))
| NData (index : idx) (data : V).

(** octree.hpp:370-380 [computeChildIdx]; [key & (1 << depth)] is bit [depth] of [key] in two's
    complement. Adding [tree_max_val_] may overflow [int]: UB. *)
Fixpoint computeChildIdx_from (index : idx) (i : nat) (depth : nat) : outcome nat :=
  match index with
  | [] => Ok 0%nat
  | x :: index' =>
      let key := x + tree_max_val in
      if int_ok key then
        let* rest := computeChildIdx_from index' (S i) depth in
        Ok ((if Z.testbit key (Z.of_nat depth) then 2 ^ i else 0) + rest)%nat
      else UB
  end.
Definition computeChildIdx (index : idx) (depth : nat) : outcome nat :=
  computeChildIdx_from index 0 depth.

(** octree.hpp:43-47, 61-73, 89-94: the children array of a node, allocated when null. *)
Definition children_or_alloc (nd : node) : outcome (list (option node)) :=
  match nd with
  | NNull => Ok (repeat None (2 ^ dims)%nat)
  | NChildren l => Ok l
  | NData _ _ => UB
  end.

(** octree.hpp:233-253 [insert(node, node_just_created, index, depth, args)] with 96-114
    [Node::insert]. [rem] = tree_depth_ - depth, so the examined bit is [rem - 1]. Returns the
    new node and the number of nodes created below it ([++tree_size_]). *)
Fixpoint node_insert (rem : nat) (nd : node) (just_created : bool) (index : idx) (v : V)
  : outcome (node * Z) :=
  match rem with
  | S r =>
      let* pos := computeChildIdx index r in
      let* cs := children_or_alloc nd in
      match nth_error cs pos with
      | None => UB
      | Some None =>
          let* res := node_insert r NNull true index v in
          match upd cs pos (Some (fst res)) with
          | Some cs' => Ok (NChildren cs', snd res + 1)
          | None => UB
          end
      | Some (Some c) =>
          let* res := node_insert r c false index v in
          match upd cs pos (Some (fst res)) with
          | Some cs' => Ok (NChildren cs', snd res)
          | None => UB
          end
      end
  | O =>
      if just_created then Ok (NData index v, 0)
      else match nd with
           | NData i0 v0 => Ok (NData i0 (merge v0 v), 0)
           | _ => UB
           end
  end.

(** octree.hpp:255-287 [get(node, index, depth)] with 116-119 [Node::get]. *)
Fixpoint node_get (rem : nat) (nd : node) (index : idx) : outcome (option V) :=
  match rem with
  | S r =>
      let* pos := computeChildIdx index r in
      match nd with
      | NNull => Ok None
      | NData _ _ => UB
      | NChildren cs =>
          match nth_error cs pos with
          | None => UB
          | Some None => Ok None
          | Some (Some c) => node_get r c index
          end
      end
  | O =>
      match nd with
      | NNull => Ok None
      | NData _ v => Ok (Some v)
      | NChildren _ => UB
      end
  end.

(** Writing [f value] through the pointer that [get]/[insert] returned for [index]
    (the pointer stays valid: octree nodes are never moved). Null pointer: UB. *)
Fixpoint node_modify (rem : nat) (nd : node) (index : idx) (f : V -> V) : outcome node :=
  match rem with
  | S r =>
      let* pos := computeChildIdx index r in
      match nd with
      | NNull | NData _ _ => UB
      | NChildren cs =>
          match nth_error cs pos with
          | None | Some None => UB
          | Some (Some c) =>
              let* c' := node_modify r c index f in
              match upd cs pos (Some c') with
              | Some cs' => Ok (NChildren cs')
              | None => UB
              end
          end
      end
  | O =>
      match nd with
      | NData i0 v => Ok (NData i0 (f v))
      | _ => UB
      end
  end.

(** octree.hpp:289-323 [traverse(node, function, depth)] with 121-133 [Node::apply]: the list of
    calls [function(index, data)]. *)
Fixpoint node_traverse (rem : nat) (nd : node) : outcome (list (idx * V)) :=
  match rem with
  | S r =>
      match nd with
      | NNull => Ok []
      | NData _ _ => UB
      | NChildren cs =>
          (fix go (l : list (option node)) : outcome (list (idx * V)) :=
             match l with
             | [] => Ok []
             | None :: l' => go l'
             | Some c :: l' =>
                 let* a := node_traverse r c in
                 let* b := go l' in
                 Ok (a ++ b)
             end) cs
      end
  | O =>
      match nd with
      | NNull => Ok []
      | NData i v => Ok [(i, v)]
      | NChildren _ => UB
      end
  end.

(** octree.hpp:383-384: root pointer and [tree_size_]. *)
Record octree : Type := { root : option node; tree_size : Z }.

(** Default construction; [tree_size_] has no initialiser, so its value is arbitrary
    (octree.hpp:384). *)
Definition octree_new (garbage : Z) : octree := {| root := None; tree_size := garbage |}.

(** octree.hpp:170-181 [insert]. *)
Definition octree_insert (t : octree) (index : idx) (v : V) : outcome octree :=
  match root t with
  | None =>
      let* res := node_insert tree_depth NNull true index v in
      Ok {| root := Some (fst res); tree_size := tree_size t + 1 + snd res |}
  | Some r =>
      let* res := node_insert tree_depth r false index v in
      Ok {| root := Some (fst res); tree_size := tree_size t + snd res |}
  end.

(** octree.hpp:183-197 [get]. *)
Definition octree_get (t : octree) (index : idx) : outcome (option V) :=
  match root t with None => Ok None | Some r => node_get tree_depth r index end.

(** Write through the pointer returned by [get]. *)
Definition octree_modify (t : octree) (index : idx) (f : V -> V) : outcome octree :=
  match root t with
  | None => UB
  | Some r =>
      let* r' := node_modify tree_depth r index f in
      Ok {| root := Some r'; tree_size := tree_size t |}
  end.

(** octree.hpp:199-211 [traverse]. *)
Definition octree_traverse (t : octree) : outcome (list (idx * V)) :=
  match root t with None => Ok [] | Some r => node_traverse tree_depth r end.

(** octree.hpp:227-230 [size]. *)
Definition octree_size (t : octree) : Z := tree_size t.

(** A client's operation on the octree: insertion or write through a returned pointer. *)
Definition octree_step (t : octree) (o : map_op V) : outcome octree :=
  match o with
  | Insert i v => octree_insert t i v
  | Write i f => octree_modify t i f
  end.
Definition octree_run (ops : list (map_op V)) (t : octree) : outcome octree :=
  ofold octree_step ops t.

End Octree.
Arguments node V : clear implicits.
Arguments octree V : clear implicits.

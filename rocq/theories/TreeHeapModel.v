(** cslibs_ndt/backend/octree.hpp with nodes, arrays of children and data as separate objects in
    memory, reached through pointers. Definitions only.
    Simplified: an address is the position of an object in the list of all allocated objects, so
    [new] never fails and never returns an address twice ([octree.hpp] frees nothing: its only
    [delete]s are in [clear], which cannot be instantiated). [assert]s are compiled out; what they
    guard is [UB]. *)
From Verif Require Import Base OctreeSpec OctreeModel TreeHeapSpec.
Open Scope Z_scope.

(** Addresses are positions in the list of allocated objects. *)
Notation addr := nat (only parsing).

(** octree.hpp:164-167: the two pointers of [union Node] share one word, null at first. Reading
    the member that was not written last is [UB] unless the word is null. *)
Inductive word : Type := WNull | WChildren (a : addr) | WData (a : addr).

Section TreeHeap.
Context {V : Type}.
(** [data_if::merge<on_duplicate_index_strategy>] (octree.hpp:111). *)
Variable merge : V -> V -> V.
(** [index_if::dimensions]. *)
Variable dims : nat.

(** octree.hpp:42-167 [union Node], octree.hpp:91 [new Node*[dimension]] and octree.hpp:36-40
    [struct Data]. *)
Inductive object : Type :=
| ONode (w : word)
| OChildren (l : list (option addr))
| OData (index : idx) (data : V).
Definition memory : Type := list object.

Definition new_object (h : memory) (o : object) : memory * addr := (h ++ [o], length h).
Definition store (h : memory) (a : addr) (o : object) : outcome memory :=
  match upd h a o with Some h' => Ok h' | None => UB end.
Definition word_of (h : memory) (n : addr) : outcome word :=
  match nth_error h n with Some (ONode w) => Ok w | _ => UB end.
Definition array_of (h : memory) (a : addr) : outcome (list (option addr)) :=
  match nth_error h a with Some (OChildren l) => Ok l | _ => UB end.
Definition data_of (h : memory) (a : addr) : outcome (idx * V) :=
  match nth_error h a with Some (OData i v) => Ok (i, v) | _ => UB end.
Definition entry (l : list (option addr)) (pos : nat) : outcome (option addr) :=
  match nth_error l pos with Some x => Ok x | None => UB end.

(** octree.hpp:165 [children_] and 166 [data_ptr_]. *)
Definition children_ (h : memory) (n : addr) : outcome (option addr) :=
  let* w := word_of h n in
  match w with WNull => Ok None | WChildren a => Ok (Some a) | WData _ => UB end.
Definition data_ptr_ (h : memory) (n : addr) : outcome (option addr) :=
  let* w := word_of h n in
  match w with WNull => Ok None | WData a => Ok (Some a) | WChildren _ => UB end.

(** octree.hpp:43-47 [childExists]. *)
Definition childExists (h : memory) (n : addr) (pos : nat) : outcome bool :=
  let* c := children_ h n in
  match c with
  | None => Ok false
  | Some a =>
      let* l := array_of h a in
      let* x := entry l pos in
      Ok (match x with Some _ => true | None => false end)
  end.

(** octree.hpp:89-94 [allocateChildren]. *)
Definition allocateChildren (h : memory) (n : addr) : outcome memory :=
  let (h1, a) := new_object h (OChildren (repeat None (2 ^ dims)%nat)) in
  store h1 n (ONode (WChildren a)).

(** octree.hpp:61-73 [createChild]. *)
Definition createChild (h : memory) (n : addr) (pos : nat) : outcome memory :=
  let* c := children_ h n in
  let* h1 := match c with None => allocateChildren h n | Some _ => Ok h end in
  let* c1 := children_ h1 n in
  match c1 with
  | None => UB
  | Some a =>
      let (h2, child) := new_object h1 (ONode WNull) in
      let* l := array_of h2 a in
      match upd l pos (Some child) with
      | Some l' => store h2 a (OChildren l')
      | None => UB
      end
  end.

(** octree.hpp:75-87 [getChild]; the returned pointer is dereferenced by every caller, so null is
    [UB] here already. *)
Definition getChild (h : memory) (n : addr) (pos : nat) : outcome addr :=
  let* c := children_ h n in
  match c with
  | None => UB
  | Some a =>
      let* l := array_of h a in
      let* x := entry l pos in
      match x with Some child => Ok child | None => UB end
  end.

(** octree.hpp:96-114 [Node::insert]; the returned reference is the address of the [Data]. *)
Definition data_insert (h : memory) (n : addr) (node_just_created : bool) (index : idx) (v : V)
  : outcome (memory * addr) :=
  if node_just_created then
    let (h1, d) := new_object h (OData index v) in
    let* h2 := store h1 n (ONode (WData d)) in
    Ok (h2, d)
  else
    let* p := data_ptr_ h n in
    match p with
    | None => UB
    | Some d =>
        let* e := data_of h d in
        let* h1 := store h d (OData (fst e) (merge (snd e) v)) in
        Ok (h1, d)
    end.

(** octree.hpp:233-253 [insert(node, node_just_created, index, depth, args)];
    [rem] = tree_depth_ - depth. Returns memory, address of the element and the number of times
    [++tree_size_] was executed. *)
Fixpoint at_insert (rem : nat) (h : memory) (n : addr) (node_just_created : bool) (index : idx) (v : V)
  : outcome (memory * addr * Z) :=
  match rem with
  | S r =>
      let* pos := computeChildIdx index r in
      let* e := childExists h n pos in
      let* h1 := if e then Ok h else createChild h n pos in
      let* c := getChild h1 n pos in
      let* res := at_insert r h1 c (negb e) index v in
      Ok (fst res, snd res + (if e then 0 else 1))
  | O =>
      let* res := data_insert h n node_just_created index v in
      Ok (res, 0)
  end.

(** octree.hpp:255-287 [get(node, index, depth)] with 116-119 [Node::get]. *)
Fixpoint at_get (rem : nat) (h : memory) (n : addr) (index : idx) : outcome (option addr) :=
  match rem with
  | S r =>
      let* pos := computeChildIdx index r in
      let* e := childExists h n pos in
      if e then
        let* c := getChild h n pos in
        at_get r h c index
      else Ok None
  | O => data_ptr_ h n
  end.

(** octree.hpp:289-323 [traverse(node, function, depth)] with 121-133 [Node::apply]: the calls of
    the function. *)
Fixpoint at_traverse (rem : nat) (h : memory) (n : addr) : outcome (list (idx * V)) :=
  match rem with
  | S r =>
      (fix go (l : list nat) : outcome (list (idx * V)) :=
         match l with
         | [] => Ok []
         | i :: l' =>
             let* e := childExists h n i in
             if e then
               let* c := getChild h n i in
               let* a := at_traverse r h c in
               let* b := go l' in
               Ok (a ++ b)
             else go l'
         end) (seq 0 (2 ^ dims)%nat)
  | O =>
      let* p := data_ptr_ h n in
      match p with
      | None => Ok []
      | Some d => let* e := data_of h d in Ok [e]
      end
  end.

(** octree.hpp:382-386: the members of an octree object. *)
Record tree : Type := { root_ : option addr; tree_size_ : Z }.

(** octree.hpp:170-181 [insert]. *)
Definition tree_insert (h : memory) (t : tree) (index : idx) (v : V) : outcome (memory * addr * tree) :=
  match root_ t with
  | None =>
      let (h1, n) := new_object h (ONode WNull) in
      let* res := at_insert tree_depth h1 n true index v in
      Ok (fst res, {| root_ := Some n; tree_size_ := tree_size_ t + 1 + snd res |})
  | Some n =>
      let* res := at_insert tree_depth h n false index v in
      Ok (fst res, {| root_ := Some n; tree_size_ := tree_size_ t + snd res |})
  end.

(** octree.hpp:183-197 [get]. *)
Definition tree_get (h : memory) (t : tree) (index : idx) : outcome (option addr) :=
  match root_ t with None => Ok None | Some n => at_get tree_depth h n index end.

(** octree.hpp:199-211 [traverse]. *)
Definition tree_traverse (h : memory) (t : tree) : outcome (list (idx * V)) :=
  match root_ t with None => Ok [] | Some n => at_traverse tree_depth h n end.

(** Assignment through the reference or pointer that [insert] or [get] returned. *)
Definition write (h : memory) (d : addr) (f : V -> V) : outcome memory :=
  let* e := data_of h d in
  store h d (OData (fst e) (f (snd e))).

(** Operations on one octree: insertion, and write through the pointer obtained for an index. *)
Definition tree_step (s : memory * tree) (o : map_op V) : outcome (memory * tree) :=
  match o with
  | Insert i v => let* res := tree_insert (fst s) (snd s) i v in Ok (fst (fst res), snd res)
  | Write i f =>
      let* p := tree_get (fst s) (snd s) i in
      match p with
      | None => UB
      | Some d => let* h := write (fst s) d f in Ok (h, snd s)
      end
  end.

Definition tree_run (garbage : Z) (ops : list (map_op V)) : outcome (memory * tree) :=
  ofold tree_step ops ([], {| root_ := None; tree_size_ := garbage |}).

(** Memory, the client's octree objects (destroyed ones are [None]) and the pointers returned. *)
Record client : Type := {
  objects : memory;
  octrees : list (option tree);
  pointers : list (option addr) }.
Definition client_new : client := {| objects := []; octrees := []; pointers := [] |}.

Definition alive (s : client) (t : nat) : outcome tree :=
  match nth_error (octrees s) t with Some (Some x) => Ok x | _ => UB end.
Definition set_octree (s : client) (t : nat) (x : option tree) : outcome client :=
  match upd (octrees s) t x with
  | Some l => Ok {| objects := objects s; octrees := l; pointers := pointers s |}
  | None => UB
  end.

(** The client's operations. Construction leaves [tree_size_] uninitialised (octree.hpp:384).
    The class declares neither copy constructor nor destructor: the implicit ones copy the members
    (octree.hpp:383-386) and free nothing. *)
Definition client_step (s : client) (o : tree_op V) : outcome client :=
  match o with
  | NewTree g =>
      Ok {| objects := objects s;
            octrees := octrees s ++ [Some {| root_ := None; tree_size_ := g |}];
            pointers := pointers s |}
  | CopyTree t =>
      let* x := alive s t in
      Ok {| objects := objects s; octrees := octrees s ++ [Some x]; pointers := pointers s |}
  | DestroyTree t =>
      let* x := alive s t in
      set_octree s t None
  | InsertAt t i v =>
      let* x := alive s t in
      let* res := tree_insert (objects s) x i v in
      set_octree {| objects := fst (fst res); octrees := octrees s;
                    pointers := pointers s ++ [Some (snd (fst res))] |} t (Some (snd res))
  | GetAt t i =>
      let* x := alive s t in
      let* p := tree_get (objects s) x i in
      Ok {| objects := objects s; octrees := octrees s; pointers := pointers s ++ [p] |}
  | WriteTo k f =>
      match nth_error (pointers s) k with
      | Some (Some d) =>
          let* h := write (objects s) d f in
          Ok {| objects := h; octrees := octrees s; pointers := pointers s |}
      | _ => UB
      end
  end.
Definition client_run (ops : list (tree_op V)) : outcome client := ofold client_step ops client_new.

End TreeHeap.
Arguments object V : clear implicits.
Arguments memory V : clear implicits.
Arguments client V : clear implicits.

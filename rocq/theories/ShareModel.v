(** Octrees used by several threads: cslibs_ndt/backend/octree.hpp and the allocation of bundles in
    cslibs_ndt/map/abstract_map.hpp as programs that access memory one location at a time.
    Definitions only.
    Simplified: the threads take turns (sequential consistency); C++ gives no meaning at all to
    programs with unsynchronised conflicting accesses, so what goes wrong here goes wrong in C++,
    and what is proved to be free of conflicts is meaningful there. Allocations are atomic and never
    fail; addresses are as in TreeHeapModel.v. *)
From Verif Require Import Base OctreeSpec OctreeModel TreeHeapSpec TreeHeapModel.
Open Scope Z_scope.

Section Threads.
Context {V : Type}.
(** [data_if::merge<on_duplicate_index_strategy>] (octree.hpp:111). *)
Variable merge : V -> V -> V.
(** [index_if::dimensions]. *)
Variable dims : nat.

(** A program of one thread: it stops with a result or with undefined behaviour, or accesses one
    location and goes on. Locations: the members [root_] and [tree_size_] of octree number [t]
    (octree.hpp:383-384), the word of a node, an entry of an array of children, a [Data].
    Simplified: the value in a [Data] is read and changed at once. *)
Inductive prog (A : Type) : Type :=
| Ret (a : A)
| Crash
| ReadRoot (t : nat) (k : option addr -> prog A)
| WriteRoot (t : nat) (n : addr) (k : prog A)
| ReadSize (t : nat) (k : Z -> prog A)
| WriteSize (t : nat) (z : Z) (k : prog A)
| ReadWord (n : addr) (k : word -> prog A)
| WriteWord (n : addr) (w : word) (k : prog A)
| ReadEntry (a : addr) (pos : nat) (k : option addr -> prog A)
| WriteEntry (a : addr) (pos : nat) (c : addr) (k : prog A)
| ReadData (d : addr) (k : idx * V -> prog A)
| UpdateData (d : addr) (f : V -> V) (k : prog A)
| NewObject (o : object V) (k : addr -> prog A).
Arguments Ret {A} a.
Arguments Crash {A}.
Arguments ReadRoot {A} t k.
Arguments WriteRoot {A} t n k.
Arguments ReadSize {A} t k.
Arguments WriteSize {A} t z k.
Arguments ReadWord {A} n k.
Arguments WriteWord {A} n w k.
Arguments ReadEntry {A} a pos k.
Arguments WriteEntry {A} a pos c k.
Arguments ReadData {A} d k.
Arguments UpdateData {A} d f k.
Arguments NewObject {A} o k.

(** One program after the other. *)
Fixpoint pbind {A B : Type} (p : prog A) (q : A -> prog B) : prog B :=
  match p with
  | Ret a => q a
  | Crash => Crash
  | ReadRoot t k => ReadRoot t (fun x => pbind (k x) q)
  | WriteRoot t n k => WriteRoot t n (pbind k q)
  | ReadSize t k => ReadSize t (fun x => pbind (k x) q)
  | WriteSize t z k => WriteSize t z (pbind k q)
  | ReadWord n k => ReadWord n (fun x => pbind (k x) q)
  | WriteWord n w k => WriteWord n w (pbind k q)
  | ReadEntry a pos k => ReadEntry a pos (fun x => pbind (k x) q)
  | WriteEntry a pos c k => WriteEntry a pos c (pbind k q)
  | ReadData d k => ReadData d (fun x => pbind (k x) q)
  | UpdateData d f k => UpdateData d f (pbind k q)
  | NewObject o k => NewObject o (fun x => pbind (k x) q)
  end.
Local Notation "'do' x <- p ; q" := (pbind p (fun x => q)) (at level 200, x name, p at level 100, q at level 200).
Definition lift {A : Type} (x : outcome A) : prog A := match x with Ok a => Ret a | _ => Crash end.

(** What the threads share: the memory and the octree objects. *)
Record shared : Type := { mem : memory V; trees : list tree }.
Definition set_mem (s : shared) (h : memory V) : shared := {| mem := h; trees := trees s |}.
Definition tree_at (s : shared) (t : nat) : outcome tree :=
  match nth_error (trees s) t with Some x => Ok x | None => UB end.
Definition set_tree (s : shared) (t : nat) (x : tree) : outcome shared :=
  match upd (trees s) t x with Some l => Ok {| mem := mem s; trees := l |} | None => UB end.

(** The next access of a program; a program that has stopped stays as it is. *)
Definition pstep {A : Type} (p : prog A) (s : shared) : outcome (shared * prog A) :=
  match p with
  | Ret a => Ok (s, p)
  | Crash => UB
  | ReadRoot t k => let* x := tree_at s t in Ok (s, k (root_ x))
  | WriteRoot t n k =>
      let* x := tree_at s t in
      let* s' := set_tree s t {| root_ := Some n; tree_size_ := tree_size_ x |} in Ok (s', k)
  | ReadSize t k => let* x := tree_at s t in Ok (s, k (tree_size_ x))
  | WriteSize t z k =>
      let* x := tree_at s t in
      let* s' := set_tree s t {| root_ := root_ x; tree_size_ := z |} in Ok (s', k)
  | ReadWord n k => let* w := word_of (mem s) n in Ok (s, k w)
  | WriteWord n w k =>
      let* _ := word_of (mem s) n in
      let* h := store (mem s) n (ONode w) in Ok (set_mem s h, k)
  | ReadEntry a pos k =>
      let* l := array_of (mem s) a in
      let* x := entry l pos in Ok (s, k x)
  | WriteEntry a pos c k =>
      let* l := array_of (mem s) a in
      match upd l pos (Some c) with
      | Some l' => let* h := store (mem s) a (OChildren l') in Ok (set_mem s h, k)
      | None => UB
      end
  | ReadData d k => let* e := data_of (mem s) d in Ok (s, k e)
  | UpdateData d f k =>
      let* e := data_of (mem s) d in
      let* h := store (mem s) d (OData (fst e) (f (snd e))) in Ok (set_mem s h, k)
  | NewObject o k => let (h, a) := new_object (mem s) o in Ok (set_mem s h, k a)
  end.

(** A program without any others beside it. *)
Fixpoint alone {A : Type} (p : prog A) (s : shared) : outcome (shared * A) :=
  match p with
  | Ret a => Ok (s, a)
  | Crash => UB
  | ReadRoot t k => let* x := tree_at s t in alone (k (root_ x)) s
  | WriteRoot t n k =>
      let* x := tree_at s t in
      let* s' := set_tree s t {| root_ := Some n; tree_size_ := tree_size_ x |} in alone k s'
  | ReadSize t k => let* x := tree_at s t in alone (k (tree_size_ x)) s
  | WriteSize t z k =>
      let* x := tree_at s t in
      let* s' := set_tree s t {| root_ := root_ x; tree_size_ := z |} in alone k s'
  | ReadWord n k => let* w := word_of (mem s) n in alone (k w) s
  | WriteWord n w k =>
      let* _ := word_of (mem s) n in
      let* h := store (mem s) n (ONode w) in alone k (set_mem s h)
  | ReadEntry a pos k =>
      let* l := array_of (mem s) a in
      let* x := entry l pos in alone (k x) s
  | WriteEntry a pos c k =>
      let* l := array_of (mem s) a in
      match upd l pos (Some c) with
      | Some l' => let* h := store (mem s) a (OChildren l') in alone k (set_mem s h)
      | None => UB
      end
  | ReadData d k => let* e := data_of (mem s) d in alone (k e) s
  | UpdateData d f k =>
      let* e := data_of (mem s) d in
      let* h := store (mem s) d (OData (fst e) (f (snd e))) in alone k (set_mem s h)
  | NewObject o k => let (h, a) := new_object (mem s) o in alone (k a) (set_mem s h)
  end.

(** A turn of thread number [i], and a schedule of turns. *)
Definition turn {A : Type} (w : shared * list (prog A)) (i : nat) : outcome (shared * list (prog A)) :=
  match nth_error (snd w) i with
  | None => Ok w
  | Some p =>
      let* r := pstep p (fst w) in
      match upd (snd w) i (snd r) with Some ps => Ok (fst r, ps) | None => UB end
  end.
Definition interleave {A : Type} (schedule : list nat) (s : shared) (ps : list (prog A))
  : outcome (shared * list (prog A)) := ofold turn schedule (s, ps).

(** The location the next access concerns and whether it changes it; allocations concern none. Two
    programs race if their next accesses concern the same location and one of them changes it. *)
Inductive location : Type :=
| LRoot (t : nat) | LSize (t : nat) | LWord (n : addr) | LEntry (a : addr) (pos : nat) | LData (d : addr).
Definition access {A : Type} (p : prog A) : option (location * bool) :=
  match p with
  | Ret _ | Crash | NewObject _ _ => None
  | ReadRoot t _ => Some (LRoot t, false)
  | WriteRoot t _ _ => Some (LRoot t, true)
  | ReadSize t _ => Some (LSize t, false)
  | WriteSize t _ _ => Some (LSize t, true)
  | ReadWord n _ => Some (LWord n, false)
  | WriteWord n _ _ => Some (LWord n, true)
  | ReadEntry a pos _ => Some (LEntry a pos, false)
  | WriteEntry a pos _ _ => Some (LEntry a pos, true)
  | ReadData d _ => Some (LData d, false)
  | UpdateData d _ _ => Some (LData d, true)
  end.
Definition race {A : Type} (p q : prog A) : Prop :=
  exists l w w', access p = Some (l, w) /\ access q = Some (l, w') /\ (w || w')%bool = true.
Definition race_free {A : Type} (ps : list (prog A)) : Prop :=
  forall i j p q, i <> j -> nth_error ps i = Some p -> nth_error ps j = Some q -> ~ race p q.

(** ** octree.hpp *)

(** octree.hpp:165 [children_] and 166 [data_ptr_]. *)
Definition p_children (n : addr) : prog (option addr) :=
  ReadWord n (fun w => match w with WNull => Ret None | WChildren a => Ret (Some a) | WData _ => Crash end).
Definition p_data_ptr (n : addr) : prog (option addr) :=
  ReadWord n (fun w => match w with WNull => Ret None | WData a => Ret (Some a) | WChildren _ => Crash end).

(** octree.hpp:43-47 [childExists]. Simplified: [children_] is read once. *)
Definition p_childExists (n : addr) (pos : nat) : prog bool :=
  do c <- p_children n;
  match c with
  | None => Ret false
  | Some a => ReadEntry a pos (fun x => Ret (match x with Some _ => true | None => false end))
  end.

(** octree.hpp:89-94 [allocateChildren]. Simplified: the array is filled with null pointers before
    the node points to it. *)
Definition p_allocateChildren (n : addr) : prog unit :=
  NewObject (OChildren (repeat None (2 ^ dims)%nat)) (fun a => WriteWord n (WChildren a) (Ret tt)).

(** octree.hpp:61-73 [createChild]. *)
Definition p_createChild (n : addr) (pos : nat) : prog unit :=
  do c <- p_children n;
  do _ <- match c with None => p_allocateChildren n | Some _ => Ret tt end;
  do c1 <- p_children n;
  match c1 with
  | None => Crash
  | Some a => NewObject (ONode WNull) (fun child => WriteEntry a pos child (Ret tt))
  end.

(** octree.hpp:75-87 [getChild]. *)
Definition p_getChild (n : addr) (pos : nat) : prog addr :=
  do c <- p_children n;
  match c with
  | None => Crash
  | Some a => ReadEntry a pos (fun x => match x with Some child => Ret child | None => Crash end)
  end.

(** octree.hpp:96-114 [Node::insert]. Simplified: the new [Data] is complete when allocated. *)
Definition p_data_insert (n : addr) (node_just_created : bool) (index : idx) (v : V) : prog addr :=
  if node_just_created then
    NewObject (OData index v) (fun d => WriteWord n (WData d) (Ret d))
  else
    do p <- p_data_ptr n;
    match p with
    | None => Crash
    | Some d => UpdateData d (fun x => merge x v) (Ret d)
    end.

(** [++tree_size_] (octree.hpp:176, 244). *)
Definition p_count (t : nat) : prog unit := ReadSize t (fun z => WriteSize t (z + 1) (Ret tt)).

(** octree.hpp:233-253 [insert(node, node_just_created, index, depth, args)];
    [rem] = tree_depth_ - depth. *)
Fixpoint p_at_insert (t rem : nat) (n : addr) (node_just_created : bool) (index : idx) (v : V) : prog addr :=
  match rem with
  | S r =>
      do pos <- lift (computeChildIdx index r);
      do e <- p_childExists n pos;
      do _ <- (if e then Ret tt else do _ <- p_createChild n pos; p_count t);
      do c <- p_getChild n pos;
      p_at_insert t r c (negb e) index v
  | O => p_data_insert n node_just_created index v
  end.

(** octree.hpp:170-181 [insert]. *)
Definition p_insert (t : nat) (index : idx) (v : V) : prog addr :=
  ReadRoot t (fun root =>
    match root with
    | None =>
        NewObject (ONode WNull) (fun n => WriteRoot t n (
          do _ <- p_count t;
          ReadRoot t (fun root =>
            match root with Some n => p_at_insert t tree_depth n true index v | None => Crash end)))
    | Some _ =>
        ReadRoot t (fun root =>
          match root with Some n => p_at_insert t tree_depth n false index v | None => Crash end)
    end).

(** octree.hpp:255-287 [get(node, index, depth)] with 116-119 [Node::get]. *)
Fixpoint p_at_get (rem : nat) (n : addr) (index : idx) : prog (option addr) :=
  match rem with
  | S r =>
      do pos <- lift (computeChildIdx index r);
      do e <- p_childExists n pos;
      if e then do c <- p_getChild n pos; p_at_get r c index else Ret None
  | O => p_data_ptr n
  end.

(** octree.hpp:183-197 [get]. Simplified: [root_] is read once. *)
Definition p_get (t : nat) (index : idx) : prog (option addr) :=
  ReadRoot t (fun root => match root with None => Ret None | Some n => p_at_get tree_depth n index end).

(** octree.hpp:289-323 [traverse(node, function, depth)] with 121-133 [Node::apply]: the calls of
    the function. *)
Fixpoint p_at_traverse (rem : nat) (n : addr) : prog (list (idx * V)) :=
  match rem with
  | S r =>
      (fix go (l : list nat) : prog (list (idx * V)) :=
         match l with
         | [] => Ret []
         | i :: l' =>
             do e <- p_childExists n i;
             if e then
               do c <- p_getChild n i;
               do a <- p_at_traverse r c;
               do b <- go l';
               Ret (a ++ b)
             else go l'
         end) (seq 0 (2 ^ dims)%nat)
  | O =>
      do p <- p_data_ptr n;
      match p with None => Ret [] | Some d => ReadData d (fun e => Ret [e]) end
  end.

(** octree.hpp:199-211 [traverse]. Simplified: [root_] is read once. In a thread of [save]
    (serialization/map.hpp:61-69 with serialization/storage.hpp:110-114) the function writes the
    element to the thread's own file. *)
Definition p_traverse (t : nat) : prog (list (idx * V)) :=
  ReadRoot t (fun root => match root with None => Ret [] | Some n => p_at_traverse tree_depth n end).

(** Operations on octree [t]: insertion, and a write through the pointer obtained for an index. *)
Definition p_op (t : nat) (o : map_op V) : prog unit :=
  match o with
  | Insert i v => do _ <- p_insert t i v; Ret tt
  | Write i f =>
      do p <- p_get t i;
      match p with None => Crash | Some d => UpdateData d f (Ret tt) end
  end.
(** Loops over such operations. [loadStorage] (serialization/storage.hpp:138-165) in one of the
    threads of [load] (serialization/map.hpp:115-124) inserts the records of its file one after the
    other; the file itself is not shared. *)
Fixpoint p_ops (t : nat) (ops : list (map_op V)) : prog unit :=
  match ops with [] => Ret tt | o :: ops' => do _ <- p_op t o; p_ops t ops' end.

(** serialization/map.hpp:115-122: thread [t] fills storage [t], constructed empty
    (serialization/storage.hpp:122) with [tree_size_] uninitialised (octree.hpp:384). *)
Definition fill_threads (work : list (list (map_op V))) : list (prog unit) :=
  map (fun w => p_ops (fst w) (snd w)) (combine (seq 0 (length work)) work).
Definition empty_trees (garbage : list Z) : shared :=
  {| mem := []; trees := map (fun g => {| root_ := None; tree_size_ := g |}) garbage |}.

End Threads.
Arguments prog V A : clear implicits.
Arguments Ret {V A} a.
Arguments Crash {V A}.
Arguments ReadRoot {V A} t k.
Arguments WriteRoot {V A} t n k.
Arguments ReadSize {V A} t k.
Arguments WriteSize {V A} t z k.
Arguments ReadWord {V A} n k.
Arguments WriteWord {V A} n w k.
Arguments ReadEntry {V A} a pos k.
Arguments WriteEntry {V A} a pos c k.
Arguments ReadData {V A} d k.
Arguments UpdateData {V A} d f k.
Arguments NewObject {V A} o k.
Arguments shared V : clear implicits.
Notation "'do' x <- p ; q" := (pbind p (fun x => q)) (at level 200, x name, p at level 100, q at level 200).

(** ** abstract_map.hpp: a dynamic map used by several threads *)
Section Map.
Context {D : Type}.
(** A default-constructed distribution. *)
Variable d_new : D.
(** What [merge] of the backend does to distributions. *)
Variable d_merge : D -> D -> D.
Variable dims : nat.

(** Elements of the octrees: [Bundle] (common/bundle.hpp:97-98, without [expand_]) is an array of
    pointers to distributions; a distribution. *)
Inductive content : Type :=
| Bundle (data : list (option addr))
| Dist (d : D).
(** [Bundle::merge] does nothing (common/bundle.hpp:67-69). *)
Definition c_merge (a b : content) : content :=
  match a, b with
  | Bundle l, _ => Bundle l
  | Dist x, Dist y => Dist (d_merge x y)
  | Dist x, Bundle _ => Dist x
  end.

(** abstract_map.hpp:282-288 [getAllocate(s, i)]: octree [1 + k] is the storage of family [k]. *)
Definition p_allocate_dist (k : nat) (i : idx) : prog content addr :=
  do d <- p_get (1 + k) i;
  match d with Some d => Ret d | None => p_insert c_merge dims (1 + k) i (Dist d_new) end.

(** abstract_map.hpp:298-302: [b] is entry [k] of the bundle. *)
Definition p_fill (bundle : addr) (k : nat) (i : idx) : prog content unit :=
  ReadData bundle (fun e =>
    match snd e with
    | Bundle l =>
        match nth_error l k with
        | Some (Some _) => Ret tt
        | Some None =>
            do d <- p_allocate_dist k i;
            UpdateData bundle (fun c => match c with
              | Bundle l => match upd l k (Some d) with Some l' => Bundle l' | None => c end
              | Dist _ => c end) (Ret tt)
        | None => Crash
        end
    | Dist _ => Crash
    end).
Fixpoint p_fill_all (bundle : addr) (k : nat) (indices : list idx) : prog content unit :=
  match indices with
  | [] => Ret tt
  | i :: rest => do _ <- p_fill bundle k i; p_fill_all bundle (S k) rest
  end.

(** abstract_map.hpp:290-306 [getAllocate(bi)]: octree 0 is the storage of bundles; [indices] are
    the indices [apply_indices] computes from [bi]. Simplified: without [updateIndices]. *)
Definition p_getAllocate (bi : idx) (indices : list idx) : prog content addr :=
  do b <- p_get 0 bi;
  match b with
  | Some b => Ret b
  | None =>
      do b <- p_insert c_merge dims 0 bi (Bundle (repeat None (length indices)));
      do _ <- p_fill_all b 0 indices;
      Ret b
  end.

(** The data a score is computed from (map/impl/gridmap.hpp:107-137, 146-178 and
    map/impl/occupancy_gridmap.hpp:252-288): [*bundle->at(k)] for all families [k], if the bundle is
    there; [None] for a null pointer. Reading a distribution is one access that changes nothing. *)
Fixpoint p_slots (b : addr) (ks : list nat) : prog content (list (option D)) :=
  match ks with
  | [] => Ret []
  | k :: ks' =>
      ReadData b (fun e =>
        match snd e with
        | Bundle l =>
            match nth_error l k with
            | Some (Some d) =>
                ReadData d (fun e' =>
                  match snd e' with
                  | Dist x => do r <- p_slots b ks'; Ret (Some x :: r)
                  | Bundle _ => Crash
                  end)
            | Some None => do r <- p_slots b ks'; Ret (None :: r)
            | None => Crash
            end
        | Dist _ => Crash
        end)
  end.
Definition p_sample (bi : idx) : prog content (option (list (option D))) :=
  do b <- p_get 0 bi;
  match b with
  | None => Ret None
  | Some b => do r <- p_slots b (seq 0 (2 ^ dims)%nat); Ret (Some r)
  end.

(** What const member functions ask for: [getDistributionBundle(bi)] const
    of a dynamic map (generic_map.hpp:243-246, [indices] as above), and the data of a score at [bi]. *)
Inductive query : Type :=
| LookUp (bi : idx) (indices : list idx)
| Sample (bi : idx).
Inductive answer : Type :=
| Found (b : addr)
| Sampled (r : option (list (option D))).
Definition p_query (q : query) : prog content answer :=
  match q with
  | LookUp bi indices => do b <- p_getAllocate bi indices; Ret (Found b)
  | Sample bi => do r <- p_sample bi; Ret (Sampled r)
  end.
Fixpoint p_queries (l : list query) : prog content (list answer) :=
  match l with
  | [] => Ret []
  | q :: l' => do a <- p_query q; do r <- p_queries l'; Ret (a :: r)
  end.
End Map.
Arguments content D : clear implicits.
Arguments answer D : clear implicits.

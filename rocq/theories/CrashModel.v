(** What [save] does to the disk, step by step, so that it can be interrupted: serialization/map.hpp:39-72,
    serialization/filesystem.hpp:50-63. Definitions only. *)
From Verif Require Import Base SerialModel FileModel.
Open Scope Z_scope.

(** One effect on the directory. Opening a file truncates it; what is written to a stream arrives on the
    disk in pieces of any size. *)
Inductive effect : Type :=
| RemoveHeader
| RemoveStore (i : nat)
| RemoveDirectory
| MakeDirectory
| OpenHeader
| AppendHeader (bs : list Z)
| OpenStore (i : nat)
| AppendStore (i : nat) (bs : list Z).

Definition set_file (l : list (option (list Z))) (i : nat) (f : option (list Z)) : list (option (list Z)) :=
  match upd l i f with Some l' => l' | None => l end.
Definition append_file (f : option (list Z)) (bs : list Z) : option (list Z) :=
  match f with Some a => Some (a ++ bs) | None => None end.
(** [n] is the number of storage files of a map. *)
Definition on_disk (n : nat) (p : place) (e : effect) : place :=
  match e, p with
  | RemoveDirectory, _ => None
  | MakeDirectory, None => Some {| header_file := None; store_files := repeat None n |}
  | RemoveHeader, Some d => Some {| header_file := None; store_files := store_files d |}
  | RemoveStore i, Some d => Some {| header_file := header_file d; store_files := set_file (store_files d) i None |}
  | OpenHeader, Some d => Some {| header_file := Some []; store_files := store_files d |}
  | AppendHeader bs, Some d => Some {| header_file := append_file (header_file d) bs; store_files := store_files d |}
  | OpenStore i, Some d => Some {| header_file := header_file d; store_files := set_file (store_files d) i (Some []) |}
  | AppendStore i bs, Some d =>
      Some {| header_file := header_file d;
              store_files := set_file (store_files d) i
                (match nth_error (store_files d) i with Some f => append_file f bs | None => None end) |}
  | _, _ => p
  end.
Definition disk (n : nat) (p : place) (es : list effect) : place := fold_left (on_disk n) es p.

(** filesystem.hpp:52-57: [boost::filesystem::remove_all] deletes the files in some order, then the
    directory; nothing is to be done if the path does not exist. *)
Definition removal (n : nat) (p : place) (es : list effect) : Prop :=
  match p with
  | None => es = []
  | Some _ => exists rm, Permutation rm (RemoveHeader :: map RemoveStore (seq 0 n)) /\ es = rm ++ [RemoveDirectory]
  end.

(** storage.hpp:101-117 [save] of file [i] in the pieces [cs]. *)
Definition store_effects (i : nat) (cs : list (list Z)) : list effect := OpenStore i :: map (AppendStore i) cs.

(** map.hpp:62-70: the threads' effects in any interleaving. *)
Inductive interleaving : list (list effect) -> list effect -> Prop :=
| interleaving_end ls : Forall (fun l => l = []) ls -> interleaving ls []
| interleaving_step ls i e l ls' es :
    nth_error ls i = Some (e :: l) -> upd ls i l = Some ls' -> interleaving ls' es -> interleaving ls (e :: es).

(** Everything a successful [save] of the directory [d] onto [p] does, in order. *)
Definition save_effects (n : nat) (p : place) (d : directory) (es : list effect) : Prop :=
  exists h files rm hs css ts,
    header_file d = Some h /\ store_files d = map Some files /\ length files = n /\
    removal n p rm /\ concat hs = h /\ map (@concat Z) css = files /\
    interleaving (map (fun ic => store_effects (fst ic) (snd ic)) (combine (seq 0 n) css)) ts /\
    es = rm ++ MakeDirectory :: OpenHeader :: map AppendHeader hs ++ ts.

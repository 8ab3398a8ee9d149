(** Which header file [load] reads, serialization/map.hpp:74-113. Definitions only. *)
From Coq Require Import String.
From Verif Require Import Base.

(** [boost::filesystem::path]: components, and whether it starts at the root. *)
Record path : Type := { absolute : bool; parts : list string }.
(** [operator/]. Version 3 of the library (Boost before 1.78, or by default before 1.85) appends always;
    version 4 replaces the left side by an absolute right side. [v4] says which one is used. *)
Definition join (v4 : bool) (p q : path) : path :=
  if v4 && absolute q then q else {| absolute := absolute p; parts := parts p ++ parts q |}.

(** The file a path denotes, seen from the working directory [cwd]: its components from the root, without
    [.] and [..]. Simplified: no symbolic links. *)
Fixpoint resolve_from (here : list string) (ps : list string) : list string :=
  match ps with
  | [] => here
  | p :: ps' =>
      resolve_from (if String.eqb p "." then here else if String.eqb p ".." then removelast here else here ++ [p]) ps'
  end.
Definition resolve (cwd : list string) (p : path) : list string :=
  resolve_from (if absolute p then [] else cwd) (parts p).

(** The regular files of the file system. *)
Definition files (C : Type) : Type := list string -> option C.

(** What [load] takes as header. *)
Inductive header_choice (C : Type) : Type :=
| YamlHeader (contents : C)
| BinaryHeader (contents : C)
| NoHeader.
Arguments YamlHeader {C} contents.
Arguments BinaryHeader {C} contents.
Arguments NoHeader {C}.

Definition name (s : string) : path := {| absolute := false; parts := [s] |}.
(** map.hpp:95-113. [YAML::LoadFile] throws [BadFile] if the file cannot be opened. *)
Definition choose_header {C : Type} (v4 : bool) (fs : files C) (cwd : list string) (path_root : path) :
  outcome (header_choice C) :=
  let path_file := join v4 path_root (name "map.yaml") in
  match fs (resolve cwd path_file) with
  | Some _ =>
      match fs (resolve cwd (join v4 path_root path_file)) with
      | Some n => Ok (YamlHeader n)
      | None => Throw
      end
  | None =>
      match fs (resolve cwd (join v4 path_root (name "map.bin"))) with
      | Some b => Ok (BinaryHeader b)
      | None => Ok NoHeader
      end
  end.

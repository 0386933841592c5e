(** Model of the search for projects: /repo/src/disseminate/builders/environment.py *)
From Coq Require Import List Bool Arith NArith.
From Verif.Base Require Import Str PurePath.
From Verif.Model Require Import ListUtils.
Import ListNotations.

(** An entry below the search directory: the names of its directories, its name and
    whether it is a file.  Links are not modelled. *)
Record entry := mkentry { dir : list str; base : str; is_file : bool }.

(** [Path.parents] below the search directory: all proper prefixes *)
Fixpoint parents (d : list str) : list (list str) :=
  match d with nil => nil | x :: r => nil :: map (cons x) (parents r) end.

Section Search.
(** The entries in the order of the file system; [order]: the order of a set *)
Context (entries : list entry) (order : list (list str) -> list (list str)) (ext : str).

(** [glob( *ext )]: an extension without wildcards.  Directories match, too. *)
Definition matches (e : entry) : bool := endswith (base e) ext.
(** environment.py:129-130 *)
Definition paths : list (list str) := order (uniq (map dir (filter matches entries))).
(** environment.py:133-143 *)
Definition basepaths : list (list str) :=
  order (filter (fun p => negb (existsb (fun q => mem q paths) (parents p))) paths).
(** environment.py:123-160 [_get_src_filepaths]: the project root and the subpath of each *)
Definition src_filepaths : list (list str * str) :=
  flat_map (fun p => map (fun e => (p, base e)) (filter (fun e => eqb (dir e) p && matches e) entries)) basepaths.
(** environment.py:184-197 [create_environments]: [file]: the path is a file. *)
Definition root_filepaths (file : option (list str * str)) : list (list str * str) :=
  match file with Some f => [f] | None => src_filepaths end.
End Search.

(** environment.py:111-120 [get_target_root] *)
Definition get_target_root (project_root : path) : path :=
  if eqb (path_name project_root) (lit "src") then path_parent project_root else project_root.

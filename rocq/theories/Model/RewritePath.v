(** Model of the filter that rewrites paths in templates in
    /repo/src/disseminate/builders/jinja_render.py *)
From Coq Require Import List Bool NArith.
From Verif.Base Require Import Str Result PurePath.
From Verif.Model Require Import Paths.
Import ListNotations.

(** paths.py:134-136 and 164-168: [parent] of a path of a target is made by pathlib
    without the root, the target and the subpath (pathlib before Python 3.12), which
    are then those of the class, None; paths.py:291-293 [use_subpath] makes texts of
    them *)
Definition bare_parent : xpath := Target (of_str (lit "None")) (lit "None") (of_str nil).

(** jinja_render.py:51-54: the paths that are searched *)
Definition rewrite_paths (out : xpath) : result (list xpath) :=
  do root <- use_subpath out (of_str nil) ; Ok [bare_parent; root].

(** paths.py:179-241 [get_url] for the context of a template, which is not a dict,
    so that its base url is not used.  [relative] is the entry 'relative_links' of the
    context (true if there is none) and [doc] is the file of the target for the document
    of the context or, without it, for the root document.  Paths of pathlib have
    no such method. *)
Definition template_url (cwd : list str) (relative : bool) (doc : option path) (x : xpath) (target : str) : result str :=
  match x with
  | Target _ _ _ =>
      Ok (match (if relative then doc else None) with
          | Some d => relative_url cwd x d
          | None => absolute_url x (Some target)
          end)
  | _ => Raise AttributeError
  end.

(** jinja_render.py:33-67 [rewrite_path].  The message in the log is left out. *)
Definition rewrite_path (is_file : path -> bool) (cwd : list str) (relative : bool) (doc : option path)
    (out : xpath) (target stub : str) : result str :=
  let stub := strip_c 47%N stub in
  do ps <- rewrite_paths out ;
  match find_text is_file stub ps with
  | Ok x => template_url cwd relative doc x target
  | Raise FileNotFoundError => Ok stub
  | Raise e => Raise e
  end.

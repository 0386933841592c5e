(** Paths that are written in templates *)
From Coq Require Import List Bool NArith.
From Verif.Base Require Import Str PurePath PyText.
Import ListNotations.

(** The text, without the slashes at its ends *)
Definition bare (stub s : str) : Prop :=
  exists a b, stub = a ++ s ++ b /\ (forall c, In c (a ++ b) -> c = 47%N) /\
    (forall c r, s = c :: r -> c <> 47%N) /\ (forall c r, s = r ++ [c] -> c <> 47%N).

(** A text in a template that is a path: without the slashes at its ends it is
    one line without spaces around it *)
Definition one_path (stub : str) (q : path) : Prop :=
  exists s, bare stub s /\ strip s = s /\ splitlines s = [s] /\ q = of_str s.

(** The directory of a target in the directory of targets *)
Definition target_dir (root : path) (target : str) : path := path_join root (of_str (strip_c 46%N target)).
(** A file in it *)
Definition file_in (root : path) (target : str) (q : path) : path := path_join (target_dir root target) q.
(** The path that is tried instead of the path beside the page *)
Definition stray (q : path) : path := path_join (of_str (lit "None/None")) q.

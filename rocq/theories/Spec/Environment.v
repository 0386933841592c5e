(** The root documents of a directory *)
From Coq Require Import List.
From Verif.Base Require Import Str.
From Verif.Model Require Import Environment.
Import ListNotations.

(** There is an entry with the name [n] in the directory [d]. *)
Definition exists_in (entries : list entry) (d : list str) (n : str) : Prop :=
  exists e, In e entries /\ dir e = d /\ base e = n.
(** The name of a source *)
Definition source_name (ext n : str) : Prop := exists stem, n = stem ++ ext.
(** [d] is a directory above [d']. *)
Definition above (d d' : list str) : Prop := exists x r, d' = d ++ x :: r.
(** A source in a directory without sources in the directories above *)
Definition root_source (entries : list entry) (ext : str) (d : list str) (n : str) : Prop :=
  exists_in entries d n /\ source_name ext n /\
  ~ (exists d' n', above d' d /\ exists_in entries d' n' /\ source_name ext n').

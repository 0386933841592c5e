(** Contents of files *)
From Coq Require Import List Bool NArith.
From Verif.Base Require Import Str Dict.
From Verif.Model Require Import LinkCopy.
Import ListNotations.

(** What reading a file gives; none if there is no such file *)
Definition content (name : str) (s : fs) : option str :=
  match lookup name (f_names s) with Some i => lookup i (f_data s) | None => None end.
(** Names are listed once, and inodes with names have contents *)
Definition sound (s : fs) : Prop :=
  wf (f_names s) /\ forall n i, lookup n (f_names s) = Some i -> lookup i (f_data s) <> None.
(** New inodes have no name *)
Definition is_fresh (fresh : fs -> nat -> nat) : Prop := forall s d n, lookup n (f_names s) <> Some (d, fresh s d).
(** The two names are not those of inodes with the same number on different devices *)
Definition no_clash (src dst : str) (s : fs) : Prop :=
  forall d d' i, lookup src (f_names s) = Some (d, i) -> lookup dst (f_names s) = Some (d', i) -> d = d'.
Definition prefix (p x : str) : Prop := exists q, p ++ q = x.

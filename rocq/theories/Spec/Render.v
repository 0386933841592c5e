(** The templates of a page *)
From Coq Require Import List Bool Arith NArith.
From Verif.Base Require Import Str Dict Result PurePath.
From Verif.Model Require Import Paths Render.
From Verif.Spec Require Import Paths.
Import ListNotations.

(** A template refers to another one (extends, includes or imports it), directly or not; [refs t] are the
    names that are written in the template [t] *)
Inductive reaches (refs : str -> list (option str)) : str -> str -> Prop :=
| reach_self t : reaches refs t t
| reach_ref t u v : In (Some u) (refs t) -> reaches refs u v -> reaches refs t v.
(** A template that refers to itself, directly or through others *)
Definition recursive (refs : str -> list (option str)) (t : str) : Prop :=
  exists u, In (Some u) (refs t) /\ reaches refs u t.

(** The context file that belongs to the file of a template is two directories up *)
Definition context_of (f : path) : path := path_join (path_parent (path_parent f)) (of_str (lit "context.txt")).

(** [first_of P l x]: [x] is the first of [l] with [P] *)
Definition first_of {A} (P : A -> Prop) (l : list A) (x : A) : Prop :=
  exists a b, l = a ++ x :: b /\ P x /\ Forall (fun y => ~ P y) a.

(** The parameters are the same file or the same text *)
Inductive same_param : param -> param -> Prop :=
| sp_path x y : full x = full y -> same_param (PPath x) (PPath y)
| sp_text s : same_param (PText s) (PText s).

(** ** Generated files *)
(** The name of a generated file starts with that of the source file beside it and an underscore; no such file has a
    path that starts with the directory for media *)
Definition outside (media : str) (src : path) : Prop :=
  forall rest, startswith (path_str (path_join (path_parent src) (mkpath false [path_stem src ++ lit "_" ++ rest]))) media = false.
(** A source file in a project whose name has no dot but that of its extension *)
Definition plain_source (src : path) : Prop :=
  wf_path src /\ absolute src = false /\ parts src <> nil /\ ~ In 46%N (path_stem src).
(** The hash is written in at least 12 characters, without dots and slashes *)
Definition hex (hexdigest : str -> str) : Prop :=
  forall x, 12 <= length (hexdigest x) /\ ~ In 46%N (hexdigest x) /\ ~ In 47%N (hexdigest x).

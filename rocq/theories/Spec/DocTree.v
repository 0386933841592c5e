(** Include graphs, trees of documents and histories of changes *)
From Coq Require Import List Bool Arith NArith.
From Verif.Base Require Import Str Dict Result PurePath.
From Verif.Model Require Import DocTree.
Import ListNotations.

(** [p] includes [q] *)
Definition edge (fs : files) (p q : path) : Prop := exists f, lookup p fs = Some f /\ In q (fincludes f).
Inductive reach (fs : files) : path -> path -> Prop :=
| reach_refl p : reach fs p p
| reach_step p q r : edge fs p q -> reach fs q r -> reach fs p r.

(** An include that leads on: to another document that is not the root *)
Definition onward (fs : files) (root p q : path) : Prop := edge fs p q /\ q <> p /\ q <> root.
Inductive path_to (fs : files) (root : path) : path -> path -> Prop :=
| path_one p q : onward fs root p q -> path_to fs root p q
| path_more p q r : onward fs root p q -> path_to fs root q r -> path_to fs root p r.
(** No cycles, other than those through the root and documents that include
    themselves *)
Definition acyclic (fs : files) (root : path) : Prop := forall p, ~ path_to fs root p p.

(** All files that are reached exist and can be loaded *)
Definition loadable (fs : files) (root : path) : Prop :=
  forall p, reach fs root p -> exists f, lookup p fs = Some f /\ small f = true /\ good f = true.

(** The tree of a document: itself and the documents of the trees of its
    sub-documents *)
Inductive in_tree (h : heap) : nat -> nat -> Prop :=
| tree_self i d : lookup i (docs h) = Some d -> in_tree h i i
| tree_sub i d k s e : lookup i (docs h) = Some d -> In (k, s) (subs d) -> in_tree h s e -> in_tree h i e.

(** A document holds what its file has now *)
Definition current (fs : files) (h : heap) (i : nat) : Prop :=
  exists d f, lookup i (docs h) = Some d /\ lookup (src d) fs = Some f /\
    loaded d = true /\ held d = Some (contents f) /\ includes d = fincludes f.

(** Histories: files are written or removed, and the root document is loaded.
    Loads may fail. *)
Inductive event := Write (p : path) (f : file) | Remove (p : path) | Load (n : nat).
Definition step (s : heap * files) (e : event) : heap * files :=
  match e with
  | Write p f => (fst s, set p f (snd s))
  | Remove p => (fst s, remove p (snd s))
  | Load n => (fst (load (snd s) 0 n 0 (fst s)), snd s)
  end.
Definition run (s : heap * files) (es : list event) : heap * files := fold_left step es s.
(** The clock goes on: every file is written at a time later than all before *)
Fixpoint timely (now : N) (es : list event) : Prop :=
  match es with
  | nil => True
  | Write _ f :: r => (now < fmtime f)%N /\ timely (fmtime f) r
  | _ :: r => timely now r
  end.
Definition written_by (now : N) (fs : files) : Prop := wf fs /\ forall p f, lookup p fs = Some f -> (fmtime f <= now)%N.

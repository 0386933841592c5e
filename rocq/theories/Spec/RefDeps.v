(** The labels that a page depends on: what users rely on *)
From Coq Require Import List Bool Arith NArith.
From Verif.Base Require Import Str Dict Sort Result.
From Verif.Model Require Import Labels TagTree.
From Verif.Spec Require Import TagTree.
Import ListNotations.

(** Somewhere in the tags among [values], at any depth, there is a reference to [id].  [is_ref] are the classes of
    references, and [label_id] are the ids that references have. *)
Definition refers (is_ref : nat -> bool) (label_id : nat -> option str) (values : list obj) (id : str) : Prop :=
  exists tag n cls ctx c, In tag values /\ In (OTag n cls ctx c) (tags_of tag) /\ is_ref cls = true /\ label_id n = Some id.

(** The label that [id] stands for in the project *)
Definition stands_for (e : env) (m : manager) (id : str) (l : label) : Prop := fst (get_label e (e_sep e) id m) = Ok l.

(** By document, and by id in a document, as texts are compared *)
Definition before (a b : label) : Prop :=
  (l_doc a = l_doc b /\ str_leb (l_id a) (l_id b) = true) \/ (l_doc a <> l_doc b /\ str_leb (l_doc a) (l_doc b) = true).

(** A label has a number for each of its kinds *)
Definition numbered (l : label) (ks : list str) (os : list nat) : Prop :=
  l_kind l = Some ks /\ l_order l = Some os /\ length os = length ks.

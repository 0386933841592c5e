(** Neighbours of documents and their headings *)
From Coq Require Import List Bool Arith NArith.
From Verif.Base Require Import Str Dict.
From Verif.Model Require Import Navigation.
Import ListNotations.

(** The labels of each document come together *)
Definition grouped (labels : list label) : Prop :=
  exists order, NoDup order /\ labels = flat_map (fun i => filter (fun l => eqb (ldoc l) i) labels) order.

(** [l] is the first heading of the document [i] *)
Definition heading (labels : list label) (i : str) (l : label) : Prop :=
  exists l1 l2, labels = l1 ++ l :: l2 /\ ldoc l = i /\ forall x, In x l1 -> ldoc x <> i.

(** [e] is the first document of [docs] that has the target *)
Definition first_with (t : str) (docs : list document) (e : document) : Prop :=
  exists l1 l2, docs = l1 ++ e :: l2 /\ In t (targets e) /\ forall x, In x l1 -> ~ In t (targets x).
(** [e] is the last document of [docs] that has the target *)
Definition last_with (t : str) (docs : list document) (e : document) : Prop :=
  exists l1 l2, docs = l1 ++ e :: l2 /\ In t (targets e) /\ forall x, In x l2 -> ~ In t (targets x).
(** The entry of a context for a link: next_html for the name next and the target .html *)
Definition link_entry (name t : str) : str := name ++ lit "_" ++ strip_c 46%N t.

(** What attributes with weak references hold *)
From Coq Require Import List Bool NArith.
From Verif.Base Require Import Str Dict.
From Verif.Model Require Import Classes WeakAttr.
Import ListNotations.

(** The class of the object has the descriptor under one name, the same for all
    objects it is used for *)
Definition placed (name_of : nat -> str) (class_of : nat -> pyclass) (d o : nat) : Prop :=
  forall n, lookup n (all_dicts (class_of o)) = Some (VWeak d) <-> n = name_of d.
Definition all_placed (name_of : nat -> str) (class_of : nat -> pyclass) (es : list event) : Prop :=
  forall e, In e es -> match e with EGet d o | ESet d o _ | EDel d o => placed name_of class_of d o | EDie _ => True end.

(** The object that was assigned last to the attribute [d] of [o], if it was not
    deleted since (the history has the last event at its end) *)
Inductive holds (d o : nat) : list event -> nat -> Prop :=
| holds_set es v : holds d o (es ++ [ESet d o (Some v)]) v
| holds_later es e v : holds d o es v ->
    (forall x, e <> ESet d o (Some x)) -> e <> EDel d o -> holds d o (es ++ [e]) v.
Definition gone (es : list event) (v : nat) : Prop := In (EDie v) es.

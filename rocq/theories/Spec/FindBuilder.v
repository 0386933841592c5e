(** The best converter *)
From Coq Require Import List Bool Arith NArith.
From Verif.Base Require Import Str Dict Result.
From Verif.Model Require Import FindBuilder.
Import ListNotations.

(** A class that can convert [i] to [o] *)
Definition converts (i o : option str) (c : cls) : Prop :=
  available c = true /\ act c = true /\ in_ext c = i /\ out_ext c = o.

(** Of the classes of [l] that can convert [i] to [o], [c] has the highest
    priority, and comes first of those with this priority *)
Definition best (l : list cls) (i o : option str) (c : cls) : Prop :=
  exists l1 l2, l = l1 ++ c :: l2 /\ converts i o c /\
    (forall c', In c' l1 -> converts i o c' -> priority c' < priority c) /\
    (forall c', In c' l2 -> converts i o c' -> priority c' <= priority c).

Definition no_converter (l : list cls) (i o : option str) : Prop := forall c, In c l -> ~ converts i o c.

(** Parts of tags and items of lists *)
From Coq Require Import List Bool NArith.
From Verif.Base Require Import Str Dict.
From Verif.Model Require Import TagEq.
Import ListNotations.

(** [a] is inside of [b] *)
Inductive inside (a : elem) : elem -> Prop :=
  | inside_tag c n at1 x ctx : a = x \/ inside a x -> inside a (Tag c n at1 x ctx)
  | inside_list l x : In x l -> a = x \/ inside a x -> inside a (Elems l).

(** The same tags: texts are the same, lists have the same elements in order, and
    attributes the same entries in any order *)
Inductive same : elem -> elem -> Prop :=
  | same_text s : same (Text s) (Text s)
  | same_tag c n at1 at2 x y ctx : (forall k, lookup k at1 = lookup k at2) -> same x y -> same (Tag c n at1 x ctx) (Tag c n at2 y ctx)
  | same_nil : same (Elems nil) (Elems nil)
  | same_cons x y l m : same x y -> same (Elems l) (Elems m) -> same (Elems (x :: l)) (Elems (y :: m)).

(** The attributes are dicts *)
Inductive proper : elem -> Prop :=
  | proper_text s : proper (Text s)
  | proper_tag c n at1 x ctx : wf at1 -> proper x -> proper (Tag c n at1 x ctx)
  | proper_list l : (forall x, In x l -> proper x) -> proper (Elems l).

(** Texts in which no item starts *)
Definition no_item (l : list (nat * str)) : Prop := forall x, In x l -> ~ In 167%N (snd x).

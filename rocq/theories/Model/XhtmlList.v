(** Model of nested html lists: /repo/src/disseminate/formats/xhtml.py:225-308 *)
From Coq Require Import List Bool Arith.
Import ListNotations.

(** The content of a list element: items and lists.  The elements themselves are
    not modelled. *)
Inductive node {A : Type} := Item (x : A) | Sub (l : list node).
Arguments node : clear implicits.

(** xhtml.py:267-281: groupby with the counter.  An element of the level of the
    list starts a new group. *)
Fixpoint groups {A} (level : nat) (l : list (nat * A)) : list (list (nat * A)) :=
  match l with
  | nil => nil
  | x :: r =>
      match groups level r with
      | (y :: g) :: gs => if Nat.eqb (fst y) level then [x] :: (y :: g) :: gs else (x :: y :: g) :: gs
      | _ => [[x]]
      end
  end.
(** xhtml.py:263-308 [xhtml_list]: the content of the list; [n] bounds the depth,
    the number of elements is enough. *)
Fixpoint xlist {A} (n : nat) (l : list (nat * A)) : list (node A) :=
  match n, l with
  | S n', x :: _ =>
      flat_map (fun g => match g with
                         | nil => nil
                         | y :: nil => [Item (snd y)]
                         | y :: sub => [Item (snd y); Sub (xlist n' sub)]
                         end) (groups (fst x) l)
  | _, _ => nil
  end.
Definition xhtml_list {A} (l : list (nat * A)) : list (node A) := xlist (length l) l.

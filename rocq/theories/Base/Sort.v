(** Python's stable [sorted] (model of the built-in; no file in /repo). *)
From Coq Require Import List Bool Arith NArith.
From Verif.Base Require Import Str.
Import ListNotations.

Section Sort.
Context {A : Type} (leb : A -> A -> bool).
(** insert before the first element that is strictly greater: [leb x y] keeps
    [x] in front of equal later elements *)
Fixpoint insert (x : A) (l : list A) : list A :=
  match l with
  | nil => [x]
  | y :: r => if leb x y then x :: l else y :: insert x r
  end.
Fixpoint isort (l : list A) : list A :=
  match l with nil => nil | x :: r => insert x (isort r) end.
End Sort.

(** [sorted(l, key=key)] for integer keys *)
Definition sort_by {A} (key : A -> nat) (l : list A) : list A :=
  isort (fun x y => Nat.leb (key x) (key y)) l.

(** Lexicographic order on strings (Python's [<=] on str: by code point) *)
Fixpoint str_leb (a b : str) : bool :=
  match a, b with
  | nil, _ => true
  | _ :: _, nil => false
  | x :: a', y :: b' => if N.ltb x y then true else if N.eqb x y then str_leb a' b' else false
  end.

(** What the list utilities should compute, stated without the model. *)
From Coq Require Import List Bool Arith.
From Verif.Base Require Import Str.
From Verif.Model Require Import ListUtils.
Import ListNotations.

(** The element at index [i] is a first occurrence if no smaller index has the
    same key. *)
Definition is_first {A K} `{EqDec K} (key : A -> K) (l : list A) (i : nat) : bool :=
  match nth_error l i with
  | Some x => negb (existsb (fun y => eqb (key x) (key y)) (firstn i l))
  | None => false
  end.
(** The first occurrences, by increasing index. *)
Definition first_occurrences {A K} `{EqDec K} (key : A -> K) (l : list A) : list A :=
  flat_map (fun i => match nth_error l i with Some x => [x] | None => [] end)
           (filter (is_first key l) (seq 0 (length l))).

(** How often a key occurs. *)
Definition occurrences {A K} `{EqDec K} (key : A -> K) (k : K) (l : list A) : nat :=
  length (filter (fun x => eqb (key x) k) l).

(** The leaves of a nested list, left to right, as a relation. *)
Inductive leaves {A} : pval A -> list A -> Prop :=
| leaves_atom a : leaves (Atom a) [a]
| leaves_list l ls : Forall2 leaves l ls -> leaves (PList l) (concat ls).

(** [v] is wrapped in any number of one-element lists. *)
Inductive wrapped {A} : pval A -> pval A -> Prop :=
| wrapped_0 v : wrapped v v
| wrapped_S v w : wrapped v w -> wrapped v (PList [w]).

(** A table with [n] rows of [m] cells. *)
Definition rectangular {A} (n m : nat) (t : list (list A)) : Prop :=
  length t = n /\ Forall (fun r => length r = m) t.

(** The cell in row [i], column [j]. *)
Definition cell {A} (t : list (list A)) (i j : nat) : option A :=
  match nth_error t i with Some r => nth_error r j | None => None end.

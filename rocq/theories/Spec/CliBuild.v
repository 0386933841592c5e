(** Tables of text and rounds of builds *)
From Coq Require Import List Bool NArith Arith.
From Verif.Base Require Import Str.
Import ListNotations.

(** The text [v] is in the line from column [k] *)
Definition at_column (k : nat) (v line : str) : Prop := exists a b, line = a ++ v ++ b /\ length a = k.

(** The state after [n] rounds *)
Fixpoint rounds {A} (f : A -> A) (n : nat) (a : A) : A := match n with O => a | S n => rounds f n (f a) end.
(** A build that is not finished *)
Definition unfinished (s : str) : Prop := s = lit "ready" \/ s = lit "building".

(** Tables of contents as they are seen *)
From Coq Require Import List Bool Arith NArith.
From Verif.Base Require Import Str Dict Result.
From Verif.Model Require Import Attributes Labels HtmlFmt.
From Verif.Spec Require Import Labels Toc.
Import ListNotations.

(** The items of a list, with the number of lists that they are in; a list in a list is not an item *)
Fixpoint entries (d : nat) (n : node) : list (nat * node) :=
  match n with
  | NElem name _ kids => if eqb name (lit "ol") then flat_map (entries (S d)) kids else [(d, n)]
  | _ => [(d, n)]
  end.

(** The levels of the labels of a table (see Spec/Toc.v) *)
Definition levels_of (ls : list label) (levels : list nat) : Prop :=
  length levels = length ls /\
  forall a l r n, ls = a ++ l :: r -> nth_error levels (length a) = Some n -> toc_level (a ++ [l]) n.

(** An item of a list with a link in it *)
Definition item (level : nat) (a : node) : node :=
  NElem (lit "li") [(lit "class", VStr (lit "toc-level-" ++ str_of_nat level))] [a].

(** A line of a list in tex: a mark for each level, and the text *)
Definition line (level : nat) (x : str) : str := repeat 167%N level ++ lit " " ++ x ++ [10%N].

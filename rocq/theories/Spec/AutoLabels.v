(** Titles and the ids of headings and figures (C64) *)
From Coq Require Import List Bool Arith NArith.
From Verif.Base Require Import Str Dict Result.
From Verif.Model Require Import Labels AutoLabels.
Import ListNotations.

(** The visible characters of a text: without spaces and ends of lines *)
Definition visible (s : str) : str := filter (fun c => negb (N.eqb c 32 || N.eqb c 10)) s.
(** [p] occurs in [s] *)
Definition occurs (p s : str) : Prop := exists a b, s = a ++ p ++ b.
Definition dots (s : str) : Prop := forall c, In c s -> c = 46%N.

(** A text as titles should be: words with single spaces between them *)
Definition words (ws : list str) : Prop := forall w, In w ws -> w <> nil /\ ~ In 32%N w /\ ~ In 10%N w.

(** A heading without text, and how many there are *)
Definition is_blank (x : heading) : bool :=
  match h_id x, h_short x with None, None => h_plain x && forallb is_space (h_text x) | _, _ => false end.
Fixpoint blanks (l : list item) : nat :=
  match l with
  | nil => 0
  | Head x :: r => (if is_blank x then 1 else 0) + blanks r
  | Fig _ _ :: r => blanks r
  end.
(** The number of labels *)
Fixpoint labels_of (l : list item) : nat :=
  match l with nil => 0 | Head _ :: r => S (labels_of r) | Fig _ cs :: r => length cs + labels_of r end.

(** The prefixes of the ids of headings *)
Definition prefixes : list (str * str) :=
  [(lit "title", lit "title"); (lit "part", lit "part"); (lit "chapter", lit "ch"); (lit "section", lit "sec");
   (lit "subsection", lit "subsec"); (lit "subsubsection", lit "subsubsec")].

(** The label number [n] of the document has the id [i] *)
Definition has_id (ids : list (str * list str)) (n : nat) (i : str) : Prop := option_map fst (nth_error ids n) = Some i.

(** Bullet lists by lines; nested lists *)
From Coq Require Import List Bool Arith NArith.
From Verif.Base Require Import Str PyText.
From Verif.Model Require Import XhtmlList.
Import ListNotations.

Definition spaces (w : str) : Prop := forallb rx_space w = true.
Definition bullet (c : char) : Prop := c = 42%N \/ c = 45%N.
(** A line that starts an item: its indentation, its bullet, its text *)
Definition bullet_line (l : str) : Prop := exists w c t, l = w ++ c :: t /\ spaces w /\ bullet c.
(** The lines before the first bullet; for each item its indentation and its lines,
    of which the first is without the bullet *)
Inductive layout : list str -> list str -> list (str * list str) -> Prop :=
| lay_nil : layout [] [] []
| lay_item w c t r pre bs : spaces w -> bullet c -> layout r pre bs -> layout ((w ++ c :: t) :: r) [] ((w, t :: pre) :: bs)
| lay_text l r pre bs : ~ bullet_line l -> layout r pre bs -> layout (l :: r) (l :: pre) bs.

(** The words of a text *)
Fixpoint words_from (cur x : str) : list str :=
  match x with
  | nil => match cur with nil => nil | _ => [cur] end
  | c :: r => if rx_space c then match cur with nil => words_from nil r | _ => cur :: words_from nil r end
              else words_from (cur ++ [c]) r
  end.
Definition words (x : str) : list str := words_from nil x.
(** No line but the first is indented or empty *)
Definition flush_lines (x : str) : Prop := forall a c b, x = a ++ 10%N :: c :: b -> rx_space c = false.

(** The items of a nested list with their depth *)
Fixpoint placed {A} (d : nat) (x : node A) : list (nat * A) :=
  match x with
  | Item a => [(d, a)]
  | Sub l => flat_map (placed (S d)) l
  end.
Definition layout_of {A} (l : list (node A)) : list (nat * A) := flat_map (placed 0) l.

(** Levels that start at [a] and never go below it, and go up by one at a time *)
Fixpoint steps (a v : nat) (ls : list nat) : Prop :=
  match ls with
  | nil => True
  | x :: r => a <= x <= S v /\ steps a x r
  end.

(** The depth of an item: the lists that are open, the outermost first, are those
    of their first levels.  An item goes to the open list of its level, or else
    into a new list in the last item. *)
Fixpoint upto (v : nat) (open : list nat) : list nat :=
  match open with nil => [v] | x :: r => if Nat.eqb x v then [x] else x :: upto v r end.
Fixpoint depths (open : list nat) (ls : list nat) : list nat :=
  match ls with
  | nil => nil
  | v :: r => let open' := upto v open in (length open' - 1) :: depths open' r
  end.

(** The levels of [l'] are those of [l] above the lowest, halved and rounded up. *)
Definition normalized (l l' : list (nat * str)) : Prop :=
  exists m, (forall p, In p l -> m <= fst p) /\ (l = [] \/ In m (map fst l)) /\
    Forall2 (fun p q => snd q = snd p /\ fst p <= m + 2 * fst q <= S (fst p)) l l'.

(** A list as it is written: an item of a level in a line, with two spaces for each level *)
Definition written_item (p : nat * str) : str := repeat 32%N (2 * fst p) ++ lit "- " ++ snd p.
Definition written_list (l : list (nat * str)) : str := join [10%N] (map written_item l).
(** The text of an item in a line: without white space around it *)
Definition item_text (t : str) : Prop := ~ In 10%N t /\ strip t = t.

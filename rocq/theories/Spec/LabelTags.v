(** What headings and captions show with the default formats. *)
From Coq Require Import List Bool Arith NArith.
From Verif.Base Require Import Str.
From Verif.Model Require Import Labels.
From Verif.Spec Require Import Labels.
Import ListNotations.

(** The number of a label: that of its most specific kind *)
Definition own_number (l : label) (n : nat) : Prop := exists o, l_order l = Some (o ++ [n]).

(** The numbers of the headings around the last label of [upto], the label itself included, from part to subsubsection,
    with dots between them; numbers that are 0 are left out *)
Definition numbers (upto : list label) (x : str) : Prop :=
  exists num : level -> option nat,
    (forall v, match num v with
               | Some n => heading_number upto v n
               | None => forall h, ~ encloses upto v h
               end) /\
    x = join (lit ".") (map str_of_nat (filter (fun n => negb (Nat.eqb n 0))
                         (flat_map (fun v => match num v with Some n => [n] | None => [] end) levels))).

(** The text of a heading of a class with the title [t]; [upto] are the headings and captions of the project up to
    this one *)
Inductive heading_shown (upto : list label) (l : label) (t : str) : str -> str -> Prop :=
| shown_title : heading_shown upto l t (lit "title") t
| shown_part n : own_number l n -> heading_shown upto l t (lit "part") (lit "Part " ++ str_of_nat n ++ lit ". " ++ t)
| shown_chapter n : own_number l n -> heading_shown upto l t (lit "chapter") (lit "Chapter " ++ str_of_nat n ++ lit ". " ++ t)
| shown_lower cls x : In cls [lit "section"; lit "subsection"; lit "subsubsection"] -> numbers upto x ->
    heading_shown upto l t cls (x ++ lit ". " ++ t).

(** The kinds of captions and their names *)
Definition caption_names : list (str * str) := [(lit "figure", lit "Fig. "); (lit "table", lit "Table ")].

(** The text of a reference to a heading *)
Inductive ref_shown (l : label) (t : str) : str -> str -> Prop :=
| ref_part n : own_number l n -> ref_shown l t (lit "part") (lit "Part " ++ str_of_nat n ++ lit ". " ++ t)
| ref_chapter n : own_number l n -> ref_shown l t (lit "chapter") (lit "Chapter " ++ str_of_nat n ++ lit ". " ++ t)
| ref_title cls : In cls [lit "title"; lit "section"; lit "subsection"; lit "subsubsection"] -> ref_shown l t cls t.

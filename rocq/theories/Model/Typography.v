(** Model of /repo/src/disseminate/tags/receivers/typography.py *)
From Coq Require Import List Bool Arith NArith.
From Verif.Base Require Import Str PyText.
Import ListNotations.

(** typography.py:15-16: spaces around dashes *)
Definition gap (c : char) : bool := rx_space c || N.eqb c 160.
(** typography.py:15-16 at a position, with the hyphens [d] or the dash [u]: the rest after a match.
    Neither a hyphen nor a dash is a space, so the repetitions do not go back. *)
Definition dash_at (d : str) (u : char) (x : str) : option str :=
  let y := lstrip_p gap x in
  match eat d y with
  | Some r => Some (lstrip_p gap r)
  | None => match y with c :: r => if N.eqb c u then Some (lstrip_p gap r) else None | nil => None end
  end.
(** [re.sub] *)
Fixpoint sub_from (d : str) (u : char) (fuel : nat) (x : str) : str :=
  match fuel with
  | O => nil
  | S fuel =>
      match dash_at d u x with
      | Some r => u :: sub_from d u fuel r
      | None => match x with nil => nil | c :: r => c :: sub_from d u fuel r end
      end
  end.
Definition sub_dash (d : str) (u : char) (x : str) : str := sub_from d u (S (length x)) x.
Definition em_dash : char := 8212%N.
Definition en_dash : char := 8211%N.
Definition dashes (x : str) : str := sub_dash (lit "--") en_dash (sub_dash (lit "---") em_dash x).

Section Quotes.
Context (uw : char -> bool).
(** typography.py:17-21: a character is replaced depending on its neighbours (of the text before the substitution) *)
Fixpoint neighbours (f : option char -> char -> option char -> char) (p : option char) (x : str) : str :=
  match x with nil => nil | c :: r => f p c (hd_error r) :: neighbours f (Some c) r end.
Definition word (o : option char) : bool := match o with Some c => is_word uw c | None => false end.
Definition visible (o : option char) : bool := match o with Some c => negb (rx_space c) | None => false end.
Definition apostrophe p c n : char := if N.eqb c 39 && word p && word n then 8217%N else c.
Definition single_start p c n : char := if N.eqb c 39 && negb (word p) && visible n then 8216%N else c.
Definition single_end p c n : char := if N.eqb c 39 && visible p && negb (word n) then 8217%N else c.
Definition double_start p c n : char := if N.eqb c 34 && negb (word p) && visible n then 8220%N else c.
Definition double_end p c n : char := if N.eqb c 34 && visible p && negb (word n) then 8221%N else c.
Definition quotes (x : str) : str :=
  let x := neighbours apostrophe None x in
  let x := neighbours single_start None x in
  let x := neighbours single_end None x in
  let x := neighbours double_start None x in
  neighbours double_end None x.
(** typography.py:44-53 *)
Definition typography (x : str) : str := quotes (dashes x).

(** typography.py:24-70 [process_tag_typography]: texts, lists, tags with their
    attribute process_typography, and other objects *)
Inductive content :=
| CText (s : str)
| CList (l : list content)
| CTag (processed : bool) (c : content)
| COther.
Fixpoint process (c : content) : content :=
  match c with
  | CText s => CText (typography s)
  | CList l => CList (map process l)
  | CTag true c => CTag true (process c)
  | CTag false c => CTag false c
  | COther => COther
  end.
End Quotes.

(** Typographic dashes and quotes *)
From Coq Require Import List Bool Arith NArith.
From Verif.Base Require Import Str.
From Verif.Model Require Import Typography.
Import ListNotations.

(** White space, including the space that does not break lines *)
Definition space_char (c : char) : Prop := rx_space c = true \/ c = 160%N.
(** A dash as it may be typed, and the one meant *)
Inductive typed_dash : str -> char -> Prop :=
| typed_em : typed_dash (lit "---") 8212%N
| typed_em_char : typed_dash [8212%N] 8212%N
| typed_en : typed_dash (lit "--") 8211%N
| typed_en_char : typed_dash [8211%N] 8211%N.
(** Text between dashes *)
Definition plain (w : str) : Prop :=
  contains w (lit "--") = false /\ ~ In 8211%N w /\ ~ In 8212%N w.
Definition outer (c : char) : Prop := ~ space_char c /\ ~ In c [45; 8211; 8212]%N.
Definition starts_outer (w : str) : Prop := w = [] \/ exists c r, w = c :: r /\ outer c.
Definition ends_outer (w : str) : Prop := w = [] \/ exists c r, w = r ++ [c] /\ outer c.
(** Text with dashes between texts, as typed and as set: without the spaces around dashes *)
Inductive with_dashes : str -> str -> Prop :=
| wd_end w : plain w -> with_dashes w w
| wd_dash w s1 d s2 x u y : plain w -> ends_outer w -> (forall c, In c (s1 ++ s2) -> space_char c) -> typed_dash d u ->
    with_dashes x y -> starts_outer x -> with_dashes (w ++ s1 ++ d ++ s2 ++ x) (w ++ u :: y).

(** Quotes, from the character before and the one after *)
Section Quotes.
Context (uw : char -> bool).
Definition a_word (o : option char) : Prop := exists c, o = Some c /\ is_word uw c = true.
Definition a_mark (o : option char) : Prop := exists c, o = Some c /\ rx_space c = false.
Inductive becomes (p : option char) : char -> option char -> char -> Prop :=
| b_other c n : c <> 39%N -> c <> 34%N -> becomes p c n c
| b_apostrophe n : a_word p -> a_word n -> becomes p 39%N n 8217%N
| b_single_open n : ~ a_word p -> a_mark n -> becomes p 39%N n 8216%N
| b_single_close n : a_mark p -> ~ a_word n -> ~ (~ a_word p /\ a_mark n) -> becomes p 39%N n 8217%N
| b_single_alone n : ~ a_mark p -> ~ a_mark n -> becomes p 39%N n 39%N
| b_double_open n : ~ a_word p -> a_mark n -> becomes p 34%N n 8220%N
| b_double_close n : a_mark p -> ~ a_word n -> ~ (~ a_word p /\ a_mark n) -> becomes p 34%N n 8221%N
| b_double_alone n : ~ a_mark p -> ~ a_mark n -> becomes p 34%N n 34%N
| b_double_inside n : a_word p -> a_word n -> becomes p 34%N n 34%N.
End Quotes.
Definition char_before (x : str) (i : nat) : option char := match i with O => None | S j => nth_error x j end.

(** The typographic characters are no letters. *)
Definition marks_are_no_words (uw : char -> bool) : Prop := forall c, In c [8211; 8212; 8216; 8217; 8220; 8221]%N -> uw c = false.

(** The same tags with other texts *)
Fixpoint texts (c : content) : list str :=
  match c with
  | CText s => [s]
  | CList l => flat_map texts l
  | CTag true c => texts c
  | CTag false _ | COther => []
  end.
Fixpoint shape (c : content) : content :=
  match c with
  | CText _ => CText []
  | CList l => CList (map shape l)
  | CTag true c => CTag true (shape c)
  | CTag false c => CTag false c
  | COther => COther
  end.

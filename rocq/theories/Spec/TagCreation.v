(** What a text becomes when tags are made from it. *)
From Coq Require Import List Bool Arith NArith.
From Verif.Base Require Import Str.
From Verif.Model Require Import Typography TagParser.
From Verif.Spec Require Import Paragraphs.
Import ListNotations.

(** Letters: all characters but white space, and the dashes and quotes that
    typography sets. *)
Definition letter (c : char) : bool :=
  negb (is_space c) && negb (rx_space c) && negb (N.eqb c 160) &&
  negb (mem c [45; 8211; 8212; 39; 34; 8216; 8217; 8220; 8221]%N).

(** A document as a sequence of characters and of beginnings and ends of tags.
    Paragraphs that the author did not write are left out.  The text directly in
    a tag without typography counts with all its characters, other text with its
    letters. *)
Inductive event := Begin (name : str) (attrs : option str) | End | Char (c : char).
Definition added (name : str) (attrs : option str) : bool :=
  eqb name (lit "p") && match attrs with Some nil => true | _ => false end.
Fixpoint events (typo : str -> bool) (exact : bool) (c : TagParser.content) : list event :=
  match c with
  | Text s => map Char (if exact then s else filter letter s)
  | Items l => concat (map (events typo exact) l)
  | Tag n a c' =>
      if added n a then events typo false c'
      else Begin n a :: events typo (negb (typo n)) c' ++ [End]
  end.

(** The content with all its typography set, where tags want it ([wanted]: the
    tag around it wants it). *)
Fixpoint typeset (uw : char -> bool) (typo : str -> bool) (wanted : bool) (c : TagParser.content) : TagParser.content :=
  match c with
  | Text s => Text (if wanted then typography uw s else s)
  | Items l => Items (map (typeset uw typo wanted) l)
  | Tag n a c' => Tag n a (typeset uw typo (typo n) c')
  end.

(** The names of the tags in a content. *)
Fixpoint names (c : TagParser.content) : list str :=
  match c with
  | Text _ => nil
  | Items l => concat (map names l)
  | Tag n _ c' => n :: names c'
  end.

(** Paragraphs are not verbatim, have typography, stand by themselves and have
    no paragraphs in them; a tag with paragraphs has typography. *)
Definition usual_paragraphs (verbatim typo include pars : str -> bool) : Prop :=
  verbatim (lit "p") = false /\ typo (lit "p") = true /\ include (lit "p") = false /\ pars (lit "p") = false /\
  forall n, pars n = true -> typo n = true /\ verbatim n = false.

(** ** Paragraphs *)
(** The items of a content, and a content as a sequence of characters and tags. *)
Definition elems (c : TagParser.content) : list TagParser.content := match c with Items l => l | _ => [c] end.
Inductive piece := PChar (c : char) | PTag (t : TagParser.content).
Definition pieces_of (l : list TagParser.content) : list piece :=
  concat (map (fun i => match i with Text s => map PChar s | _ => [PTag i] end) l).
(** What a paragraph may hold: text without breaks, and tags that may be in paragraphs. *)
Definition in_paragraph (include : str -> bool) (i : TagParser.content) : Prop :=
  match i with Text s => ~ has_break s | Tag n _ _ => include n = true | Items _ => False end.
(** [arranged include after_par e l]: the characters and tags [e] are the paragraphs and the tags
    outside of paragraphs of [l], in order, with only white space left out around them; two
    successive paragraphs have a break between them ([after_par]: a paragraph came before). *)
Inductive arranged (include : str -> bool) : bool -> list piece -> list TagParser.content -> Prop :=
| ar_end b w : blank w -> arranged include b (map PChar w) nil
| ar_par b w p e l :
    blank w -> (b = true -> has_break w) ->
    Forall (in_paragraph include) (elems p) -> ~ (exists t, pieces_of (elems p) = map PChar t /\ blank t) ->
    arranged include true e l ->
    arranged include b (map PChar w ++ pieces_of (elems p) ++ e) (Tag (lit "p") (Some nil) p :: l)
| ar_solo b w n a c e l :
    blank w -> include n = false -> arranged include false e l ->
    arranged include b (map PChar w ++ PTag (Tag n a c) :: e) (Tag n a c :: l).
(** The same items with the typography set: the same tags, whose contents may be set too. *)
Inductive set_item (uw : char -> bool) : TagParser.content -> TagParser.content -> Prop :=
| si_text s : set_item uw (Text s) (Text (typography uw s))
| si_tag n a c c' : set_item uw (Tag n a c) (Tag n a c').

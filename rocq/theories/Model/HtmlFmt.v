(** Model of the rendering of tags in html and xhtml: /repo/src/disseminate/tags/tag.py, text.py, featurebox.py,
    notes.py, figs.py and headings.py *)
From Coq Require Import List Bool Arith NArith ZArith.
From Verif.Base Require Import Str Dict Result PyText.
From Verif.Model Require Import Attributes Formats TagParser Width TexFmt.
Import ListNotations.

(** The elements of lxml: a text, an entity, and an element with its attributes and what is in it.  The
    serialization (etree.tostring) is not modelled. *)
Inductive node :=
| NText (s : str)
| NEntity (s : str)
| NElem (name : str) (attributes : attrs) (kids : list node).

Section Html.
Variables (lower : str -> str) (uw : char -> bool) (pv : str -> ptype).
(** The entry inactive_tags of the context *)
Variable inactive : list str.
(** [float(x)] and the multiplication of floats, see Model/Width.v *)
Variables (to_float : str -> option num) (times100 : num -> num).
(** The characters of xml, and the names of entities (lxml raises a ValueError for others) *)
Variables (xml_char : char -> bool) (entity_name : str -> bool).
(** html.entities.name2codepoint *)
Variable name2codepoint : str -> option N.
(** The rendering of tags of classes that are not modelled here (captions, images, references, tables, ...) *)
Variable other : bool -> content -> result node.

Let class_of := class_of lower inactive.

(** xhtml.py:115-165: an element of this name with these attributes and this content, without empty texts.  The order
    of the checks of lxml is not modelled. *)
Definition not_empty (n : node) : bool := match n with NText nil => false | _ => true end.
Definition text_ok (n : node) : bool := match n with NText s => forallb xml_char s | _ => true end.
Definition value_ok (e : str * aval) : bool := match snd e with VStr x => forallb xml_char x | _ => true end.
Definition element (name : str) (d : attrs) (kids : list node) : result node :=
  do r <- xhtml_tag xhtml_tag_arguments xhtml_tag_optionals name d None ;
  let '(n, e) := r in
  let kids := filter not_empty kids in
  if forallb text_ok kids && forallb value_ok e then Ok (NElem n e kids) else Raise ValueError.
(** xhtml.py:180-224 [xhtml_entity] *)
Definition entity (x : str) : result node := let x := strip x in if entity_name x then Ok (NEntity x) else Raise ValueError.

(** The attribute html_name of classes: text.py:20, 92, 113, 129, 159, 305, featurebox.py:23, notes.py:12, figs.py:21, 97,
    headings.py:128-180.  A class without it has the name of the tag. *)
Definition html_name : dict str str :=
  [(lit "body", lit "div"); (lit "bold", lit "strong"); (lit "italics", lit "i"); (lit "sup", lit "sup"); (lit "sub", lit "sub");
   (lit "verb", lit "code"); (lit "featurebox", lit "div"); (lit "examplebox", lit "div"); (lit "problembox", lit "div");
   (lit "sidenote", lit "sidenote"); (lit "marginfigure", lit "figure"); (lit "figure", lit "figure");
   (lit "fullfigure", lit "figure"); (lit "panel", lit "panel"); (lit "para", lit "paragraph-heading")].
Definition html_heading : dict str str :=
  [(lit "title", lit "h1"); (lit "part", lit "h1"); (lit "chapter", lit "h2"); (lit "section", lit "h3");
   (lit "subsection", lit "h4"); (lit "subsubsection", lit "h5")].
(** featurebox.py:24, 43, 50 *)
Definition box_class : dict str str :=
  [(lit "featurebox", lit "featurebox"); (lit "examplebox", lit "featurebox examplebox"); (lit "problembox", lit "featurebox problembox")].
(** figs.py:64, 79, 88 *)
Definition figure_class : dict str str :=
  [(lit "marginfigure", lit "marginfig"); (lit "figure", lit "figure"); (lit "fullfigure", lit "fullfigure")].
(** text.py:22-25, 38-45 (body); featurebox.py:30-37 (boxes); figs.py:48-57, 68-72 (figures, in which a class of the
    author is replaced); figs.py:111-118 (panels).  [xh]: the target is xhtml.  The attributes of the other classes are
    not changed: those of text.py:307-312 for verbatim tags are not used. *)
Definition html_attributes (xh : bool) (k : str) (d : attrs) : result attrs :=
  let class_is (x : str) (d : attrs) := set (lit "class") (VStr x) d in
  if eqb k (lit "body") then do d <- copy d ; Ok (class_is (lit "body") d)
  else if eqb k (lit "panel") then
    do d <- copy d ;
    xhtml_percentwidth to_float times100 (class_is (lit "panel") d) (Some (if xh then lit ".xhtml" else lit ".html"))
  else match lookup k box_class, lookup k figure_class with
  | Some b, _ => do d <- copy d ;
                 match lookup (lit "class") d with
                 | Some (VStr x) => Ok (class_is (x ++ lit " " ++ b) d)
                 | Some _ => Raise TypeError
                 | None => Ok (class_is b d)
                 end
  | None, Some f => do d <- copy d ;
                    let d := if xh && eqb k (lit "marginfigure") then set epub_type (VStr (lit "footnote")) d else d in
                    Ok (class_is (if has (lit "class") d then lit " " ++ f else f) d)
  | None, None => Ok d
  end.
(** figs.py:31-36: the attribute id is removed from a figure with captions (tag.py:161-203 [flatten]: those in a list
    in a list are not found) *)
Fixpoint has_caption (c : content) : bool :=
  match c with
  | Text _ => false
  | Tag n _ c => match class_of n with Some k => eqb k (lit "caption") | None => false end || has_caption c
  | Items l => existsb (fun x => match x with Items _ => false | _ => has_caption x end) l
  end.
Definition own_attributes (k : str) (c : content) (d : attrs) : attrs :=
  if has k figure_class && has_caption c then remove (lit "id") d else d.
(** headings.py:36-50: a heading without a label, whose text is not from the context *)
Definition no_label (c : content) (d : attrs) : bool :=
  has (lit "nolabel") d && match c with Text s => negb (eqb (strip s) nil) | _ => true end.

(** tag.py:289-342 [html_fmt] and [xhtml_fmt] and the methods of subclasses, with format_content (utils.py:38-57) for
    the content: a list in a list is not an element. *)
Fixpoint html_fmt (xh : bool) (t : content) : result node :=
  match t with
  | Text s => Ok (NText s)
  | Items _ => Raise TypeError
  | Tag name a c =>
      let d := attributes_of uw pv a in
      let kids := match c with
                  | Items l => (fix go (l : list content) : result (list node) :=
                                  match l with
                                  | nil => Ok nil
                                  | x :: r => do n <- html_fmt xh x ; do ns <- go r ; Ok (n :: ns)
                                  end) l
                  | _ => do n <- html_fmt xh c ; Ok [n]
                  end in
      match class_of name with
      | None => do ns <- kids ; element (lower name) d ns
      | Some k =>
          if eqb k (lit "p") then do ns <- kids ; element (lower name) d ns
          else if eqb k (lit "symbol") then   (* text.py:262-275 *)
            match c with
            | Text s => let s := if xh then strip s else s in
                        entity (if xh then match name2codepoint s with Some n => lit "#" ++ str_of_N n | None => s end else s)
            | _ => Raise (if xh then AttributeError else OtherError)
            end
          else if eqb k (lit "supsub") then   (* text.py:195-223 *)
            match c with
            | Text s => match split_s (lit "&&") s with
                        | [x; y] => do d <- copy d ;
                                    do br <- element (lit "br") nil nil ;
                                    element (lit "span") (set (lit "class") (VStr (lit "supsub")) d)
                                      [NText (strip x); br; NText (strip y)]
                        | _ => Raise TagError
                        end
            | _ => Raise TagError
            end
          else match lookup k html_name with
               | Some n => do d <- html_attributes xh k (own_attributes k c d) ; do ns <- kids ; element n d ns
               | None =>
                   match lookup k html_heading with
                   | Some n => if no_label c d then do ns <- kids ; element n d ns else other xh t
                   | None => other xh t
                   end
               end
      end
  end.
End Html.

(** Model of what labelled headings and captions show: /repo/src/disseminate/tags/label.py, headings.py and caption.py,
    and [format_string] of /repo/src/disseminate/label_manager/label_manager.py *)
From Coq Require Import List Bool Arith NArith.
From Verif.Base Require Import Str Dict Result.
From Verif.Model Require Import DictUtils Macros Labels Attributes Formats Typography TagParser Width TexFmt HtmlFmt TagTree AutoLabels.
Import ListNotations.

(** label.py:96-100 [create_label]: the title of the label of a tag with the attribute short or with the text [text]
    of its content *)
Definition label_title (short : option str) (text : str) : str :=
  match short with Some s => s | None => titlelize text end.

(** settings.py:124-144: the entries of label_fmts, without those of citations *)
Definition default_fmts : dict str str :=
  [(lit "document", lit "@label.title"); (lit "ref_document", lit "@label.title");
   (lit "caption_figure", lit "@b{Fig. @label.number}. "); (lit "caption_table", lit "@b{Table @label.number}. ");
   (lit "ref_caption_figure", lit "@b{Fig. @label.number}"); (lit "ref_caption_table", lit "@b{Table @label.number}");
   (lit "heading", lit "@label.tree_number. @label.title"); (lit "heading_title", lit "@label.title");
   (lit "heading_part", lit "Part @label.part_number. @label.title");
   (lit "heading_chapter", lit "Chapter @label.chapter_number. @label.title");
   (lit "ref_heading", lit "@label.title"); (lit "ref_heading_part", lit "Part @label.part_number. @label.title");
   (lit "ref_heading_chapter", lit "Chapter @label.chapter_number. @label.title")].

(** The objects that macros lead to: None, labels, texts, numbers and others *)
Inductive lobj := ONone | OLabel (l : label) | OText (s : str) | ONum (n : nat) | OOther (n : nat).
Definition is_none (o : lobj) : bool := match o with ONone => true | _ => false end.

Section LabelTags.
Variables (lower : str -> str) (uw : char -> bool) (pv : str -> ptype) (inactive : list str).
(** The names of tags whose class has process_content = False, and of those with process_typography = False *)
Variables (verbatim untouched : str -> bool).
Variables (to_float : str -> option num) (times100 : num -> num) (xml_char : char -> bool) (entity_name : str -> bool)
          (name2codepoint : str -> option N) (block : content -> bool).
(** Tags of other classes, see Model/TexFmt.v and Model/HtmlFmt.v *)
Variables (other_tex : bool -> content -> result str) (other_html : bool -> content -> result node).
(** The titles of labels; the other attributes of objects, and their texts *)
Variables (title : label -> str) (misc : lobj -> str -> option lobj) (repr : lobj -> str).
(** The bound on the rounds of replace_macros (Model/Macros.v) *)
Variable rounds : nat.
(** The entry label_fmts of the context of the root document, and the other entries of the context of the tag *)
Variables (fmts : dict str str) (context : dict str lobj).
Variables (e : Labels.env) (m : manager).

(** The labels as they are when a label was asked for *)
Definition labels_now : labels := m_labels (register e m).
(** content_label.py:5-11 *)
Definition number_of (u : option nat) : lobj :=
  match label_number (deref labels_now u) with Some n => ONum n | None => OText nil end.
(** content_label.py:53-119 and label.py:89-94: the attributes of labels.  Labels of documents have no links, so
    that their other attributes are left to [misc]. *)
Definition attr (o : lobj) (name : str) : option lobj :=
  match o with
  | OLabel l =>
      let k := l_links l in
      if eqb name (lit "id") then Some (OText (l_id l))
      else if eqb name (lit "doc_id") then Some (OText (l_doc l))
      else if eqb name (lit "title") then Some (OText (title l))
      else if eqb name (lit "number") then Some (match label_number (Some l) with Some n => ONum n | None => ONone end)
      else if negb (l_content l) then misc o name
      else if eqb name (lit "part_number") then Some (number_of (part_link k))
      else if eqb name (lit "chapter_number") then Some (number_of (chapter_link k))
      else if eqb name (lit "section_number") then Some (number_of (section_link k))
      else if eqb name (lit "subsection_number") then Some (number_of (subsection_link k))
      else if eqb name (lit "subsubsection_number") then Some (number_of (subsubsection_link k))
      else if eqb name (lit "tree_number") then Some (OText (tree_number labels_now l))
      else misc o name
  | _ => misc o name
  end.
Definition show (o : lobj) : str :=
  match o with OText s => s | ONum n => str_of_nat n | _ => repr o end.

Definition replace (s : str) (d : dict str lobj) : result str :=
  match replace_macros uw is_none ONone attr show rounds s [d] with Some r => Ok r | None => Raise RecursionError end.

(** label_manager.py:335-367 [format_string].  [keys]: the keys for a label, None for those of its kind.  [target] is
    without the period. *)
Definition format_string (id : str) (keys : option (label -> list str)) (target : option str) : result str :=
  do l <- fst (get_label e (e_sep e) id m) ;
  do ks <- match keys with
           | Some f => Ok (f l)
           | None => match l_kind l with Some ks => Ok ks | None => Raise TypeError end
           end ;
  do f <- find_entry ks target (lit "_") [fmts] ;
  replace f [(lit "@label", OLabel l)].

(** typography.py:9-70 on parsed content *)
Fixpoint typo (c : content) : content :=
  match c with
  | Text s => Text (typography uw s)
  | Items l => Items (map typo l)
  | Tag n a c' => if untouched n then c else Tag n a (typo c')
  end.
(** The content of a tag made from the text [x] (label.py:267, 283, 309): the receivers for macros (macros.py:8-22),
    for content and for typography in this order.  Simplification: macros are replaced in the whole text, and not
    again in the texts of the tags in it. *)
Definition made (x : str) : result content :=
  do y <- replace x context ;
  do c <- process_content uw verbatim (Text y) ;
  Ok (typo c).

Let tex_fmt := TexFmt.tex_fmt lower uw pv inactive block other_tex.
Let html_fmt := HtmlFmt.html_fmt lower uw pv inactive to_float times100 xml_char entity_name name2codepoint other_html.
(** utils.py:12-35 [content_to_str] without a target, for tags of classes that have no default_fmt of their own *)
Definition plain_text (c : content) : result str :=
  do o <- default_fmt (of_content c) ; match o with OStr s => Ok s | _ => Raise TypeError end.
(** utils.py:38-57 [format_content] for html *)
Definition nodes (xh : bool) (c : content) : result (list node) :=
  match c with Items l => map_r (html_fmt xh) l | _ => do n <- html_fmt xh c ; Ok [n] end.

(** label.py:259-270 [LabelTag.default_fmt], 272-290 [tex_fmt] and 292-320 [html_fmt] of the label tag with the
    content [id] (label.py:244).  The attributes of the element are class only: label.py:175 asks for the attribute
    id, with the target 'class' and the separator 'short', and label.py:256-257 removes the id. *)
Definition label_default (id : str) : result str :=
  do f <- format_string (strip id) None None ; do c <- made f ; plain_text c.
Definition label_tex (math : bool) (id : str) : result str :=
  do f <- format_string (strip id) None (Some (lit "tex")) ; do c <- made f ; tex_fmt math c.
Definition label_html (xh : bool) (id : str) : result node :=
  do f <- format_string (strip id) None (Some (lit "html")) ; do c <- made f ; do ns <- nodes xh c ;
  element xml_char (lit "span") [(lit "class", VStr (lit "label"))] ns.

(** label.py:185-199 and tag.py:244-280: the anchor in tex, whose content is processed like any content *)
Definition anchor_tex (math : bool) (id : str) : result str :=
  do c <- made id ; do x <- tex_fmt math c ; cmd (lit "label") [(lit "id", VStr id)] x.

(** headings.py:72-82 [default_fmt] *)
Definition heading_default (id : str) : result str := label_default id.
(** [str(number - 1)] *)
Definition pred_text (n : nat) : str := match n with O => lit "-1" | S k => str_of_nat k end.
(** headings.py:85-115 [tex_fmt] of a heading of the class [cls] with a label, the attributes [d] and the id [id] *)
Definition heading_tex (math : bool) (cls : str) (d : attrs) (id : str) : result str :=
  do x <- label_tex math id ;
  do y <- cmd cls d x ;
  do l <- fst (get_label e (e_sep e) id m) ;
  match label_number (Some l) with
  | None => Raise TypeError
  | Some n =>
      do s <- tex_cmd tex_cmd_arguments tex_cmd_optionals (lit "setcounter")
                (load uw pv nil (cls ++ lit " " ++ pred_text n)) None None ;
      do a <- anchor_tex math id ;
      Ok (s ++ [10%N] ++ y ++ lit " " ++ a)
  end.
(** headings.py:117-128 and tag.py:289-325 [html_fmt] of such a heading *)
Definition heading_html (xh : bool) (cls : str) (d : attrs) (id : str) : result node :=
  match lookup cls html_heading with
  | Some n => do x <- label_html xh id ; element xml_char n d [x]
  | None => Raise OtherError
  end.

(** caption.py:71-79 [default_fmt], 81-100 [tex_fmt] and 102-114 [html_fmt] of a caption with a label ([id], None for
    a caption outside of figures), the attributes [d] and the content [c] *)
Definition caption_default (id : option str) (c : content) : result str :=
  do x <- match id with Some i => label_default i | None => Ok nil end ;
  do y <- plain_text c ; Ok (x ++ y).
Definition caption_tex (math : bool) (id : option str) (d : attrs) (c : content) : result str :=
  do x <- match id with Some i => label_tex math i | None => Ok nil end ;
  do y <- tex_fmt math c ;
  do z <- cmd (lit "caption") d (x ++ y) ;
  match id with
  | Some i => do a <- anchor_tex math i ; Ok (z ++ lit " " ++ a)
  | None => Ok z
  end.
Definition caption_html (xh : bool) (id : option str) (d : attrs) (c : content) : result node :=
  do x <- match id with Some i => do n <- label_html xh i ; Ok [n] | None => Ok nil end ;
  do ns <- nodes xh c ;
  element xml_char (lit "span") d (x ++ ns).

(** ref.py:274-288 and 345-360: the text of a reference in tex and html, as content *)
Definition ref_content (target id : str) : result content :=
  do l <- fst (get_label e (e_sep e) (strip id) m) ;
  match l_kind l with
  | None => Raise TypeError
  | Some ks => do f <- format_string (l_id l) (Some (fun _ => lit "ref" :: ks)) (Some target) ; made f
  end.
End LabelTags.

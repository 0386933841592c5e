(** Model of the renderings of tables of contents, /repo/src/disseminate/tags/toc.py, and of authors and title pages,
    /repo/src/disseminate/tags/preamble.py *)
From Coq Require Import List Bool Arith NArith.
From Verif.Base Require Import Str Dict Result PurePath.
From Verif.Model Require Import DictUtils Macros Paths Labels Ref Attributes Formats Typography TagParser Width TexFmt HtmlFmt TagTree AutoLabels LabelTags Links Toc XhtmlList Authors.
Import ListNotations.

Notation node := HtmlFmt.node.

Section TocFmt.
Variables (lower : str -> str) (uw : char -> bool) (pv : str -> ptype) (inactive : list str).
Variables (verbatim untouched : str -> bool).
Variables (to_float : str -> option num) (times100 : num -> num) (xml_char : char -> bool) (entity_name : str -> bool)
          (name2codepoint : str -> option N) (block : content -> bool).
Variables (other_tex : bool -> content -> result str) (other_html : bool -> content -> result node).
Variables (title : label -> str) (misc : lobj -> str -> option lobj) (repr : lobj -> str).
Variable rounds : nat.
Variables (fmts : dict str str) (context : dict str lobj).
Variables (cwd : list str) (e : Labels.env) (o : owner).

(** xhtml.py:83-86 with the attributes in a text *)
Definition element_with (name attributes : str) (kids : list node) : result node :=
  element xml_char name (load uw pv nil attributes) kids.

(** toc.py:39-46: an item is written as a text (level is 1) and read again as xml when it is put in a list
    (xhtml.py:129-131).  In html, elements like br are written without an end, and names of entities are not known to
    xml: XMLSyntaxError is an OtherError.  Simplifications: the white space of pretty_print and the replacement of
    numbered entities by their characters are left out. *)
Definition void_elements : list str := [lit "br"; lit "hr"; lit "img"; lit "link"].
Fixpoint readable (xh : bool) (n : node) : bool :=
  match n with
  | NText _ => true
  | NEntity s => startswith s (lit "#") || mem s [lit "amp"; lit "lt"; lit "gt"; lit "quot"; lit "apos"]
  | NElem name _ kids => (xh || negb (mem name void_elements)) && forallb (readable xh) kids
  end.
Definition reread (xh : bool) (n : node) : result node := if readable xh n then Ok n else Raise OtherError.

(** toc.py:36-46 [TocRef.html_fmt] with the label in the cache.  The default of setdefault (ref.py:340) is evaluated
    although it is not used.  The attributes [d] are those of the table; level is not an attribute of the element a. *)
Definition level_class (level : nat) : str := lit "class=" ++ 34%N :: lit "toc-level-" ++ str_of_nat level ++ [34%N].
Definition item_html (m : manager) (xh : bool) (d : attrs) (id : str) (level : nat) (cached : option label) : result node :=
  do _ <- ref_label e id m ;
  do a <- match cached with
          | Some l => ref_html_of lower uw pv inactive verbatim untouched to_float times100 xml_char entity_name
                        name2codepoint other_html title misc repr rounds fmts context cwd e o m xh d l
          | None => Ok (NText nil)
          end ;
  do li <- element_with (lit "li") (level_class level) [a] ;
  reread xh li.
(** xhtml.py:263-308 [xhtml_list]: the elements of Model/XhtmlList.v *)
Fixpoint list_node (n : XhtmlList.node node) : result node :=
  match n with
  | Item x => Ok x
  | Sub l => do kids <- map_r list_node l ;
             element_with (lit "ol") nil kids
  end.
(** toc.py:207-221: the items with their labels *)
Fixpoint items_html (m : manager) (xh : bool) (d : attrs) (tags : list (str * nat)) (cached : list (option label))
  : result (list (nat * node)) :=
  match tags, cached with
  | (id, level) :: tags, c :: cached =>
      do li <- item_html m xh d id level c ;
      do r <- items_html m xh d tags cached ;
      Ok ((level, li) :: r)
  | _, _ => Ok nil
  end.
(** toc.py:198-224 [html_fmt] of a table of contents with the words [ws] and the attributes [d] in the document [cur] *)
Definition toc_html (xh : bool) (ws : list str) (cur : option str) (d : attrs) (m : manager) : result node :=
  let '(r1, m1) := get_labels e ws cur m in
  do l1 <- r1 ;
  do tags <- reference_tags 1 l1 ;
  let '(r2, m2) := get_labels e ws cur m1 in
  do l2 <- r2 ;
  do items <- items_html m2 xh d tags (html_labels l2) ;
  do kids <- map_r list_node (xhtml_list items) ;
  element_with (lit "ol") (lit "class=" ++ 34%N :: lit "toc" ++ [34%N]) kids.

(** toc.py:28-34 [TocRef.tex_fmt] *)
Definition item_tex (m : manager) (id : str) (level : nat) : result str :=
  do x <- ref_tex lower uw pv inactive verbatim untouched block other_tex title misc repr rounds fmts context cwd e o m id ;
  Ok (repeat 167%N level ++ lit " " ++ x ++ [10%N]).
(** toc.py:192-196 [tex_fmt] and tag.py:240-283: the characters of the first line are put at the front one by one, and
    all is joined *)
Definition toc_tex (ws : list str) (cur : option str) (m : manager) : result str :=
  let '(r1, m1) := get_labels e ws cur m in
  do l1 <- r1 ;
  do tags <- reference_tags 1 l1 ;
  do xs <- map_r (fun t => item_tex m1 (fst t) (snd t)) tags ;
  tex_env tex_env_arguments tex_env_optionals (lit "easylist") (load uw pv nil (lit "booktoc"))
    (lit "\ListProperties(Hide=2)" ++ [10%N] ++ concat xs) false None.

(** preamble.py:59-62 [Authors.html_fmt].  A tag is not a content of an element: TypeError. *)
Definition authors_html (content : Authors.value) : result node :=
  do a <- author_string content ;
  match a with
  | IStr s => element_with (lit "span") (lit "class=authors") [NText s]
  | ITag => Raise TypeError
  end.
(** preamble.py:56-57 [Authors.tex_fmt] *)
Definition authors_tex (content : Authors.value) : result item := author_string content.
(** preamble.py:71-80 and 97-108 [Titlepage.__init__, html_fmt]: [title_node] is the rendering of the heading of class
    Title that is made without content (headings.py:36-40) *)
Definition titlepage_html (c : Authors.ctx) (title_node : result node) : result node :=
  do t <- title_node ;
  do a <- authors_html (authors_content c (Authors.VStr nil)) ;
  element_with (lit "div") (lit "class=title-page") [t; a].
(** preamble.py:110-112 *)
Definition titlepage_tex : str := 10%N :: lit "\maketitle" ++ [10%N; 10%N].
End TocFmt.

(** Model of the renderings of references, of links to the next and previous documents and of links to the other files
    of a document: /repo/src/disseminate/tags/ref.py and /repo/src/disseminate/tags/navigation.py *)
From Coq Require Import List Bool Arith NArith.
From Verif.Base Require Import Str Dict Result PurePath.
From Verif.Model Require Import DictUtils Macros Paths Labels Ref Attributes Formats Typography TagParser Width TexFmt HtmlFmt TagTree AutoLabels LabelTags.
Import ListNotations.

Section References.
Variables (lower : str -> str) (uw : char -> bool) (pv : str -> ptype) (inactive : list str).
Variables (verbatim untouched : str -> bool).
Variables (to_float : str -> option num) (times100 : num -> num) (xml_char : char -> bool) (entity_name : str -> bool)
          (name2codepoint : str -> option N) (block : content -> bool).
Variables (other_tex : bool -> content -> result str) (other_html : bool -> content -> result node).
Variables (title : label -> str) (misc : lobj -> str -> option lobj) (repr : lobj -> str).
Variable rounds : nat.
Variables (fmts : dict str str) (context : dict str lobj).
Variables (cwd : list str) (e : Labels.env) (o : owner) (m : manager).

(** ref.py:270-284 and 345-355: the text of a reference to the label [l], as content *)
Definition ref_text (target : str) (l : label) : result content :=
  match l_kind l with
  | None => Raise TypeError
  | Some ks => do f <- format_string uw title misc repr rounds fmts e m (l_id l) (Some (fun _ => lit "ref" :: ks)) (Some target) ;
               made uw verbatim untouched title misc repr rounds context e m f
  end.

(** ref.py:196-234 [default_fmt]: labels have no attribute kinds *)
Definition ref_default (content : str) : result str :=
  do _ <- ref_label e content m ; Raise AttributeError.

(** ref.py:285-303: the link in tex, with the attributes that are read from the url *)
Definition href_tex (u x : str) : result str :=
  match u with
  | nil => Ok x
  | _ => tex_cmd tex_cmd_arguments tex_cmd_optionals (lit "href") (load uw pv nil (u ++ lit ".tex")) (Some x) None
  end.
(** ref.py:236-305 [tex_fmt] of a reference to the label [l].  The math mode is not passed on. *)
Definition ref_tex_of (l : label) : result str :=
  do c <- ref_text (lit "tex") l ;
  do x <- tex_fmt lower uw pv inactive block other_tex false c ;
  do u <- url cwd o (lit ".pdf") (l_content l) l ;
  href_tex u x.
Definition ref_tex (content : str) : result str := do l <- ref_label e content m ; ref_tex_of l.

(** ref.py:307-373 [html_fmt] of a reference to the label [l] with the attributes [d]; [xh]: for xhtml *)
Definition method (xh : bool) : str := if xh then lit "xhtml" else lit "html".
Definition ref_html_of (xh : bool) (d : attrs) (l : label) : result node :=
  do c <- ref_text (lit "html") l ;
  do ns <- nodes lower uw pv inactive to_float times100 xml_char entity_name name2codepoint other_html xh c ;
  do d <- copy d ;
  do u <- url cwd o (method xh) (l_content l) l ;
  element xml_char (lit "a") (set (lit "href") (VStr u) (set (lit "class") (VStr (lit "ref")) d)) ns.
Definition ref_html (xh : bool) (d : attrs) (content : str) : result node :=
  do l <- ref_label e content m ; ref_html_of xh d l.

(** navigation.py:81-134 [Next] and 137-190 [Prev], which are the same for their entries: [next_tex] or [prev_tex] and
    [next_html] or [prev_html].  An entry is a weak reference to a label, None if the label is gone.  The rendering is
    a text or an element.  NotImplementedError is an OtherError. *)
Inductive shown := STxt (s : str) | SNode (n : node).
Definition step_default : result shown := Ok (STxt nil).
Definition step_html (entry : option (option label)) (d : attrs) : result shown :=
  match entry with
  | Some (Some l) => do n <- ref_html_of false d l ; Ok (SNode n)
  | _ => Ok (STxt nil)
  end.
Definition step_tex (entry : option (option label)) (d : attrs) : result shown := step_html entry d.
Definition step_xhtml : result shown := Raise OtherError.
End References.

(** ** Links to the other files of a document *)
(** markupsafe.escape *)
Definition escape_char (c : char) : str :=
  if N.eqb c 38 then lit "&amp;" else if N.eqb c 60 then lit "&lt;" else if N.eqb c 62 then lit "&gt;"
  else if N.eqb c 34 then lit "&#34;" else if N.eqb c 39 then lit "&#39;" else [c].
Definition escape (x : str) : str := flat_map escape_char x.

(** What the context of a tag has: its targets (document_context.py:190-237), the files of targets
    (document_context.py:239-269, None for TargetNotFound), and the entry src_filepath *)
Record files := { f_targets : list str; f_file : str -> option path; f_src : option path }.
(** navigation.py:260-301: the classes of the links, with the targets of the document or of the root document *)
Inductive other_link := Srclink | Txtlink | Texlink | Pdflink | Epublink.
(** navigation.py:206-214 [this_filepath] and 216-226 [other_filepath].  TargetNotFound is an OtherError. *)
Definition target_path_of (f : files) (t : str) : result (option path) :=
  if mem t (f_targets f) then match f_file f t with Some p => Ok (Some p) | None => Raise OtherError end else Ok None.
(** navigation.py:264-267 and 293-301 *)
Definition other_path (f : files) (root : option files) (k : other_link) : result (option path) :=
  match k with
  | Srclink => Ok (f_src f)
  | Txtlink => target_path_of f (lit ".txt")
  | Texlink => target_path_of f (lit ".tex")
  | Pdflink => target_path_of f (lit ".pdf")
  | Epublink => match root with Some r => target_path_of r (lit ".epub") | None => Ok None end
  end.
(** navigation.py:228-245 [other_relpath] and 250-254 [tex_fmt], [html_fmt] with the target [this] *)
Definition other_relpath (cwd : list str) (f : files) (root : option files) (k : other_link) (this : str) : result str :=
  do a <- target_path_of f this ;
  do b <- other_path f root k ;
  match a, b with
  | Some a, Some b => Ok (if eqb a b then nil else escape (relpath cwd b (path_parent a)))
  | _, _ => Ok nil
  end.

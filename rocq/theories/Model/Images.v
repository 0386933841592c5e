(** Model of the tags of images and of code: /repo/src/disseminate/tags/img.py, asy.py and code.py *)
From Coq Require Import List Bool Arith NArith ZArith.
From Verif.Base Require Import Str Dict Result PurePath PyText.
From Verif.Model Require Import Attributes Formats Width Paths HtmlFmt.
Import ListNotations.

(** What is asked of the signal add_file: the parameters (a file or a text, and the attributes), the extension and the
    target.  The context is not modelled. *)
Inductive param := PFile (x : xpath) | PText (s : str) | PAttr (a : str + str * aval).
Record build := mkbuild { b_parameters : list param; b_ext : option str; b_target : str }.

(** An image: its content, its attributes and the paths in [_outfilepaths] *)
Record img := mkimg { i_content : str; i_attributes : attrs; i_cache : dict str xpath }.

(** The state of the world at the time of a rendering: which paths are files, what the signal add_file returns
    (builders/target_builders/receivers.py:13-52) and the address of a path for a target (paths.py:179-196) *)
Record world := mkworld { is_file : path -> bool; emit : build -> result xpath; url : xpath -> str -> str }.

Section Img.
(** The entry 'paths' of the context; the attribute in_ext of the class (None for @img, asy.py:13 for @asy) *)
Variables (paths : list xpath) (class_ext : option str).
(** See Model/Width.v and Model/HtmlFmt.v *)
Variables (to_float : str -> option num) (times100 : num -> num) (xml_char : char -> bool).
Variable w : world.

(** img.py:55-85 [content_as_filepath] for a text *)
Definition content_as_filepath (s : str) : option xpath :=
  match find_files (is_file w) s paths with x :: _ => Some x | nil => None end.
(** img.py:130-143: the build for a content and attributes *)
Definition ext_of (x : xpath) : str := path_suffix (full x).
Definition build_of (target content : str) (a : attrs) : result build :=
  do f <- filter_attrs a None (Some target) false true ;
  let rest := map PAttr (totuple f) in
  Ok (match content_as_filepath content with
      | Some x => mkbuild (PFile x :: rest) (Some (ext_of x)) target
      | None => mkbuild (PText content :: rest) class_ext target
      end).
(** img.py:87-155 [add_file]: the image, the builds that were asked for and the path.  The arguments are those that are
    given by a subclass: an empty text or empty attributes are replaced by those of the tag. *)
Definition or_own {A} (empty : A -> bool) (o : option A) (own : A) : A :=
  match o with Some x => if empty x then own else x | None => own end.
Definition is_nil {A} (l : list A) : bool := match l with nil => true | _ => false end.
Definition add_file (i : img) (target : str) (content : option str) (a : option attrs) : img * list build * result xpath :=
  let can_cache := match content, a with None, None => true | _, _ => false end in
  match (if can_cache then lookup target (i_cache i) else None) with
  | Some x => (i, nil, Ok x)
  | None =>
      match build_of target (or_own is_nil content (i_content i)) (or_own is_nil a (i_attributes i)) with
      | Raise e => (i, nil, Raise e)
      | Ok b =>
          match emit w b with
          | Raise e => (i, [b], Raise e)
          | Ok x => (if can_cache then mkimg (i_content i) (i_attributes i) (set target x (i_cache i)) else i, [b], Ok x)
          end
      end
  end.
(** img.py:158-184 [tex_fmt], for a path: the argument of the command *)
Definition ascii (s : str) : bool := forallb (fun c => N.ltb c 128) s.
Definition tex_argument (x : xpath) : result str :=
  do b <- with_suffix (full x) nil ;
  do base <- (if ascii (path_str (full x)) then Ok (path_str b)
              else tex_cmd tex_cmd_arguments tex_cmd_optionals (lit "detokenize") nil (Some (path_str b)) None) ;
  Ok (lit "{" ++ base ++ lit "}" ++ path_suffix (full x)).
Definition own_or_copy (i : img) (a : option attrs) : result attrs :=
  match a with Some (x :: r) => Ok (x :: r) | _ => copy (i_attributes i) end.
Definition tex_fmt (i : img) (content : option str) (a : option attrs) : img * list build * result str :=
  let '(i', bs, o) := add_file i (lit ".tex") content a in
  (i', bs,
   do x <- o ;
   do d <- own_or_copy i a ;
   do d <- tex_percentwidth to_float times100 d (Some (lit ".tex")) false ;
   do c <- tex_argument x ;
   tex_cmd tex_cmd_arguments tex_cmd_optionals (lit "includegraphics") d (Some c) None).
(** img.py:186-201 [html_fmt] and tag.py:289-342; [xh]: the target is xhtml *)
Definition html_target (xh : bool) : str := if xh then lit ".xhtml" else lit ".html".
Definition html_fmt (xh : bool) (i : img) (content : option str) (a : option attrs) : img * list build * result node :=
  let '(i', bs, o) := add_file i (html_target xh) content a in
  (i', bs,
   do x <- o ;
   do d <- own_or_copy i a ;
   do d <- xhtml_percentwidth to_float times100 d (Some (html_target xh)) ;
   element xml_char (lit "img") (set (lit "src") (VStr (url w x (html_target xh))) d) [NText nil]).
End Img.

(** A sequence of renderings of an image as parts of a document, each at its own time *)
Inductive kind := AsTex | AsHtml (xh : bool).
Definition kind_target (k : kind) : str := match k with AsTex => lit ".tex" | AsHtml xh => html_target xh end.
Inductive rendering := Tex (s : str) | Html (n : node).
Section Run.
Variables (paths : list xpath) (class_ext : option str) (to_float : str -> option num) (times100 : num -> num) (xml_char : char -> bool).
Definition render (i : img) (e : world * kind) : img * list build * result rendering :=
  match snd e with
  | AsTex => let '(i', bs, o) := tex_fmt paths class_ext to_float times100 (fst e) i None None in (i', bs, do s <- o ; Ok (Tex s))
  | AsHtml xh => let '(i', bs, o) := html_fmt paths class_ext to_float times100 xml_char (fst e) xh i None None in (i', bs, do n <- o ; Ok (Html n))
  end.
Fixpoint renders (i : img) (l : list (world * kind)) : img * list (list build * result rendering) :=
  match l with
  | nil => (i, nil)
  | e :: r => let '(i', bs, o) := render i e in
              let '(i'', os) := renders i' r in (i'', (bs, o) :: os)
  end.
End Run.

(** ** Code *)
Section Code.
(** str.title, the keys of pygments.lexers.LEXERS, the lexers by name (an exception for unknown names) and the guess for
    a text *)
Variables (title : str -> str) (lexers : str -> bool) (by_name : str -> option str) (guess : str -> str).
(** code.py:92-138: the names that subclasses add as attributes *)
Definition languages : list str := [lit "python"; lit "html"; lit "ruby"; lit "java"; lit "javascript"; lit "dm"].
Definition code_attributes (language : option str) (d : attrs) : attrs :=
  match language with Some l => set l (VPos PStr) d | None => d end.
(** code.py:28-37: the content of files that are named in the content, or the content itself *)
Definition code_content (w : world) (paths : list xpath) (read : path -> str) (s : str) : str :=
  match find_files (is_file w) s paths with
  | nil => s
  | xs => join [10%N] (map (fun x => read (full x)) xs)
  end.
(** code.py:39-57 [lexer].  The values are compared with ==: a class is only equal to itself *)
Definition is_positional (e : str * aval) : bool := match snd e with VPos PStr => true | _ => false end.
Fixpoint first_lexer (l : list str) (s : str) : result str :=
  match l with
  | nil => Ok (guess s)
  | x :: r => if lexers (title x ++ lit "Lexer") then match by_name x with Some y => Ok y | None => Raise OtherError end
              else first_lexer r s
  end.
Definition lexer (d : attrs) (s : str) : result str := first_lexer (map fst (filter is_positional d)) s.
(** code.py:59-90: the text and the lexer of a block, or an inline code.  The formatting of blocks (pygments) is not
    modelled. *)
Inductive shown := Block (lexer text : str) | InlineHtml (n : node) | InlineTex (s : str).
Definition code_html (xml_char : char -> bool) (block : bool) (d : attrs) (s : str) : result shown :=
  if block then do l <- lexer d s ; Ok (Block l s)
  else do n <- element xml_char (lit "code") d [NText s] ; Ok (InlineHtml n).
Definition code_tex (block : bool) (d : attrs) (s : str) : result shown :=
  if block then do l <- lexer d s ; Ok (Block l s)
  else Ok (InlineTex (tex_verb s)).
End Code.

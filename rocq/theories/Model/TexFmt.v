(** Model of the classes of tags and of their rendering in tex: /repo/src/disseminate/tags/tag.py, text.py,
    featurebox.py, notes.py, headings.py and eqs.py *)
From Coq Require Import List Bool Arith NArith.
From Verif.Base Require Import Str Dict Result PyText.
From Verif.Model Require Import Attributes Formats TagParser.
Import ListNotations.

(** ** Classes *)
(** The subclasses of Tag: the name of the class in lower case, the other names, and whether the class is active
    (tag.py:346-431 and the classes in tags/*.py; [active] and [aliases] are inherited). *)
Record tcls := mkcls { t_name : str; t_aliases : list str; t_active : bool }.
Definition on (name : str) (aliases : list str) : tcls := mkcls name aliases true.
Definition off (name : str) : tcls := mkcls name nil false.
Definition classes : list tcls :=
  [on (lit "caption") nil; on (lit "authors") [lit "author"]; on (lit "titlepage") nil;
   off (lit "basefigure"); on (lit "marginfigure") [lit "marginfig"]; on (lit "figure") [lit "fig"];
   on (lit "fullfigure") [lit "ffig"; lit "fullfig"]; on (lit "panel") nil;
   off (lit "heading"); on (lit "title") [lit "h1"]; on (lit "part") nil; on (lit "chapter") [lit "h2"];
   on (lit "section") [lit "h3"]; on (lit "subsection") [lit "h4"]; on (lit "subsubsection") [lit "h5"];
   on (lit "para") [lit "h6"];
   on (lit "featurebox") nil; on (lit "examplebox") nil; on (lit "problembox") nil;
   on (lit "body") nil; on (lit "p") nil; on (lit "bold") [lit "b"; lit "textbf"; lit "strong"];
   on (lit "italics") [lit "i"; lit "textit"]; on (lit "sup") nil; on (lit "sub") nil; on (lit "supsub") nil;
   on (lit "symbol") [lit "smb"]; on (lit "verb") [lit "v"; lit "pre"; lit "verbatim"];
   on (lit "img") nil; on (lit "eq") [lit "term"; lit "termb"]; on (lit "asy") nil;
   on (lit "ref") nil; on (lit "next") nil; on (lit "prev") nil; off (lit "tocref");
   off (lit "otherlink"); on (lit "srclink") nil; on (lit "txtlink") nil; on (lit "texlink") nil;
   on (lit "pdflink") nil; on (lit "epublink") nil;
   on (lit "cell") nil; on (lit "headercell") nil; off (lit "data"); on (lit "delimdata") [lit "csv"; lit "tsv"];
   on (lit "sidenote") [lit "marginnote"]; off (lit "labelanchor"); off (lit "labeltag");
   off (lit "basetable"); on (lit "margintable") [lit "margintbl"]; on (lit "table") [lit "tbl"];
   on (lit "fulltable") [lit "ftbl"; lit "fulltbl"];
   on (lit "code") nil; on (lit "python") nil; on (lit "html") nil; on (lit "ruby") nil; on (lit "java") nil;
   on (lit "javascript") nil; on (lit "dm") nil;
   off (lit "listitem"); on (lit "list") nil; on (lit "orderedlist") [lit "outline"]; on (lit "toc") nil].
(** tag.py:412-431 [tag_classes]: a name that is used twice is an AssertionError *)
Definition tag_classes (l : list tcls) : result (dict str tcls) :=
  fold_left (fun r c =>
    fold_left (fun r name =>
      do d <- r ; if has name d then Raise AssertionError else Ok (set name c d))
      (t_name c :: t_aliases c) r) l (Ok nil).
(** tag.py:395-410 [tag_class]: None is the class Tag.  [lower]: str.lower *)
Definition tag_class (lower : str -> str) (inactive : list str) (name : str) : result (option tcls) :=
  do d <- tag_classes classes ;
  Ok (match lookup (lower name) d with
      | Some c => if t_active c && negb (mem (t_name c) inactive) then Some c else None
      | None => None
      end).

(** ** Rendering *)
Section Tex.
Variables (lower : str -> str) (uw : char -> bool) (pv : str -> ptype).
(** The entry inactive_tags of the context *)
Variable inactive : list str.
(** Tags that are alone in their paragraph (paragraph_role = 'block') *)
Variable block : content -> bool.
(** The rendering of tags of classes that are not modelled here (images, references, tables, ...) *)
Variable other : bool -> content -> result str.

Definition class_of (name : str) : option str :=
  match tag_class lower inactive name with Ok (Some c) => Some (t_name c) | _ => None end.
Definition is_class (name cls : str) : bool := match class_of name with Some c => eqb c cls | None => false end.
Definition attributes_of (a : option str) : attrs := match a with Some x => load uw pv nil x | None => nil end.
Definition cmd (name : str) (d : attrs) (x : str) : result str := tex_cmd tex_cmd_arguments tex_cmd_optionals name d (Some x) None.
Definition env (name : str) (d : attrs) (x : str) (min_newlines : bool) : result str :=
  tex_env tex_env_arguments tex_env_optionals name d x min_newlines None.
(** text.py:138-146, 168-176, 227-232, 256-263: mathematics in a text *)
Definition ensure (math : bool) (x : str) : result str := if math then Ok x else cmd (lit "ensuremath") nil x.
(** Classes that only have tex_cmd or tex_env: text.py:76-115, notes.py, featurebox.py, headings.py:177-186 *)
Definition simple_cmd : dict str str :=
  [(lit "bold", lit "textbf"); (lit "italics", lit "textit"); (lit "para", lit "paragraph"); (lit "sidenote", lit "marginnote")].
Definition simple_env : list str := [lit "featurebox"; lit "examplebox"; lit "problembox"].
Definition headings : list str := [lit "title"; lit "part"; lit "chapter"; lit "section"; lit "subsection"; lit "subsubsection"].
(** eqs.py:70-98: an equation whose content, in math mode, is [x] *)
Definition eq_tex (name : str) (d : attrs) (is_block math : bool) (x : str) : result str :=
  let x := strip_p (fun c => mem c (lit " " ++ [9%N; 10%N])) x in
  do x <- match lookup (lit "color") d with
          | Some (VStr v) => cmd (lit "textcolor") (load uw pv nil v) x
          | Some _ => Raise AttributeError
          | None => Ok x
          end ;
  do x <- (if has (lit "bold") d || eqb name (lit "termb") then cmd (lit "boldsymbol") nil x else Ok x) ;
  let x := strip x in
  if math then Ok x
  else if has (lit "env") d || is_block then
    match get d (RKey (lit "env")) (Some (lit ".tex")) (VStr nil) with
    | VStr nil => env (lit "align*") d x true
    | VStr e => env e d x true
    | _ => Raise OtherError
    end
  else cmd (lit "ensuremath") d x.

(** tag.py:240-283 [tex_fmt] and the methods of subclasses, with format_content (utils.py:38-57) for the content.
    A list in a list is not a text, and cannot be joined.  The content of verbatim tags, symbols and sup/subscripts is a text.  A supsub with other content is an error
    when it is made (text.py:198-215). *)
Fixpoint tex_fmt (math : bool) (t : content) : result str :=
  match t with
  | Text s => Ok s
  | Items l => (fix go (l : list content) : result str :=
                  match l with
                  | nil => Ok nil
                  | x :: r => do a <- match x with Items _ => Raise TypeError | _ => tex_fmt math x end ;
                              do b <- go r ; Ok (a ++ b)
                  end) l
  | Tag name a c =>
      let d := attributes_of a in
      match class_of name with
      | None => tex_fmt math c
      | Some k =>
          if eqb k (lit "body") then tex_fmt math c
          else if eqb k (lit "p") then
            do x <- tex_fmt math c ;
            Ok (if match c with Tag n _ _ => is_class n (lit "eq") | _ => false end then x else 10%N :: x ++ [10%N])
          else if eqb k (lit "sup") then do x <- tex_fmt math c ; ensure math (lit "^{" ++ x ++ lit "}")
          else if eqb k (lit "sub") then do x <- tex_fmt math c ; ensure math (lit "_{" ++ x ++ lit "}")
          else if eqb k (lit "supsub") then
            match c with
            | Text s => match split_s (lit "&&") s with
                        | [x; y] => ensure math (lit "^{" ++ strip x ++ lit "}_{" ++ strip y ++ lit "}")
                        | _ => Raise TagError
                        end
            | _ => Raise TagError
            end
          else if eqb k (lit "symbol") then
            match c with Text s => ensure math (lit "\" ++ s) | _ => Raise TypeError end
          else if eqb k (lit "verb") then
            match c with Text s => verb_tex name s | _ => other math t end
          else if eqb k (lit "eq") then do x <- tex_fmt true c ; eq_tex name d (block t) math x
          else if mem k simple_env then do x <- tex_fmt math c ; env k d x false
          else if mem k headings && has (lit "nolabel") d then cmd k d nil
          else match lookup k simple_cmd with
               | Some n => do x <- tex_fmt math c ; cmd n d x
               | None => other math t
               end
      end
  end.
End Tex.

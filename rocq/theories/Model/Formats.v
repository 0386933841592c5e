(** Model of the formats of commands and tags: /repo/src/disseminate/formats/tex.py,
    /repo/src/disseminate/formats/xhtml.py *)
From Coq Require Import List Bool Arith NArith.
From Verif.Base Require Import Str Dict Result.
From Verif.Model Require Import Attributes StringUtils.
Import ListNotations.

(** The names that are allowed with their attributes, settings.py:279-410 *)
Definition table : Type := dict str (list areq).
Definition none : list areq := [].
Definition keys_of (l : list str) : list areq := map RKey l.

(** tex.py:40-72, 120-155: the arguments of a command or an environment.
    TexFormatError is [OtherError].  [sort]: sort_by_attrs of the optional ones. *)
Definition tex_params (args opts : table) (sort : bool) (name : str) (d : attrs) : result str :=
  if negb (has name args) && negb (has name opts) then Raise OtherError else
  do reqs <- match lookup name args with
             | Some r => do f <- filter_attrs d (Some r) (Some (lit "tex")) true true ;
                         if Nat.eqb (length f) (length r) then Ok (tex_arguments f) else Raise OtherError
             | None => Ok []
             end ;
  do os <- match lookup name opts with
           | Some r => do f <- filter_attrs d (Some r) (Some (lit "tex")) sort true ; Ok (tex_optionals f)
           | None => Ok []
           end ;
  Ok (reqs ++ os).
Definition indented (indent : option nat) (x : str) : str :=
  match indent with Some n => space_indent n x | None => x end.
(** tex.py:15-89 [tex_cmd].  The content is a string or missing. *)
Definition tex_cmd (args opts : table) (cmd : str) (d : attrs) (content : option str) (indent : option nat) : result str :=
  do p <- tex_params args opts false cmd d ;
  let c := match content with Some c => lit "{" ++ c ++ lit "}" | None => [] end in
  Ok (indented indent (lit "\" ++ cmd ++ p ++ c)).
(** tex.py:92-182 [tex_env] *)
Definition tex_env (args opts : table) (env : str) (d : attrs) (content : str) (min_newlines : bool) (indent : option nat) : result str :=
  do p <- tex_params args opts true env d ;
  let c := if startswith content [10%N] then content else 10%N :: content in
  let c := if endswith c [10%N] then c else c ++ [10%N] in
  let text := indented indent (lit "\begin" ++ lit "{" ++ env ++ lit "}" ++ p ++ (if min_newlines then lit " %" else []) ++ c ++ lit "\end{" ++ env ++ lit "}") in
  Ok (if min_newlines then text else 10%N :: text ++ [10%N]).
(** tex.py:185-206 [tex_verb] *)
Definition tex_verb (c : str) : str :=
  if negb (mem 124%N c) then lit "\verb|" ++ c ++ lit "|"
  else if negb (mem 33%N c) then lit "\verb!" ++ c ++ lit "!"
  else if negb (mem 94%N c) then lit "\verb^" ++ c ++ lit "^"
  else c.

(** xhtml.py:29-165 [xhtml_tag]: the name and the attributes of the element.
    XHtmlFormatError is [OtherError].  The content, the serialization and the check
    of the characters of values are not modelled. *)
Definition required (args : table) (allowed : bool) (name : str) : option (list areq) :=
  match lookup name args with
  | Some r => Some r
  | None => if allowed then None else lookup (lit "span") args
  end.
Definition filtered (d : attrs) (target : option str) (r : option (list areq)) : result (option attrs) :=
  match r with
  | Some r => do f <- filter_attrs d (Some r) target true true ; Ok (Some f)
  | None => Ok None
  end.
(** lxml only sets strings. *)
Fixpoint set_all (e : attrs) (l : attrs) : result attrs :=
  match l with
  | nil => Ok e
  | (k, VStr x) :: r => set_all (set k (VStr x) e) r
  | _ => Raise TypeError
  end.
Definition some_attrs (o : option attrs) : attrs := match o with Some l => l | None => [] end.
Definition xhtml_tag (args opts : table) (name : str) (d : attrs) (target : option str) : result (str * attrs) :=
  let allowed := has name args || has name opts in
  do reqs <- filtered d target (required args allowed name) ;
  do _ <- match reqs with
          | Some f => match lookup name args with
                      | Some r => if Nat.eqb (length f) (length r) then Ok tt else Raise OtherError
                      | None => Raise KeyError
                      end
          | None => Ok tt
          end ;
  do os <- filtered d target (required opts allowed name) ;
  let other := if allowed || has (lit "class") (some_attrs reqs) || has (lit "class") (some_attrs os) then []
               else [(lit "class", VStr name)] in
  do e <- set_all [] (some_attrs reqs) ;
  do e <- set_all e (some_attrs os) ;
  do e <- set_all e other ;
  Ok (if allowed then name else lit "span", e).
(** xhtml.py:21-22 [html_tag] calls itself with one more keyword argument.  [n] bounds
    the depth of calls. *)
Fixpoint html_tag {A} (n : nat) (kwargs : list str) : result A :=
  match n with
  | O => Raise RecursionError
  | S n' => if mem (lit "method") kwargs then Raise TypeError else html_tag n' (kwargs ++ [lit "method"])
  end.

(** settings.py:282-327 *)
Definition epub_type : str := lit "{http://www.idpf.org/2007/ops}type".
Definition xhtml_tag_arguments : table := [(lit "a", keys_of [lit "href"]); (lit "img", keys_of [lit "src"]); (lit "link", keys_of [lit "rel"])].
Definition xhtml_tag_optionals : table :=
  [(lit "a", keys_of [lit "class"; lit "role"; epub_type]);
   (lit "aside", keys_of [lit "class"; lit "id"; epub_type]);
   (lit "blockquote", none); (lit "br", none); (lit "code", none);
   (lit "caption", keys_of [lit "class"; lit "id"]); (lit "dd", none);
   (lit "div", keys_of [lit "class"; lit "id"]); (lit "dl", none); (lit "dt", none); (lit "em", none);
   (lit "figure", keys_of [lit "id"; lit "class"]); (lit "figcaption", keys_of [lit "id"; lit "class"]);
   (lit "h1", keys_of [lit "id"; lit "class"]); (lit "h2", keys_of [lit "id"; lit "class"]);
   (lit "h3", keys_of [lit "id"; lit "class"]); (lit "h4", keys_of [lit "id"; lit "class"]);
   (lit "h5", keys_of [lit "id"; lit "class"]); (lit "hr", none); (lit "li", keys_of [lit "class"]);
   (lit "link", keys_of [lit "href"; lit "media"]); (lit "i", none);
   (lit "img", keys_of [lit "alt"; lit "class"; lit "style"]); (lit "ol", keys_of [lit "class"]);
   (lit "p", keys_of [lit "class"]); (lit "pre", keys_of [lit "class"]);
   (lit "span", keys_of [lit "class"; lit "id"; lit "style"]); (lit "strong", none); (lit "sub", none);
   (lit "sup", none); (lit "table", keys_of [lit "id"; lit "class"]); (lit "tbody", keys_of [lit "class"]);
   (lit "td", keys_of [lit "class"]); (lit "th", keys_of [lit "class"]); (lit "thead", keys_of [lit "class"]);
   (lit "tr", keys_of [lit "class"]); (lit "ul", keys_of [lit "class"])].
(** settings.py:336-362 *)
Definition str_pos : list areq := [RPos PStr].
Definition tex_env_arguments : table :=
  [(lit "align", none); (lit "align*", none); (lit "alignat", [RPos PInt]); (lit "alignat*", [RPos PInt]);
   (lit "center", none); (lit "enumerate", none); (lit "examplebox", none); (lit "featurebox", none);
   (lit "problembox", none); (lit "itemize", none); (lit "panel", str_pos); (lit "tabular", str_pos);
   (lit "table", none); (lit "table*", none); (lit "margintable", none); (lit "toclist", none);
   (lit "verbatim", none)].
Definition tex_env_optionals : table :=
  [(lit "enumerate", [RPos PStr; RKey (lit "label")]); (lit "easylist", str_pos); (lit "figure", str_pos);
   (lit "figure*", str_pos); (lit "marginfigure", str_pos)].
(** settings.py:364-410 *)
Definition tex_cmd_arguments : table :=
  map (fun x => (x, none)) [lit "textbf"; lit "textit"; lit "part"; lit "chapter"; lit "section"; lit "subsection";
    lit "subsubsection"; lit "paragraph"; lit "subparagraph"; lit "part*"; lit "chapter*"; lit "section*";
    lit "subsection*"; lit "subsubsection*"; lit "maketitle"; lit "title"; lit "author"; lit "today"; lit "caption";
    lit "ensuremath"; lit "marginnote"; lit "marginpar"; lit "item"]
  ++ [(lit "setcounter", [RPos PStr; RPos PInt]); (lit "label", none); (lit "includegraphics", none);
      (lit "textcolor", str_pos); (lit "boldsymbol", none); (lit "toprule", none); (lit "midrule", none);
      (lit "bottomrule", none); (lit "hfill", none); (lit "pageref", str_pos); (lit "href", str_pos);
      (lit "detokenize", none)].
Definition tex_cmd_optionals : table := [(lit "includegraphics", keys_of [lit "width"; lit "height"])].

(** text.py:314-319 [Verb.tex_fmt] *)
Definition verb_tex (name content : str) : result str :=
  if eqb name (lit "verbatim") then tex_env tex_env_arguments tex_env_optionals (lit "verbatim") [] content false None
  else Ok (tex_verb content).

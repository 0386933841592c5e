(** What a rendering in tex should keep *)
From Coq Require Import List Bool Arith NArith.
From Verif.Base Require Import Str.
From Verif.Base Require Import Dict.
From Verif.Model Require Import Attributes TagParser TexFmt.
From Verif.Spec Require Import TagParser.
Import ListNotations.

(** The text of a content that is not in tags *)
Fixpoint direct (c : content) : str :=
  match c with
  | Text s => s
  | Tag _ _ _ => nil
  | Items l => concat (map direct l)
  end.
(** No braces in the attributes *)
Definition no_braces (x : str) : Prop := ~ In 123%N x /\ ~ In 125%N x.
Definition plain_attrs (a : option str) : Prop := match a with Some x => no_braces x | None => True end.
(** The text of each tag, without the tags in it, has balanced braces *)
Inductive braces_ok : content -> Prop :=
| bo_text s : braces_ok (Text s)
| bo_tag name a c : balanced (direct c) -> plain_attrs a -> braces_ok c -> braces_ok (Tag name a c)
| bo_items l : Forall braces_ok l -> braces_ok (Items l).
(** No tag has braces in its attributes *)
Inductive attrs_ok : content -> Prop :=
| ao_text s : attrs_ok (Text s)
| ao_tag name a c : plain_attrs a -> attrs_ok c -> attrs_ok (Tag name a c)
| ao_items l : Forall attrs_ok l -> attrs_ok (Items l).

(** The characters that are seen *)
Definition seen (c : char) : bool := negb (is_space c).
(** The text of a content: that of a tag with a superscript and a subscript is without the separator *)
Section Shown.
Variable cls : str -> option str.
Inductive shown : content -> str -> Prop :=
| sh_text s : shown (Text s) s
| sh_tag name a c s : cls name <> Some (lit "supsub") -> shown c s -> shown (Tag name a c) s
| sh_supsub name a x y : cls name = Some (lit "supsub") -> ~ In 38%N x -> shown (Tag name a (Text (x ++ lit "&&" ++ y))) (x ++ y)
| sh_items l xs : Forall2 shown l xs -> shown (Items l) (concat xs).
(** No title, part, chapter or (sub)section has the attribute nolabel *)
Inductive labelled (uw : char -> bool) (pv : str -> ptype) : content -> Prop :=
| la_text s : labelled uw pv (Text s)
| la_tag name a c : (forall k, cls name = Some k ->
      In k [lit "title"; lit "part"; lit "chapter"; lit "section"; lit "subsection"; lit "subsubsection"] ->
      ~ exists x, a = Some x /\ lookup (lit "nolabel") (load uw pv nil x) <> None) ->
    labelled uw pv c -> labelled uw pv (Tag name a c)
| la_items l : Forall (labelled uw pv) l -> labelled uw pv (Items l).
(** Content of the classes that are rendered here *)
Inductive texts_only : content -> Prop :=
| to_text s : texts_only (Text s)
| to_tag name a c : (forall k, cls name = Some k ->
      In k [lit "body"; lit "p"; lit "sup"; lit "sub"; lit "bold"; lit "italics"; lit "para"; lit "sidenote";
            lit "featurebox"; lit "examplebox"; lit "problembox"]) ->
    texts_only c -> texts_only (Tag name a c)
| to_raw name a s : cls name = Some (lit "verb") \/ cls name = Some (lit "symbol") -> texts_only (Tag name a (Text s))
| to_supsub name a x y : cls name = Some (lit "supsub") -> ~ In 38%N x -> ~ In 38%N y ->
    texts_only (Tag name a (Text (x ++ lit "&&" ++ y)))
| to_items l : Forall texts_only l -> Forall (fun c => forall l', c <> Items l') l -> texts_only (Items l).
End Shown.

(** ** Names of classes *)
Definition names (c : tcls) : list str := t_name c :: t_aliases c.

(** ** Forms *)
(** What is written around the content of a tag of a class, inside or outside of mathematics *)
Definition around (math : bool) : list (str * (str * str)) :=
  [(lit "body", (nil, nil)); (lit "bold", (lit "\textbf{", lit "}")); (lit "italics", (lit "\textit{", lit "}"));
   (lit "para", (lit "\paragraph{", lit "}")); (lit "sidenote", (lit "\marginnote{", lit "}"));
   (lit "sup", if math then (lit "^{", lit "}") else (lit "\ensuremath{^{", lit "}}"));
   (lit "sub", if math then (lit "_{", lit "}") else (lit "\ensuremath{_{", lit "}}"))].
(** A box is on lines of its own *)
Definition box (k x : str) : str :=
  [10%N] ++ lit "\begin{" ++ k ++ lit "}" ++ [10%N] ++ x ++ [10%N] ++ lit "\end{" ++ k ++ lit "}" ++ [10%N].

(** What a rendering in html should be *)
From Coq Require Import List Bool Arith NArith.
From Verif.Base Require Import Str Dict Result.
From Verif.Model Require Import Attributes Formats TagParser HtmlFmt.
From Verif.Spec Require Formats.
Import ListNotations.

(** The text in a tree of elements.  An entity is a single character, which is not counted. *)
Fixpoint text_of (n : node) : str :=
  match n with
  | NText s => s
  | NEntity _ => nil
  | NElem _ _ ks => concat (map text_of ks)
  end.
(** The text of a content: all texts in their order.  The parts of a tag with a superscript and a subscript are shown
    without the separator and the space around them, and symbols are entities. *)
Section Plain.
Variable cls : str -> option str.
Inductive plain : content -> str -> Prop :=
| pl_text s : plain (Text s) s
| pl_tag name a c s : cls name <> Some (lit "supsub") -> cls name <> Some (lit "symbol") -> plain c s -> plain (Tag name a c) s
| pl_symbol name a c : cls name = Some (lit "symbol") -> plain (Tag name a c) nil
| pl_supsub name a x y : cls name = Some (lit "supsub") -> ~ In 38%N x -> plain (Tag name a (Text (x ++ lit "&&" ++ y))) (strip x ++ strip y)
| pl_items l xs : Forall2 plain l xs -> plain (Items l) (concat xs).
End Plain.

(** A property of all elements in a tree *)
Inductive everywhere (P : str -> attrs -> Prop) : node -> Prop :=
| ev_text s : everywhere P (NText s)
| ev_entity s : everywhere P (NEntity s)
| ev_elem n e ks : P n e -> Forall (everywhere P) ks -> everywhere P (NElem n e ks).
(** An element of html that is permitted by the settings, with all attributes that it needs and only those that it
    may have; and no text of it is empty *)
Definition allowed (n : str) (e : attrs) : Prop :=
  Formats.permitted xhtml_tag_arguments xhtml_tag_optionals n /\
  (forall k, In k (Formats.names xhtml_tag_arguments n) -> lookup k e <> None) /\
  (forall k v, lookup k e = Some v ->
     In k (Formats.names xhtml_tag_arguments n ++ Formats.names xhtml_tag_optionals n) /\ exists x, v = VStr x).

(** The nodes of a content *)
Definition renders (f : content -> result node) (c : content) (ns : list node) : Prop :=
  match c with
  | Items l => Forall2 (fun x n => f x = Ok n) l ns
  | _ => exists n, f c = Ok n /\ ns = [n]
  end.

(** Contents that have a rendering *)
Section Good.
Variables (cls : str -> option str) (lower : str -> str) (attributes : option str -> attrs).
Variables (xml_char : char -> bool) (entity_name : str -> bool).
Definition xml_text (s : str) : Prop := Forall (fun c => xml_char c = true) s.
(** The attributes that an element may have are texts of xml *)
Definition good_attributes (d : attrs) : Prop :=
  lookup (lit "self") d = None /\
  forall k v, In k [lit "class"; lit "id"; lit "style"; epub_type] -> lookup k d = Some v -> exists x, v = VStr x /\ xml_text x.
Inductive good : content -> Prop :=
| go_text s : xml_text s -> good (Text s)
| go_tag name a c :
    (cls name = None /\ xml_text (lower name) /\ ~ In (lower name) [lit "a"; lit "img"; lit "link"]) \/
    (exists k, cls name = Some k /\
       In k [lit "body"; lit "p"; lit "bold"; lit "italics"; lit "sup"; lit "sub"; lit "verb"; lit "para"; lit "sidenote";
             lit "featurebox"; lit "examplebox"; lit "problembox"; lit "marginfigure"; lit "figure"; lit "fullfigure"]) ->
    good_attributes (attributes a) -> good c -> good (Tag name a c)
| go_items l : Forall good l -> Forall (fun x => forall l', x <> Items l') l -> good (Items l)
| go_symbol name a s : cls name = Some (lit "symbol") -> entity_name (strip s) = true -> good (Tag name a (Text s))
| go_supsub name a x y : cls name = Some (lit "supsub") -> good_attributes (attributes a) ->
    ~ In 38%N x -> ~ In 38%N y -> xml_text x -> xml_text y -> good (Tag name a (Text (x ++ lit "&&" ++ y))).
End Good.

(** The elements for the classes, for tags without attributes: the name and the class *)
Definition elements : list (str * (str * option str)) :=
  [(lit "body", (lit "div", Some (lit "body"))); (lit "bold", (lit "strong", None)); (lit "italics", (lit "i", None));
   (lit "sup", (lit "sup", None)); (lit "sub", (lit "sub", None)); (lit "verb", (lit "code", None));
   (lit "featurebox", (lit "div", Some (lit "featurebox"))); (lit "examplebox", (lit "div", Some (lit "featurebox examplebox")));
   (lit "problembox", (lit "div", Some (lit "featurebox problembox"))); (lit "sidenote", (lit "span", Some (lit "sidenote")));
   (lit "marginfigure", (lit "figure", Some (lit "marginfig"))); (lit "figure", (lit "figure", Some (lit "figure")));
   (lit "fullfigure", (lit "figure", Some (lit "fullfigure"))); (lit "panel", (lit "span", Some (lit "panel")));
   (lit "para", (lit "span", Some (lit "paragraph-heading"))); (lit "p", (lit "p", None))].
Definition class_attr (o : option str) : attrs := match o with Some x => [(lit "class", VStr x)] | None => nil end.
(** No symbol and no panel in a content *)
Inductive without (cls : str -> option str) (ks : list str) : content -> Prop :=
| wo_text s : without cls ks (Text s)
| wo_tag name a c : (forall k, cls name = Some k -> ~ In k ks) -> without cls ks c -> without cls ks (Tag name a c)
| wo_items l : Forall (without cls ks) l -> without cls ks (Items l).

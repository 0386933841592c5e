(** What a text with tags stands for. *)
From Coq Require Import List Bool Arith NArith.
From Verif.Base Require Import Str.
From Verif.Model Require Import TagParser.
Import ListNotations.

(** [source_of c x]: the text [x] is written as the content [c]: strings stand
    for themselves, a tag is '@name[attributes]{content}', and the braces may be
    missing if the content is empty. *)
Definition attrs_text (a : option str) : str := match a with Some s => s | None => nil end.
Inductive source_of : content -> str -> Prop :=
| src_text s : source_of (Text s) s
| src_tag name a c x : source_of c x ->
    source_of (Tag name a c) (lit "@" ++ name ++ attrs_text a ++ lit "{" ++ x ++ lit "}")
| src_bare_tag name a : source_of (Tag name a (Text nil)) (lit "@" ++ name ++ attrs_text a)
| src_items l xs : Forall2 source_of l xs -> source_of (Items l) (concat xs).

(** The beginning of a tag: '@' followed by an ASCII letter or digit. *)
Definition has_tag (x : str) : Prop := exists a c b, x = a ++ 64%N :: c :: b /\ alnum c = true.

(** All tags have been recognised: no text has the beginning of a tag, except
    inside verbatim tags, whose content is just a text. *)
Inductive recognised (verbatim : str -> bool) : content -> Prop :=
| rec_text s : ~ has_tag s -> recognised verbatim (Text s)
| rec_tag name a c : verbatim name = false -> recognised verbatim c -> recognised verbatim (Tag name a c)
| rec_verbatim name a s : verbatim name = true -> recognised verbatim (Tag name a (Text s))
| rec_items l : Forall (recognised verbatim) l -> recognised verbatim (Items l).

(** The nesting depth of a content, as the parser counts it. *)
Fixpoint depth (c : content) : nat :=
  match c with
  | Text _ => 1
  | Items l => S (list_max (map depth l))
  | Tag _ _ (Items l) => S (list_max (map depth l))
  | Tag _ _ c' => S (depth c')
  end.

(** ** Braces *)
Definition opens (x : str) : nat := count_occ N.eq_dec x 123%N.
Definition closes (x : str) : nat := count_occ N.eq_dec x 125%N.
(** Every brace has its partner: as many are closed as opened, and never more
    closed than opened before. *)
Definition balanced (x : str) : Prop :=
  opens x = closes x /\ forall a b, x = a ++ b -> closes a <= opens a.
(** No more than [n] braces are open at the same time. *)
Definition nesting (n : nat) (x : str) : Prop := forall a b, x = a ++ b -> opens a <= closes a + n.

(** A name of a tag, and a list of attributes as written (with brackets). *)
Definition tag_name (uw : char -> bool) (name : str) : Prop :=
  exists c w, name = c :: w /\ alnum c = true /\ Forall (fun d => is_word uw d = true) w.
Definition written_attrs (a : option str) : Prop :=
  match a with
  | None => True
  | Some s => exists i, s = lit "[" ++ i ++ lit "]" /\ i <> nil /\ ~ In 93%N i
  end.

(** The items of a content: a list of one item is written as the item, and an
    empty one as the empty string. *)
Definition pieces (c : content) : list content :=
  match c with Items l => l | Text nil => nil | _ => [c] end.

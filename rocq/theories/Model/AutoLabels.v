(** Model of /repo/src/disseminate/utils/string.py [titlelize] and of the labels that
    headings and figures make: tags/label.py, tags/headings.py, tags/caption.py and
    tags/figs.py *)
From Coq Require Import List Bool Arith NArith.
From Verif.Base Require Import Str Dict PyText Result.
From Verif.Model Require Import Labels.
Import ListNotations.

Definition nonempty (s : str) : bool := negb (eqb s nil).

(** utils/string.py:20-52 [titlelize], with truncate and without capitalize (as it
    is always called) *)
Definition titlelize (string : str) : str :=
  let lines := filter nonempty (split_c 10%N string) in
  let string := join (lit " ") lines in
  let string := hd nil (split_s (lit ". ") string) in
  let pieces := filter nonempty (split_c 32%N string) in
  strip_c 46%N (join (lit " ") pieces).

(** headings.py:27-33 [id_mappings] *)
Definition id_mappings : dict str str :=
  [(lit "title", lit "title"); (lit "part", lit "part"); (lit "chapter", lit "ch"); (lit "section", lit "sec");
   (lit "subsection", lit "subsec"); (lit "subsubsection", lit "subsubsec")].

(** A heading: its class, the attributes id and short, and its content.  [h_text] is
    the text of the content and [h_plain] says that the content is a text; both
    after headings.py:38-41 (the entry of the context for an empty heading). *)
Record heading := { h_class : str; h_id : option str; h_short : option str; h_text : str; h_plain : bool }.
(** A caption: its attribute id and its text *)
Record caption := { c_id : option str; c_text : str }.
(** The tags of a document that make labels, in the order in which they are made.
    Captions outside of figures make none (caption.py:19-22). *)
Inductive item := Head (x : heading) | Fig (id : option str) (captions : list caption).

Section Ids.
(** slugify of the package slugify, and [hashtxt] (utils/string.py:13-17) *)
Variables (slugify hashtxt : str -> str).

(** label.py:15-59 [generate_label_id] for a tag without the attribute id; [count]
    is the entry label_count of the context *)
Definition generate_label_id (doc_id : str) (short : option str) (text : str) (plain : bool) (count : nat) : str * nat :=
  match short with
  | Some s => (slugify (join (lit "-") [doc_id; titlelize s]), count)
  | None =>
      if plain && eqb (strip text) nil then (join (lit "-") [slugify doc_id; str_of_nat (S count)], S count)
      else (slugify (join (lit "-") [doc_id; titlelize text]), count)
  end.

(** headings.py:52-60 [generate_label_id].  The classes are those of the mapping. *)
Definition heading_id (doc_id : str) (x : heading) (count : nat) : str * nat :=
  match h_id x with
  | Some i => (i, count)
  | None =>
      let '(i, count) := generate_label_id doc_id (h_short x) (h_text x) (h_plain x) count in
      (join (lit ":") [match lookup (h_class x) id_mappings with Some p => p | None => nil end; i], count)
  end.

(** caption.py:51-63 [generate_label_id]; [label_id] comes from the figure *)
Definition caption_id (label_id : option str) (c : caption) : str :=
  match label_id with
  | Some i => i
  | None => match c_id c with
            | Some i => i
            | None => lit "caption-" ++ hashtxt (c_text c)
            end
  end.
(** figs.py:34-46: the id of the figure goes to its first caption.  Captions in
    figures inside of figures are not modelled. *)
Fixpoint caption_ids (id : option str) (captions : list caption) : list str :=
  match captions with
  | nil => nil
  | c :: r => caption_id id c :: caption_ids None r
  end.

(** The ids of the labels of a document, with the kinds of the labels *)
Fixpoint label_ids (doc_id : str) (items : list item) (count : nat) : list (str * list str) :=
  match items with
  | nil => nil
  | Head x :: r =>
      let '(i, count) := heading_id doc_id x count in
      (i, [lit "heading"; h_class x]) :: label_ids doc_id r count
  | Fig id cs :: r => map (fun i => (i, [lit "caption"; lit "figure"])) (caption_ids id cs) ++ label_ids doc_id r count
  end.

(** label.py:111-114: the labels are added to the label manager, one after the other *)
Fixpoint add_labels (sep : option str) (doc_id : str) (ids : list (str * list str)) (m : manager) : result manager :=
  match ids with
  | nil => Ok m
  | (i, kind) :: r =>
      let '(l, m) := add_label i (Some kind) true sep (Some doc_id) m in
      do _ <- l ; add_labels sep doc_id r m
  end.
Definition load_labels (sep : option str) (doc_id : str) (items : list item) (m : manager) : result manager :=
  add_labels sep doc_id (label_ids doc_id items 0) m.
End Ids.

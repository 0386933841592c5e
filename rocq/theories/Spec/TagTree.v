(** Trees of tags. *)
From Coq Require Import List Bool Arith NArith.
From Verif.Base Require Import Str.
From Verif.Model Require Import TagParser TagTree.
Import ListNotations.

(** All tags of a tree, in document order, a tag before the tags in it. *)
Fixpoint tags_of (o : obj) : list obj :=
  match o with
  | OTag _ _ _ c => o :: tags_of c
  | OList l => concat (map tags_of l)
  | _ => nil
  end.

(** No list is directly inside a list. *)
Fixpoint plain_lists (o : obj) : Prop :=
  match o with
  | OTag _ _ _ c => plain_lists c
  | OList l => (fix go (l : list obj) := match l with
                                         | nil => True
                                         | i :: r => (forall l', i <> OList l') /\ plain_lists i /\ go r
                                         end) l
  | _ => True
  end.
(** No tag is empty in the sense of None. *)
Fixpoint no_none (o : obj) : Prop :=
  match o with
  | ONone => False
  | OTag _ _ _ c => no_none c
  | OList l => (fix go (l : list obj) := match l with nil => True | i :: r => no_none i /\ go r end) l
  | OStr _ => True
  end.

(** The shape of a tree: everything but the identities and contexts of tags. *)
Fixpoint shape (o : obj) : obj :=
  match o with
  | OTag _ cls _ c => OTag 0 cls 0 (shape c)
  | OList l => OList (map shape l)
  | _ => o
  end.
(** The identities and the contexts of all tags. *)
Definition tag_ids (o : obj) : list nat := map (fun t => match t with OTag id _ _ _ => id | _ => 0 end) (tags_of o).
Definition tag_contexts (o : obj) : list nat := map (fun t => match t with OTag _ _ ctx _ => ctx | _ => 0 end) (tags_of o).
Definition tag_classes (o : obj) : list nat := map (fun t => match t with OTag _ cls _ _ => cls | _ => 0 end) (tags_of o).

(** The text of a tree. *)
Fixpoint text_of (o : obj) : str :=
  match o with
  | OStr s => s
  | ONone => nil
  | OTag _ _ _ c => text_of c
  | OList l => concat (map text_of l)
  end.

(** The text of a parsed content: tags are replaced by the text in them. *)
Fixpoint plain_text (c : content) : str :=
  match c with
  | Text s => s
  | Tag _ _ c' => plain_text c'
  | Items l => concat (map plain_text l)
  end.

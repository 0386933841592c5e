(** Model of the captions of figures and tables, which may be inside of each other:
    /repo/src/disseminate/tags/figs.py, table.py and caption.py *)
From Coq Require Import List Bool NArith.
From Verif.Base Require Import Str Dict Result.
From Verif.Model Require Import Labels AutoLabels.
Import ListNotations.

(** figs.py:11-46 [BaseFigure] and table.py:10-39 [BaseTable], with their subclasses *)
Inductive holder := Figure | Table.
(** figs.py:39, table.py:32 *)
Definition kind_of (k : holder) : list str :=
  match k with Figure => [lit "caption"; lit "figure"] | Table => [lit "caption"; lit "table"] end.
(** A caption, with its attribute id and its text (captions inside of captions are not
    modelled), or another tag, which may be a figure or a table, with its attribute id *)
Inductive tag := Cap (id : option str) (text : str) | Node (h : option holder) (id : option str) (content : list tag).
(** caption.py:35-36: a caption with its attribute id and its kind *)
Record cap := { cp_id : option str; cp_text : str; cp_kind : option holder }.

Section Captions.
(** [hashtxt] (utils/string.py:13-17) *)
Variable hashtxt : str -> str.
(** label.py:162-173 [create_label] of a caption, with caption.py:51-66: the caption, and
    the label that is added to the manager.  [label_id] comes from the figure or table. *)
Definition create_label (k : holder) (label_id : option str) (c : cap) : cap * (str * list str) :=
  let i := caption_id hashtxt label_id {| c_id := cp_id c; c_text := cp_text c |} in
  ({| cp_id := Some i; cp_text := cp_text c; cp_kind := Some k |}, (i, kind_of k)).
(** figs.py:34-46, table.py:27-39: [attributes.pop('id', None)] for every caption *)
Fixpoint transfer (k : holder) (id : option str) (captions : list cap) : list cap * list (str * list str) :=
  match captions with
  | nil => (nil, nil)
  | c :: r =>
      let '(c, l) := create_label k id c in
      let '(r, ls) := transfer k None r in
      (c :: r, l :: ls)
  end.
(** The creation of a tag (tag.py:96-103, figs.py:28-46, table.py:19-39): the tags of its
    content are created first.  The captions in it, in order (tag.py:165-206 [flatten]), as
    they are then, and the labels in the order in which they are added. *)
Fixpoint create (t : tag) : list cap * list (str * list str) :=
  match t with
  | Cap id text => ([{| cp_id := id; cp_text := text; cp_kind := None |}], nil)
  | Node h id content =>
      let captions := concat (map (fun t => fst (create t)) content) in
      let labels := concat (map (fun t => snd (create t)) content) in
      match h with
      | None => (captions, labels)
      | Some k => let '(c, l) := transfer k id captions in (c, labels ++ l)
      end
  end.
(** label.py:111-114: the labels are added to the label manager of the document *)
Definition load (sep : option str) (doc_id : str) (t : tag) (m : manager) : result manager :=
  add_labels sep doc_id (snd (create t)) m.
End Captions.

(** Model of the titles and the labels of documents: /repo/src/disseminate/document/document.py,
    /repo/src/disseminate/document/receivers/process_document_label.py and
    /repo/src/disseminate/label_manager/receivers.py *)
From Coq Require Import List Bool Arith NArith.
From Verif.Base Require Import Str Dict Result PurePath.
From Verif.Model Require Import TagTree Labels.
Import ListNotations.

(** An entry of the context that is used as a title: a text, or a tag with its content.  Other values
    (numbers, lists) are not modelled. *)
Inductive entry := EText (s : str) | ETag (content : obj).

(** document.py:126-129 and 139-142: the text of an entry.  [default_fmt] is that of the base class of tags;
    a content that gives no text has no strip. *)
Definition entry_text (e : entry) : result str :=
  match e with
  | EText s => Ok s
  | ETag c => do o <- default_fmt c ; match o with OStr s => Ok (strip s) | _ => Raise AttributeError end
  end.

(** document.py:120-131 [title]; [sub] is the path of the source file in the project *)
Definition title (ctx : dict str entry) (sub : path) : result str :=
  match lookup (lit "title") ctx with
  | Some e => entry_text e
  | None => do p <- with_suffix sub nil ; Ok (path_str p)
  end.

(** document.py:133-145 [short] *)
Definition short (ctx : dict str entry) (sub : path) : result str :=
  match lookup (lit "short") ctx with
  | Some e => entry_text e
  | None => title ctx sub
  end.

(** A document that is loaded: its source file, its doc_id and level, the entries of its context after
    process_headers (order 1000), and the labels its tags make in process_tags (order 10000): their ids, kinds and
    titles.  The entries are the same when the label is made (order 1100) *)
Record source := Src {
  d_sub : path; d_id : str; d_level : nat; d_ctx : dict str entry; d_tags : list (str * list str * str) }.

(** The label manager with the titles of its labels (Labels.v has none), by object number *)
Record state := State { st_m : manager; st_titles : dict nat str }.
Definition new_state : state := State new_manager [].

Section Load.
Variable slugify : str -> str.
(** label_sep in the contexts *)
Variable sep : option str.

(** label_manager.py:176-194 [add_content_label, add_document_label] *)
Definition add_titled (id : str) (kind : list str) (content : bool) (t doc : str) (st : state) : result unit * state :=
  let '(r, m) := add_label id (Some kind) content sep (Some doc) (st_m st) in
  match r with
  | Ok l => (Ok tt, State m (set (l_uid l) t (st_titles st)))
  | Raise e => (Raise e, State m (st_titles st))
  end.

(** tags/label.py:111-114 for the tags of a document, one after the other *)
Fixpoint add_tags (doc : str) (tags : list (str * list str * str)) (st : state) : result unit * state :=
  match tags with
  | nil => (Ok tt, st)
  | (id, kind, t) :: r =>
      let '(x, st) := add_titled id kind true t doc st in
      match x with Ok _ => add_tags doc r st | Raise e => (Raise e, st) end
  end.

(** process_document_label.py:18-25 *)
Definition document_label_id (sub : path) : str := lit "doc:" ++ slugify (path_str sub).
Definition document_kind (level : nat) : list str := [lit "document"; lit "document-level-" ++ str_of_nat level].

(** process_document_label.py:8-29 [process_document_label] *)
Definition process_document_label (s : source) (st : state) : result unit * state :=
  match short (d_ctx s) (d_sub s) with
  | Raise e => (Raise e, st)
  | Ok t => add_titled (document_label_id (d_sub s)) (document_kind (d_level s)) false t (d_id s) st
  end.

(** document.py:387 with the receivers of document_onload that are about labels, in their order:
    label_manager/receivers.py:11-28 (order 1050), process_document_label (1100) and process_tags (10000).
    The label manager is that of the root document. *)
Definition load_labels (s : source) (st : state) : result unit * state :=
  let st := State (reset (Some [d_id s]) (st_m st)) (st_titles st) in
  let '(x, st) := process_document_label s st in
  match x with Ok _ => add_tags (d_id s) (d_tags s) st | Raise e => (Raise e, st) end.
End Load.

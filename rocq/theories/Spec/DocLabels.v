(** Titles and labels of documents (C79) *)
From Coq Require Import List Bool Arith NArith.
From Verif.Base Require Import Str Dict Result PurePath.
From Verif.Model Require Import TagTree Labels DocLabels.
From Verif.Spec Require Import TagTree Labels.
From Verif.Spec Require Context.
Import ListNotations.

(** ** What an entry says *)
(** [t] is [s] without the white space around it *)
Definition trimmed (s t : str) : Prop :=
  exists p q, s = p ++ t ++ q /\ (forall c, In c p \/ In c q -> is_space c = true) /\
    (forall c r, t = c :: r -> is_space c = false) /\ (forall c r, t = r ++ [c] -> is_space c = false).
(** [t] is what the entry [e] says: a text says itself, a tag says the text in it (C54), trimmed *)
Definition says (e : entry) (t : str) : Prop :=
  match e with
  | EText s => t = s
  | ETag c => plain_lists c /\ no_none c /\ trimmed (text_of c) t
  end.

(** ** Histories of a project: documents are loaded (again and again), and labels are looked up, with the documents
    that are in the project at that time *)
Inductive event := Load (s : source) | Query (e : env).
Definition do_event slugify sep (ev : event) (st : state) : state :=
  match ev with
  | Load s => snd (load_labels slugify sep s st)
  | Query e => State (register e (st_m st)) (st_titles st)
  end.
(** the state after a history, oldest first *)
Definition after slugify sep (h : list event) : state := fold_left (fun st ev => do_event slugify sep ev st) h new_state.

Definition in_project (e : env) (d : str) : Prop := match e_docs e with Some ds => In d ds | None => True end.
(** [s] is how the document was when it was last loaded, and it has been in the project since then *)
Definition current (h : list event) (s : source) : Prop :=
  exists a b, h = a ++ Load s :: b /\
    (forall s', In (Load s') b -> d_id s' <> d_id s) /\ (forall e, In (Query e) b -> in_project e (d_id s)).

(** The labels of a document, in their order *)
Definition labels_of (d : str) (st : state) : list label := filter (fun l => eqb (l_doc l) d) (values (m_labels (st_m st))).
Definition for_document (l : label) : Prop := exists ks, l_kind l = Some ks /\ In (lit "document") ks.
(** [l] is the label of the document [s] with the title [t] *)
Definition label_for slugify (st : state) (s : source) (t : str) (l : label) : Prop :=
  l_doc l = d_id s /\ l_id l = lit "doc:" ++ slugify (path_str (d_sub s)) /\
  l_kind l = Some [lit "document"; lit "document-level-" ++ str_of_nat (d_level s)] /\
  lookup (l_uid l) (st_titles st) = Some t.

(** The ids of the labels of documents have no separator, and no tag makes a label for a document *)
Definition usual slugify sep (h : list event) : Prop :=
  forall s, In (Load s) h -> names_label (sep_of sep) (lit "doc:" ++ slugify (path_str (d_sub s))) /\
    forall i k t, In (i, k, t) (d_tags s) -> ~ In (lit "document") k.

(** The entries [ctx] are those of the context [d], as far as they are texts *)
Definition reads (d : dict str Context.tree) (ctx : dict str entry) : Prop := forall k,
  (forall s, lookup k d = Some (Context.TS (Verif.Model.Context.SStr s)) -> lookup k ctx = Some (EText s)) /\ (lookup k d = None -> lookup k ctx = None).

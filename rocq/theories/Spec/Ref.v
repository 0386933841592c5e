(** Where the links of references lead (C63) *)
From Coq Require Import List Bool Arith NArith.
From Verif.Base Require Import Str Dict Result PurePath.
From Verif.Model Require Import Paths Labels Ref.
From Verif.Spec Require Import Paths Labels.
Import ListNotations.

(** What a browser takes as the anchor of a link: the part after the first '#' *)
Fixpoint url_anchor (u : str) : option str :=
  match u with nil => None | c :: r => if N.eqb c 35 then Some r else url_anchor r end.

(** In the page [page] the link [u] leads to [file] and, if given, to the anchor in
    it.  A link without a path leads to the page itself. *)
Definition leads_to (cwd : list str) (page : path) (u : str) (file : path) (anchor : option str) : Prop :=
  url_anchor u = anchor /\
  ((url_path u = nil /\ file = page) \/
   (url_path u <> nil /\ follow (location cwd (path_parent page)) (url_path u) = location cwd file)).

(** Names of files and directories without '?' and '#' *)
Definition plain_names (l : list str) : Prop := forall n, In n l -> n <> nil /\ n <> lit "." /\ ~ In 47%N n /\ ~ In 63%N n /\ ~ In 35%N n.

(** The labels of a project *)
Definition project_labels (e : env) (h : list op) : list label := values (m_labels (register e (run h))).

(** No other label has the id of [x] *)
Definition only_label (ls : list label) (x : label) : Prop := forall y, In y ls -> l_id y = l_id x -> y = x.

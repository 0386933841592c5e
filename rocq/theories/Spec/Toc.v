(** Headings of documents, and levels *)
From Coq Require Import List Bool Arith NArith.
From Verif.Base Require Import Str Dict Result.
From Verif.Model Require Import Attributes Labels Toc.
From Verif.Spec Require Import Labels.
Import ListNotations.

(** The labels of a document with a kind, in order *)
Definition labels_of (kind : str) (d : str) (ls : list label) : list label :=
  filter (fun l => eqb (l_doc l) d && mem kind (kinds_of l)) ls.

(** All of the current document, and the first of the others *)
Definition abbreviated (cur : option str) (per_document : str -> list label) (docs : list str) : list label :=
  flat_map (fun d => if eqb (Some d) cur then per_document d else firstn 1 (per_document d)) docs.

(** The headings, the highest first *)
Definition heading_names : list str :=
  [lit "title"; lit "part"; lit "chapter"; lit "section"; lit "subsection"; lit "subsubsection"].
(** The level of a label of the table: that of its heading; a label that is not a
    heading is at the level of the label before, and at level 1 if it is the first. *)
Inductive toc_level : list label -> nat -> Prop :=
| lev_heading before l ks k n : l_kind l = Some (ks ++ [k]) -> nth_error heading_names n = Some k -> toc_level (before ++ [l]) n
| lev_first l ks k : l_kind l = Some (ks ++ [k]) -> ~ In k heading_names -> toc_level [l] 1
| lev_other before x l ks k n : l_kind l = Some (ks ++ [k]) -> ~ In k heading_names -> toc_level (before ++ [x]) n -> toc_level (before ++ [x; l]) n.

(** Model of tables of contents: /repo/src/disseminate/tags/toc.py *)
From Coq Require Import List Bool Arith NArith.
From Verif.Base Require Import Str Dict Result.
From Verif.Model Require Import Attributes Labels.
Import ListNotations.

(** toc.py:143-160: the labels of an abbreviated table; [prev] is the document of
    the label before *)
Fixpoint abbreviate (cur prev : option str) (ls : list label) : list label :=
  match ls with
  | [] => []
  | l :: r =>
      let rest := abbreviate cur (Some (l_doc l)) r in
      if eqb (Some (l_doc l)) cur then l :: rest
      else if eqb (Some (l_doc l)) prev then rest else l :: rest
  end.

(** toc.py:111-162 [get_labels] for the words of the tag's content and the
    document of its context *)
Definition word (ws : list str) (w : str) : bool := mem w ws.
Definition get_labels (e : env) (ws : list str) (cur : option str) (m : manager) : result (list label) * manager :=
  let doc := if word ws (lit "all") then None else cur in
  let ask kind (m : manager) := get_labels_by_kind e doc [kind] m in
  let '(r1, m1) := if word ws (lit "heading") || word ws (lit "headings") then ask (lit "heading") m else (Ok [], m) in
  match r1 with
  | Raise x => (Raise x, m1)
  | Ok l1 =>
      let '(r2, m2) := if word ws (lit "document") || word ws (lit "documents") then ask (lit "document") m1 else (Ok [], m1) in
      match r2 with
      | Raise x => (Raise x, m2)
      | Ok l2 => (Ok (if word ws (lit "abbreviated") then abbreviate cur None (l1 ++ l2) else l1 ++ l2), m2)
      end
  end.

(** headings.py:10-11 *)
Definition toc_levels : list str :=
  [lit "title"; lit "part"; lit "chapter"; lit "section"; lit "subsection"; lit "subsubsection"].
(** toc.py:164-190 [reference_tags]: the id and level of each item.  A label
    whose kind is None or empty raises an error. *)
Fixpoint reference_tags (current : nat) (ls : list label) : result (list (str * nat)) :=
  match ls with
  | [] => Ok []
  | l :: r =>
      match l_kind l with
      | None => Raise TypeError
      | Some [] => Raise IndexError
      | Some (k0 :: ks) =>
          let k := last (k0 :: ks) [] in
          let level := if mem k toc_levels then index_of k toc_levels else current in
          do rest <- reference_tags level r ; Ok ((l_id l, level) :: rest)
      end
  end.

(** toc.py:207-218: the labels that the items of the html table link to; the id of
    an item is stripped (ref.py:75) *)
Definition html_labels (ls : list label) : list (option label) :=
  let by_id := fold_left (fun d l => set (l_id l) l d) ls [] in
  map (fun l => lookup (strip (l_id l)) by_id) ls.

(** Labels: what users rely on. *)
From Coq Require Import List Bool Arith NArith.
From Verif.Base Require Import Str Dict Result.
From Verif.Model Require Import Labels.
Import ListNotations.

(** ** Histories of a label manager *)
Inductive op :=
| OAdd (id : str) (kind : option (list str)) (content : bool) (sep doc : option str)
| OReset (doc_ids : option (list str))
| ORegister (e : env).
Definition do_op (o : op) (m : manager) : manager :=
  match o with
  | OAdd id kind content sep doc => snd (add_label id kind content sep doc m)
  | OReset ds => reset ds m
  | ORegister e => register e m
  end.
(** the manager after a history, oldest first *)
Definition run (h : list op) : manager := fold_left (fun m o => do_op o m) h new_manager.
Definition reachable (m : manager) : Prop := exists h, m = run h.

(** ** Identifiers *)
(** [id] names the label [l] of the document [d]: it is [d], the separator and
    [l], and there is no other way to read it. *)
Definition names_both (sep id d l : str) : Prop :=
  id = d ++ sep ++ l /\ forall a b, id = a ++ sep ++ b -> a = d /\ b = l.
(** [id] has no document *)
Definition names_label (sep id : str) : Prop := forall a b, id <> a ++ sep ++ b.

(** ** Numbers *)
(** The kinds are counted one by one in the order in which they are met:
    [met ls] for the labels [ls]. *)
Definition kinds_of (l : label) : list str := match l_kind l with Some ks => ks | None => [] end.
Definition met (ls : list label) : list str := flat_map kinds_of ls.

Definition resets_kind (resets : str -> list str) (k' k : str) : Prop := In k (resets k').

(** [number resets evs k n]: [n] is the number of times [k] has been met since
    the last time that a kind was met that resets [k]. *)
Definition number (resets : str -> list str) (evs : list str) (k : str) (n : nat) : Prop :=
  exists a b, evs = a ++ b /\
    (a = [] \/ exists a' k', a = a' ++ [k'] /\ resets_kind resets k' k) /\
    (forall k', In k' b -> ~ resets_kind resets k' k) /\
    n = length (filter (eqb k) b).

(** ** Enclosing headings *)
Inductive level := Part | Chapter | Section_ | Subsection | Subsubsection.
Definition depth (v : level) : nat :=
  match v with Part => 0 | Chapter => 1 | Section_ => 2 | Subsection => 3 | Subsubsection => 4 end.
Definition level_name (v : level) : str :=
  match v with
  | Part => lit "part" | Chapter => lit "chapter" | Section_ => lit "section"
  | Subsection => lit "subsection" | Subsubsection => lit "subsubsection"
  end.
(** the most specific kind says which heading a label is *)
Definition is_heading (v : level) (l : label) : Prop :=
  exists ks, l_kind l = Some (ks ++ [level_name v]).

(** [h] is the heading of level [v] that encloses the last label of [upto]: the
    last one of the level, provided that no heading of an outer (or the same)
    level came after it. *)
Definition encloses (upto : list label) (v : level) (h : label) : Prop :=
  exists a b, upto = a ++ h :: b /\ is_heading v h /\
    forall x w, In x b -> is_heading w x -> depth v < depth w.

Definition link (v : level) (l : label) : option nat :=
  match v with
  | Part => part_link (l_links l) | Chapter => chapter_link (l_links l)
  | Section_ => section_link (l_links l) | Subsection => subsection_link (l_links l)
  | Subsubsection => subsubsection_link (l_links l)
  end.

(** the list of content labels *)
Definition content (ls : list label) : list label := filter l_content ls.

(** What identifies a label for its user. *)
Definition ident (l : label) := (l_uid l, l_doc l, l_id l, l_kind l, l_content l).

(** The kinds that a kind resets, from the entry label_resets of the context. *)
Definition reset_by (e : env) (k : str) : list str :=
  match e_resets e with
  | Some r => match lookup k r with Some ks => ks | None => [] end
  | None => []
  end.

(** [n] is the number of the heading of level [v] around the last label of
    [upto]. *)
Definition heading_number (upto : list label) (v : level) (n : nat) : Prop :=
  exists h o, encloses upto v h /\ l_order h = Some (o ++ [n]).
Definition levels : list level := [Part; Chapter; Section_; Subsection; Subsubsection].

(** The documents in the order of their first mention. *)
Fixpoint first_mentions (ds : list str) : list str :=
  match ds with
  | [] => []
  | d :: r => d :: filter (fun x => negb (eqb x d)) (first_mentions r)
  end.

(** A label has one of the kinds. *)
Definition has_kind (kinds : list str) (l : label) : Prop :=
  exists ks k, l_kind l = Some ks /\ In k ks /\ In k kinds.

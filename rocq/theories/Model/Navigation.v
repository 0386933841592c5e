(** Model of the links to the previous and next documents:
    /repo/src/disseminate/tags/navigation.py *)
From Coq Require Import List Bool Arith NArith.
From Verif.Base Require Import Str Dict.
Import ListNotations.

(** A heading label: the document it is in, and a name for the label itself *)
Record label := { ldoc : str; lname : nat }.
(** A document: its id, the keys of its targets (document.py:160-174, a dict) and
    the entries of its context that are labels.  The weak references to labels
    are the labels: the labels are held by the label manager. *)
Record document := { did : str; targets : list str; entries : dict str label }.

(** navigation.py:24-34: ids of documents by target *)
Definition add_id (i : str) (m : dict str (list str)) (t : str) : dict str (list str) :=
  set t (match lookup t m with Some l => l ++ [i] | None => [i] end) m.
Definition ids_by_target (docs : list document) : dict str (list str) :=
  fold_left (fun m d => fold_left (add_id (did d)) (targets d) m) docs nil.

(** navigation.py:37-40: groupby and the first label of each group; a later
    group for the same document replaces the earlier one *)
Fixpoint firsts (prev : option str) (ls : list label) (m : dict str label) : dict str label :=
  match ls with
  | nil => m
  | l :: r => if eqb (Some (ldoc l)) prev then firsts prev r m else firsts (Some (ldoc l)) r (set (ldoc l) l m)
  end.

(** [doc_ids.index(doc_id)] *)
Fixpoint index (i : str) (ids : list str) : option nat :=
  match ids with
  | nil => None
  | j :: r => if eqb i j then Some 0 else option_map S (index i r)
  end.

(** navigation.py:60-76 for the position and one of the three entries *)
Inductive which := Prev | Curr | Next.
Definition wname (w : which) : str := match w with Prev => lit "prev" | Curr => lit "curr" | Next => lit "next" end.
Definition key (w : which) (t : str) : str := join (lit "_") [wname w; strip_c 46 t].
Definition rel (w : which) (p : option nat) : option nat :=
  match w, p with
  | _, None => None
  | Prev, Some 0 => None
  | Prev, Some (S n) => Some n
  | Curr, Some n => Some n
  | Next, Some n => Some (S n)
  end.
Definition set_entry (ids : list str) (by_id : dict str label) (t : str) (d : document) (e : dict str label) (w : which) : dict str label :=
  match match rel w (index (did d) ids) with
        | Some n => match nth_error ids n with Some i => lookup i by_id | None => None end
        | None => None
        end with
  | Some l => set (key w t) l e
  | None => remove (key w t) e
  end.
Definition set_document (ids : list str) (by_id : dict str label) (t : str) (d : document) : document :=
  {| did := did d; targets := targets d; entries := fold_left (set_entry ids by_id t d) [Prev; Curr; Next] (entries d) |}.

(** navigation.py:16-76 [set_navigation_labels] for the documents of
    [documents_list]; the second loop is over the targets of the last document *)
Definition set_navigation (docs : list document) (labels : list label) : list document :=
  let m := ids_by_target docs in
  let by_id := firsts None labels nil in
  let ts := match rev docs with d :: _ => targets d | nil => nil end in
  fold_left (fun ds t => match lookup t m with Some ids => map (set_document ids by_id t) ds | None => ds end) ts docs.

(** Model of /repo/src/disseminate/label_manager/ *)
From Coq Require Import List Bool Arith NArith.
From Verif.Base Require Import Str Dict Sort PyText Result.
From Verif.Model Require Import Attributes.
Import ListNotations.

(** label_manager/types/content_label.py:34-40: the weak references to the
    enclosing headings, by object number.  (document_label and title_label are
    never set by the label manager and are not modelled.) *)
Record links := Links {
  part_link : option nat; chapter_link : option nat; section_link : option nat;
  subsection_link : option nat; subsubsection_link : option nat }.
Definition no_links : links := Links None None None None None.

(** label_manager/types/label.py:6-57, content_label.py:14-45 and
    document_label.py: [l_uid] is the identity of the object, [l_content] is
    isinstance(label, ContentLabel).  Titles are not modelled. *)
Record label := Label {
  l_uid : nat; l_doc : str; l_id : str; l_kind : option (list str);
  l_content : bool; l_order : option (list nat); l_links : links }.

Notation label_key := (str * str)%type (only parsing).
Definition labels := dict label_key label.
Definition key_of (l : label) : label_key := (l_doc l, l_id l).
Definition values {K V} (d : dict K V) : list V := map snd d.

(** label_manager.py:54-77: the label manager; [next_uid] is the number of the
    next object *)
Record manager := Manager { m_labels : labels; m_registered : bool; next_uid : nat }.
Definition new_manager : manager := Manager [] false 0.

(** What is used of the root context: label_sep, label_resets and the document
    ids of the root document ([None]: there is no root document) *)
Record env := Env {
  e_sep : option str; e_resets : option (dict str (list str)); e_docs : option (list str) }.

(** settings.py: label_sep *)
Definition default_sep : str := lit "::".
Definition sep_of (sep : option str) : str := match sep with Some s => s | None => default_sep end.

(** label_manager.py:18-51 [parse_id] *)
Definition parse_id (sep : option str) (id : str) : option str * str :=
  match split_s (sep_of sep) id with
  | [d; l] => (Some d, l)
  | p :: _ => (None, p)
  | [] => (None, [])
  end.

(** ** register_orders.py *)

(** enumerate(l) *)
Fixpoint enumerate_from {A} (n : nat) (l : list A) : list (nat * A) :=
  match l with [] => [] | x :: r => (n, x) :: enumerate_from (S n) r end.

(** register_orders.py:36: comparison by (doc_ids.index(doc_id), count) *)
Definition reorder_leb (doc_ids : list str) (x y : nat * label) : bool :=
  let i := index_of (l_doc (snd x)) doc_ids in
  let j := index_of (l_doc (snd y)) doc_ids in
  if Nat.ltb i j then true else if Nat.eqb i j then Nat.leb (fst x) (fst y) else false.

(** register_orders.py:8-41 [reorder_and_purge_labels_by_doc_id] *)
Definition reorder (docs : option (list str)) (ls : labels) : labels :=
  let doc_ids := match docs with Some ds => ds | None => map l_doc (values ls) end in
  let filtered := filter (fun l => mem (l_doc l) doc_ids) (values ls) in
  let sorted := isort (reorder_leb doc_ids) (enumerate_from 0 filtered) in
  fold_left (fun d x => set (key_of (snd x)) (snd x) d) sorted [].

(** collections.Counter: a missing count is 0 *)
Definition count_of (c : dict str nat) (k : str) : nat :=
  match lookup k c with Some n => n | None => 0 end.

(** register_orders.py:95-105: the kinds of one label *)
Fixpoint number_kinds (resets : dict str (list str)) (c : dict str nat) (kinds : list str)
  : list nat * dict str nat :=
  match kinds with
  | [] => ([], c)
  | k :: r =>
      let c1 := set k (S (count_of c k)) c in
      let c2 := match lookup k resets with
                | Some ks => fold_left (fun d i => set i 0 d) ks c1
                | None => c1
                end in
      let '(ns, c3) := number_kinds resets c2 r in
      (count_of c2 k :: ns, c3)
  end.

Definition set_order (l : label) (o : list nat) : label :=
  Label (l_uid l) (l_doc l) (l_id l) (l_kind l) (l_content l) (Some o) (l_links l).

(** register_orders.py:88-107: the loop over the labels; labels without a kind
    are left alone.  The labels are objects that are changed in place. *)
Fixpoint order_loop (resets : dict str (list str)) (c : dict str nat) (ls : labels) : labels :=
  match ls with
  | [] => []
  | (k, l) :: r =>
      match l_kind l with
      | None => (k, l) :: order_loop resets c r
      | Some kinds =>
          let '(ns, c') := number_kinds resets c kinds in
          (k, set_order l ns) :: order_loop resets c' r
      end
  end.

(** register_orders.py:44-107 [register_orders] *)
Definition register_orders (e : env) (ls : labels) : labels :=
  let resets := match e_resets e with Some r => r | None => [] end in
  order_loop resets [] (reorder (e_docs e) ls).

(** ** register_content_labels.py *)

(** utils/classes.py:129-134 [weakattr.__set__]: None is ignored *)
Definition weak_set (old new : option nat) : option nat :=
  match new with Some _ => new | None => old end.

(** register_content_labels.py:40-70: the current headings after a label *)
Definition next_links (cur : links) (l : label) : links :=
  match l_kind l with
  | None | Some [] => cur
  | Some kinds =>
      let k := last kinds [] in
      if eqb k (lit "part") then Links (Some (l_uid l)) None None None None
      else if eqb k (lit "chapter") then Links (part_link cur) (Some (l_uid l)) None None None
      else if eqb k (lit "section") then Links (part_link cur) (chapter_link cur) (Some (l_uid l)) None None
      else if eqb k (lit "subsection") then
        Links (part_link cur) (chapter_link cur) (section_link cur) (Some (l_uid l)) None
      else if eqb k (lit "subsubsection") then
        Links (part_link cur) (chapter_link cur) (section_link cur) (subsection_link cur) (Some (l_uid l))
      else cur
  end.

(** register_content_labels.py:72-77 *)
Definition set_links (l : label) (c : links) : label :=
  let o := l_links l in
  Label (l_uid l) (l_doc l) (l_id l) (l_kind l) (l_content l) (l_order l)
    (Links (weak_set (part_link o) (part_link c)) (weak_set (chapter_link o) (chapter_link c))
           (weak_set (section_link o) (section_link c)) (weak_set (subsection_link o) (subsection_link c))
           (weak_set (subsubsection_link o) (subsubsection_link c))).

(** register_content_labels.py:7-77 [register_content_labels]: only content
    labels are looked at *)
Fixpoint content_loop (cur : links) (ls : labels) : labels :=
  match ls with
  | [] => []
  | (k, l) :: r =>
      if l_content l then
        let cur' := next_links cur l in (k, set_links l cur') :: content_loop cur' r
      else (k, l) :: content_loop cur r
  end.
Definition register_content (ls : labels) : labels := content_loop no_links ls.

(** ** label_manager.py *)

(** label_manager.py:79-99 [register]; the lock is local to the call and has no
    effect *)
Definition register (e : env) (m : manager) : manager :=
  if m_registered m then m
  else Manager (register_content (register_orders e (m_labels m))) true (next_uid m).

(** label_manager.py:101-120 [reset] *)
Definition reset (doc_ids : option (list str)) (m : manager) : manager :=
  match doc_ids with
  | None => Manager [] false (next_uid m)
  | Some ds =>
      let remove_keys := filter (fun k : label_key => mem (fst k) ds) (keys (m_labels m)) in
      Manager (fold_left (fun d k => remove k d) remove_keys (m_labels m)) false (next_uid m)
  end.

(** label_manager.py:122-174 [add_label].  [kind] is the kind after wrapping a
    string in a tuple (line 167).  The exception and the manager afterwards, or
    the label.  context.is_valid('doc_id') is an assertion. *)
Definition add_label (id : str) (kind : option (list str)) (content : bool)
    (ctx_sep ctx_doc : option str) (m : manager) : result label * manager :=
  let m0 := Manager (m_labels m) false (next_uid m) in
  let add doc label_id :=
    let key := (doc, label_id) in
    if has key (m_labels m) then (Raise DuplicateLabel, m0)
    else
      let l := Label (next_uid m) doc label_id kind content None no_links in
      (Ok l, Manager (set key l (m_labels m)) false (S (next_uid m))) in
  let '(doc_id, label_id) := parse_id ctx_sep id in
  match doc_id with
  | Some doc => add doc label_id
  | None => match ctx_doc with
            | Some doc => add doc label_id
            | None => (Raise OtherError, m0)
            end
  end.

(** label_manager.py:198-246 [get_label].  [ctx_sep]: label_sep of the given
    context, or of the root context *)
Definition get_label (e : env) (ctx_sep : option str) (id : str) (m : manager) : result label * manager :=
  let m' := register e m in
  let '(doc_id, label_id) := parse_id ctx_sep id in
  (match doc_id with
   | Some doc => match lookup (doc, label_id) (m_labels m') with
                 | Some l => Ok l
                 | None => Raise LabelNotFound
                 end
   | None => match find (fun kl => eqb (snd (fst kl)) label_id) (m_labels m') with
             | Some (_, l) => Ok l
             | None => Raise LabelNotFound
             end
   end, m').

(** label_manager.py:284-332 [get_labels_by_kind].  [kinds] is the list after
    lines 304-306.  [kind in label.kind] is a TypeError for a label whose kind is
    None. *)
Definition kind_in (kind : str) (l : label) : result bool :=
  match l_kind l with Some ks => Ok (mem kind ks) | None => Raise TypeError end.
Fixpoint filter_r {A} (f : A -> result bool) (l : list A) : result (list A) :=
  match l with
  | [] => Ok []
  | x :: r => do b <- f x ; do r' <- filter_r f r ; Ok (if b then x :: r' else r')
  end.
Fixpoint by_kinds (kinds : list str) (ls : list label) : result (list label) :=
  match kinds with
  | [] => Ok []
  | k :: r => do a <- filter_r (kind_in k) ls ; do b <- by_kinds r ls ; Ok (a ++ b)
  end.
Definition get_labels_by_kind (e : env) (doc_id : option str) (kinds : list str) (m : manager)
  : result (list label) * manager :=
  let m' := register e m in
  let ls := match doc_id with
            | Some d => filter (fun l => eqb (l_doc l) d) (values (m_labels m'))
            | None => values (m_labels m')
            end in
  (match kinds with [] => Ok ls | _ => by_kinds kinds ls end, m').

(** ** Numbers: label_manager/types/content_label.py *)

(** A weak reference: the object, if it still exists.  Simplification: a label
    exists exactly as long as it is in the manager. *)
Definition deref (ls : labels) (u : option nat) : option label :=
  match u with
  | Some n => find (fun l => Nat.eqb (l_uid l) n) (values ls)
  | None => None
  end.

(** content_label.py:5-11 [get_label_number]: [None] stands for the default '' *)
Definition label_number (l : option label) : option nat :=
  match l with
  | Some l => match l_order l with
              | Some (n :: ns) => Some (last (n :: ns) 0)
              | _ => None
              end
  | None => None
  end.

(** content_label.py:102-119 [tree_number]: empty strings and 0 are left out *)
Definition tree_number (ls : labels) (l : label) : str :=
  let k := l_links l in
  let numbers := map (fun u => label_number (deref ls u))
                   [part_link k; chapter_link k; section_link k; subsection_link k; subsubsection_link k] in
  join [46%N] (flat_map (fun n => match n with
                                  | Some (S n') => [str_of_nat (S n')]
                                  | _ => []
                                  end) numbers).

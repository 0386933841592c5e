(** Model of the labels that pages depend on: /repo/src/disseminate/tags/ref.py:15-40,
    /repo/src/disseminate/builders/builder.py, /repo/src/disseminate/builders/target_builders/target_builder.py and
    the texts and comparisons of /repo/src/disseminate/label_manager/types/ *)
From Coq Require Import List Bool Arith NArith.
From Verif.Base Require Import Str Dict Sort Result PurePath.
From Verif.Model Require Import ListUtils Hash Decider Paths Render TagTree Labels Builders.
Import ListNotations.

(** label.py:67-68: labels are compared by (doc_id, id); [sorted] only uses [__lt__], and this is [<=] *)
Definition label_leb (a b : label) : bool :=
  if eqb (l_doc a) (l_doc b) then str_leb (l_id a) (l_id b) else str_leb (l_doc a) (l_doc b).

Section Refs.
(** isinstance(t, Ref), by the class of a tag, and the attribute label_id, by the identity of a tag *)
Variables (is_ref : nat -> bool) (label_id : nat -> option str).

(** ref.py:27-28, and 31-32 (None is discarded): the ids of one value of the context *)
Definition ref_ids (tag : obj) : list str :=
  flat_map (fun t => match t with
                     | OTag id cls _ _ => if is_ref cls then match label_id id with Some i => [i] | None => nil end else nil
                     | _ => nil
                     end) (TagTree.flatten tag).
(** ref.py:22-32: the set of all ids.  The order of a set is arbitrary; it is that of the tags here, and plays no
    role as the labels are sorted. *)
Definition context_ids (values : list obj) : list str := uniq (flat_map ref_ids (filter is_tag values)).

(** label_manager.py:248-284 [get_labels_by_id] without a context *)
Fixpoint get_each (e : env) (m : manager) (ids : list str) : result (list label) :=
  match ids with
  | nil => Ok nil
  | i :: r => do l <- fst (get_label e (e_sep e) i m) ; do ls <- get_each e m r ; Ok (l :: ls)
  end.
Definition get_labels_by_id (e : env) (m : manager) (ids : list str) : result (list label) :=
  get_each e (register e m) ids.

(** ref.py:15-40 [add_ref_labels]; [values] are the values of the context, [lm] is the entry label_manager *)
Definition add_ref_labels (e : env) (lm : option manager) (values : list obj) : result (list label) :=
  match lm, context_ids values with
  | Some m, (_ :: _) as ids => do ls <- get_labels_by_id e m ids ; Ok (isort label_leb ls)
  | _, _ => Ok nil
  end.
End Refs.

(** builder.py:348-364 [get_parameters_from_signals]: what the receivers of the signal return, flattened and
    sorted.  add_ref_labels is the only receiver of ref_label_dependencies. *)
Definition parameters_from_signals (emitted : list (list label)) : list label := isort label_leb (concat emitted).

(** A parameter of a target builder: a path or a text, or a label *)
Inductive dep := DParam (p : param) | DLabel (l : label).
(** label.py:79-86 [__eq__, __ne__, __hash__], as they are used by sets: labels of different classes have different hashes
    (a hash is taken to be different for different objects) *)
Definition dep_eqb (a b : dep) : bool :=
  match a, b with
  | DParam x, DParam y => param_eqb x y
  | DLabel x, DLabel y => Bool.eqb (l_content x) (l_content y) && eqb (key_of x) (key_of y)
  | _, _ => false
  end.
(** utils/list.py:8-48 [uniq] *)
Fixpoint uniq_deps (seen : list dep) (l : list dep) : list dep :=
  match l with
  | nil => nil
  | d :: r => if existsb (dep_eqb d) seen then uniq_deps seen r else d :: uniq_deps (d :: seen) r
  end.

(** builder.py:290-297 [Builder.parameters]; [own] is _parameters *)
Definition builder_parameters (own : list dep) (ls : list label) : list dep := uniq_deps nil (own ++ map DLabel ls).
(** target_builder.py:88-97: the parameters a target builder of the class [cls] is made with when none are given *)
Definition target_own (cls : str) (src : xpath) : list dep :=
  [DParam (PText (lit "build '" ++ cls ++ lit "'")); DParam (PPath src)].
(** builder.py:148-151 and 366-371 [scan_parameters], when the builder is made: its parameters then are those it keeps,
    with the labels [ls] of that time; [scan] is the scanner of the environment, which only reads paths *)
Definition target_made (scan : list dep -> list param) (cls : str) (src : xpath) (ls : list label) : list dep :=
  let ps := builder_parameters (target_own cls src) ls in uniq_deps nil (ps ++ map DParam (scan ps)).
(** target_builder.py:53 and builder.py:290-297: the parameters of a target builder that was made when the labels were [ls0] *)
Definition target_parameters (scan : list dep -> list param) (cls : str) (src : xpath) (ls0 ls : list label) : list dep :=
  builder_parameters (target_made scan cls src ls0) ls.

Section Texts.
(** The titles of labels *)
Variable title : label -> option str.

(** label.py:48-65 [Label.__repr__] and content_label.py:46-50 [ContentLabel.__repr__]; labels of documents
    (document_label.py) have the former *)
Definition kind_text (ks : list str) (os : list nat) : str :=
  join (lit ", ") (map (fun ko => fst ko ++ lit "[" ++ str_of_nat (snd ko) ++ lit "]") (combine ks os)).
Definition label_text (l : label) : str :=
  let cls := if l_content l then lit "ContentLabel" else lit "DocumentLabel" in
  let kind := match l_kind l, l_order l with
              | Some ks, Some os => lit ", kind: " ++ kind_text ks os
              | _, _ => nil
              end in
  let head := cls ++ lit "(doc_id: '" ++ l_doc l ++ lit "', id: '" ++ l_id l ++ lit "'" ++ kind in
  match l_content l, title l with
  | true, Some t => head ++ lit " title: '" ++ t ++ lit "')"
  | _, _ => head ++ lit ")"
  end.
(** utils_hash.py:33-45: what is hashed of a parameter; a label is neither a path nor bytes, so that it is its text *)
Definition dep_item (d : dep) : item :=
  match d with DParam p => param_item p | DLabel l => IText (label_text l) end.

(** builder.py:277-287 and sequential_builder.py:38: what the decider is asked for a target builder by
    target_builders/receivers.py:139-151 (Document.build_needed) *)
Definition target_inputs (scan : list dep -> list param) (cls : str) (src : xpath) (ls0 ls : list label) : list item :=
  inputs_of (map dep_item (target_parameters scan cls src ls0 ls)) (lit "sequential build").

(** target_builder.py:115-135: the target builder of a page with its sub-builders: the builders [files] of its
    dependencies, and the one that renders the page (jinja_render.py:158-188, see Model/Render.v), with the
    parameters [rendered].  JinjaRender has a method [parameters] of its own, that does not ask for parameters from
    signals.  Only the status of the latter is used here: its method [build] is not that of commands. *)
Definition render_leaf (id : nat) (rendered : list param) (o : path) : leaf :=
  {| lid := id; lkind := Command; active := true; params := map param_item rendered; action := lit "render"; out := o |}.
Definition target_builder (scan : list dep -> list param) (cls : str) (src : xpath) (ls0 ls : list label)
    (files : list builder) (id : nat) (rendered : list param) (o : path) : builder :=
  Comp {| parallel := false; clear_done := false; cparams := map dep_item (target_parameters scan cls src ls0 ls);
          caction := lit "sequential build"; cout := o |}
    [Comp {| parallel := true; clear_done := true; cparams := nil; caction := lit "parallel build"; cout := of_str nil |} files;
     Leaf (render_leaf id rendered o)].
End Texts.

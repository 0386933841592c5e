(** Model of the loading of documents and their sub-documents:
    /repo/src/disseminate/document/document.py and
    /repo/src/disseminate/document/document_context.py *)
From Coq Require Import List Bool Arith NArith.
From Verif.Base Require Import Str Dict Result PurePath.
Import ListNotations.

(** What is used of a source file: its time of modification, a name for its
    contents, the paths of the documents it includes
    (document_context.py:289-324 [includes]), and whether loading it raises no
    error.  [small] is that its size is at most that of the settings.  Templates
    are not modelled. *)
Record file := { fmtime : N; contents : N; fincludes : list path; small : bool; good : bool }.
Notation files := (dict path file).

(** A document.  [loaded] is '_succesfully_loaded'; the entry for the body is set
    whenever it is true.  [mtime] and [includes] are entries of the context, and
    [held] names the contents the context was loaded from.  [subs] is
    'subdocuments', an ordered dict of documents.  [parent] is the document of the
    parent context, which is held by a weak reference: it is taken here to live
    as long as the document.  The level of documents is not modelled. *)
Record doc := { src : path; loaded : bool; mtime : option N; held : option N; includes : list path; subs : dict path nat; parent : option nat }.
(** Documents are named by the order of their creation; [loads] are the sources
    of the documents that were read, the last first. *)
Record heap := { docs : dict nat doc; loads : list path }.

Definition set_doc (i : nat) (d : doc) (h : heap) : heap := {| docs := set i d (docs h); loads := loads h |}.
Definition note_load (p : path) (h : heap) : heap := {| docs := docs h; loads := p :: loads h |}.
Definition set_subs (s : dict path nat) (d : doc) : doc :=
  {| src := src d; loaded := loaded d; mtime := mtime d; held := held d; includes := includes d; subs := s; parent := parent d |}.
Definition set_mtime (m : option N) (d : doc) : doc :=
  {| src := src d; loaded := loaded d; mtime := m; held := held d; includes := includes d; subs := subs d; parent := parent d |}.
Definition set_unloaded (d : doc) : doc :=
  {| src := src d; loaded := false; mtime := mtime d; held := held d; includes := includes d; subs := subs d; parent := parent d |}.
Definition upd (i : nat) (f : doc -> doc) (h : heap) : heap :=
  match lookup i (docs h) with Some d => set_doc i (f d) h | None => h end.

(** document.py:205-245 [documents_dict] with recursive=True and
    only_subdocuments=False.  [n] bounds the depth: sub-documents are created
    after the documents that have them, so that the number of documents is
    enough. *)
Definition merge (a b : dict path nat) : dict path nat := update a b.
Fixpoint doc_dict (n : nat) (h : heap) (i : nat) : dict path nat :=
  match n with
  | O => nil
  | S n' =>
      match lookup i (docs h) with
      | None => nil
      | Some d => fold_left (fun acc kv => merge acc (doc_dict n' h (snd kv))) (subs d) (set (src d) i nil)
      end
  end.
Definition documents_dict (h : heap) (i : nat) : dict path nat := doc_dict (S (length (docs h))) h i.

(** document.py:406-435 [_update_mtime] *)
Fixpoint bump (n : nat) (m : N) (h : heap) (i : nat) : heap :=
  match n with
  | O => h
  | S n' =>
      match lookup i (docs h) with
      | None => h
      | Some d =>
          let h := match mtime d with
                   | Some t => if N.ltb t m then set_doc i (set_mtime (Some m) d) h else h
                   | None => h
                   end in
          fold_left (fun h kv => bump n' m h (snd kv)) (subs d) h
      end
  end.
Definition update_mtime (h : heap) (i : nat) : heap :=
  match lookup i (docs h) with
  | Some d => match mtime d with Some m => bump (S (length (docs h))) m h i | None => h end
  | None => h
  end.

(** What a call gives: the documents after it, and its result *)
Notation out A := (heap * result A)%type.
Definition andthen {A B} (r : out A) (f : heap -> A -> out B) : out B :=
  match snd r with Ok a => f (fst r) a | Raise e => (fst r, Raise e) end.

Section Load.
Variable fs : files.
Variable root : nat.

(** document.py:312-344 [load_required] for a document whose file exists *)
Definition load_required (h : heap) (d : doc) (f : file) : bool :=
  negb (loaded d) ||
  match mtime d with
  | None => true
  | Some m =>
      N.ltb m (fmtime f) ||
      match parent d with
      | None => false
      | Some p => match lookup p (docs h) with
                  | Some pd => match mtime pd with Some pm => N.ltb m pm | None => false end
                  | None => false
                  end
      end
  end.

(** document.py:377-394 and the receivers of the signal 'document_onload'
    (receivers/reset.py:8-17 and the following): the context is reset, with the
    time of the file as its time, and read again.  An error leaves a document
    that is not loaded. *)
Definition read (i : nat) (d : doc) (f : file) (h : heap) : out unit :=
  if negb (small f) then (set_doc i (set_unloaded d) h, Raise OtherError)
  else if negb (good f) then
    (note_load (src d) (set_doc i {| src := src d; loaded := false; mtime := Some (fmtime f); held := None; includes := nil; subs := subs d; parent := parent d |} h), Raise OtherError)
  else
    (note_load (src d) (set_doc i {| src := src d; loaded := true; mtime := Some (fmtime f); held := Some (contents f); includes := fincludes f; subs := subs d; parent := parent d |} h), Ok tt).

(** document.py:76-101: a new document, before it is loaded *)
Definition new_doc (p : path) (par : option nat) : doc :=
  {| src := p; loaded := false; mtime := option_map fmtime (lookup p fs); held := None; includes := nil; subs := nil; parent := par |}.
Definition add_doc (p : path) (par : option nat) (h : heap) : nat * heap := (length (docs h), set_doc (length (docs h)) (new_doc p par) h).

(** document.py:449-516 [load_subdocuments], with [load] for the sub-documents;
    [ps] are the paths of the included documents that are left *)
Section Subs.
Variable load : nat -> heap -> out bool.
Variables (i : nat) (own : path) (root_dict subs_dict : dict path nat).
Definition add_sub (p : path) (e : nat) (h : heap) : heap := upd i (fun d => set_subs (set p e (subs d)) d) h.
Fixpoint load_each (ps : list path) (h : heap) : out bool :=
  match ps with
  | nil => (h, Ok false)
  | p :: r =>
      if eqb p own then load_each r h
      else match lookup p subs_dict with
           | Some e =>
               andthen (load e h) (fun h b =>
                 let h := match lookup e (docs h) with
                          | Some ed => if has own (subs ed) then h else add_sub p e h
                          | None => h
                          end in
                 andthen (load_each r h) (fun h b' => (h, Ok (b || b'))))
           | None =>
               if has p root_dict then load_each r h
               else
                 let '(e, h) := add_doc p (Some i) h in
                 andthen (load e h) (fun h _ =>
                   andthen (load_each r (add_sub p e h)) (fun h _ => (h, Ok true)))
           end
  end.
End Subs.

(** document.py:346-404 [load].  [n] is the depth of the calls that is left;
    beyond it Python raises RecursionError. *)
Fixpoint load (n : nat) (i : nat) (h : heap) : out bool :=
  match n with
  | O => (h, Raise RecursionError)
  | S n' =>
      match lookup i (docs h) with
      | None => (h, Raise OtherError)
      | Some d =>
          match lookup (src d) fs with
          | None => (h, Raise OtherError)
          | Some f =>
              let required := load_required h d f in
              andthen (if required then read i d f h else (h, Ok tt)) (fun h _ =>
                match lookup i (docs h) with
                | None => (h, Raise OtherError)
                | Some d =>
                    let root_dict := documents_dict h root in
                    let subs_dict := documents_dict h i in
                    let h := set_doc i (set_subs nil d) h in
                    andthen (load_each (load n') i (src d) root_dict subs_dict (includes d) h) (fun h b =>
                      (update_mtime h i, Ok (required || b)))
                end)
          end
      end
  end.
End Load.

(** document.py:67-104: the root document is created and loaded *)
Definition empty : heap := {| docs := nil; loads := nil |}.
Definition open_root (n : nat) (fs : files) (p : path) : out bool :=
  let '(i, h) := add_doc fs p None empty in load fs i n i h.

(** document.py:266-295 [documents_list] with recursive=True: the documents in order *)
Definition documents_list (h : heap) (i : nat) : list nat := map snd (documents_dict h i).
Definition sources (h : heap) (i : nat) : list path := map fst (documents_dict h i).

(** Model of /repo/src/disseminate/document/document_context.py: what a document's
    context has after a reset, its targets and the documents it includes *)
From Coq Require Import List Bool Arith NArith ZArith.
From Verif.Base Require Import Str Dict Result PurePath.
From Verif.Model Require Import StringUtils ListUtils Paths Context.
Import ListNotations.

(** None as the value of an entry *)
Definition SNone : scalar := SOpq 0 0.

(** What the reset reads from the document (document_context.py:131-145): a weak
    reference to it, its source file, its id and - when the file exists - the
    time the file was modified *)
Record document := {
  doc_ref : scalar;
  src_root : path;
  src_sub : path;
  doc_id : str;
  doc_mtime : option N
}.

Section Reset.
Variables (to_int : scalar -> result Z) (to_float : scalar -> result N) (lower : str -> str) (order : list str -> list str).
(** Paths as values of entries; equal paths are equal values.  str(v) for values
    that are no texts; the label manager made when there is none. *)
Variables (path_value : xpath -> scalar) (str_of_value : val -> str) (new_label_manager : scalar).

(** [self.get(key, None)], where an entry that is None counts as none *)
Definition get_entry (k : str) (d : dict str val) : option val :=
  match lookup k d with
  | Some v => if eqb_val v (VS SNone) then None else Some v
  | None => None
  end.

(** document_context.py:138-141: the value of the entry doc_id *)
Definition doc_id_value (doc : document) (d : dict str val) : str :=
  match get_entry (lit "doc_id") d with
  | None => doc_id doc
  | Some (VS (SStr s)) => s
  | Some v => str_of_value v
  end.

(** document_context.py:161: the level.  A level that is no integer is taken as a
    TypeError (adding to floats and booleans is not modelled). *)
Definition next_level (d : dict str val) : result Z :=
  match lookup (lit "level") d with
  | None => Ok 1%Z
  | Some (VS (SInt z)) => Ok (z + 1)%Z
  | Some _ => Raise TypeError
  end.

(** document_context.py:164-176: the list of paths is kept (as an object) *)
Definition reset_paths (doc : document) (x : addr) (h : list cell) : result (list cell) :=
  do d <- get_dict h x ;
  do ah <- match lookup (lit "paths") d with
           | None => let '(a, h) := alloc h (CList nil) in
                     do h <- set_entry h x (lit "paths") (VRef a) ; Ok (a, h)
           | Some (VRef a) => match nth_error h a with
                              | Some (CList _) => Ok (a, upd h a (CList nil))
                              | _ => Raise AttributeError
                              end
           | Some _ => Raise AttributeError
           end ;
  let '(a, h) := ah in
  do local <- source_path (src_root doc) (path_parent (src_sub doc)) ;
  let paths := [VS (path_value local)] in
  do d <- get_dict h x ;
  match lookup (lit "project_root") d with
  | None => Raise KeyError
  | Some r => Ok (upd h a (CList (if existsb (eqb_val r) paths then paths else paths ++ [r])))
  end.

(** document_context.py:125-176 [reset] *)
Definition reset_document (x : context) (doc : document) (h : list cell) : result (list cell) :=
  do h <- reset to_int to_float lower order DocumentContext x h ;
  do h <- set_entry h (self x) (lit "src_filepath") (VS (path_value (Source (src_root doc) (src_sub doc)))) ;
  do d <- get_dict h (self x) ;
  do h <- set_entry h (self x) (lit "doc_id") (VS (SStr (doc_id_value doc d))) ;
  do h <- match doc_mtime doc with
          | Some t => set_entry h (self x) (lit "mtime") (VS (SFloat t))
          | None => Ok h
          end ;
  do d <- get_dict h (self x) ;
  do h <- match get_entry (lit "root_document") d with
          | None =>
              do h <- set_entry h (self x) (lit "root_document") (VS (doc_ref doc)) ;
              set_entry h (self x) (lit "is_root_document") (VS (SBool true))
          | Some _ => set_entry h (self x) (lit "is_root_document") (VS (SBool false))
          end ;
  do d <- get_dict h (self x) ;
  do h <- match get_entry (lit "label_manager") d with
          | None => set_entry h (self x) (lit "label_manager") (VS new_label_manager)
          | Some _ => Ok h
          end ;
  do d <- get_dict h (self x) ;
  do z <- next_level d ;
  do h <- set_entry h (self x) (lit "level") (VS (SInt z)) ;
  reset_paths doc (self x) h.
End Reset.

(** A comprehension over a list whose items may raise an error *)
Fixpoint map_result {A B} (f : A -> result B) (l : list A) : result (list B) :=
  match l with
  | nil => Ok nil
  | x :: r => do y <- f x ; do ys <- map_result f r ; Ok (y :: ys)
  end.

(** document_context.py:203-238 [targets].  The items of lists are texts; other
    items are an AttributeError (an item like 0 or None, which is filtered out,
    is not modelled).  The set is a list without duplicates. *)
Definition as_text (v : val) : result str :=
  match v with VS (SStr s) => Ok s | _ => Raise AttributeError end.
Definition with_period (t : str) : str := if startswith t (lit ".") then t else lit "." ++ t.
Definition targets_entry (d : dict str val) : val :=
  match lookup (lit "target") d with
  | Some v => v
  | None => match lookup (lit "targets") d with
            | Some v => v
            | None => VS (SStr nil)
            end
  end.
Definition targets (h : list cell) (x : addr) : result (list str) :=
  do d <- get_dict h x ;
  do items <- to_list h (targets_entry d) ;
  if existsb (eqb_val (VS (SStr (lit "none")))) items then Ok nil
  else
    do names <- map_result as_text items ;
    Ok (uniq (map with_period (filter (fun t => negb (eqb t nil)) names))).

(** document_context.py:304-341 [includes] for a context whose source file is
    [sub] in [root] *)
Definition includes_entry (d : dict str val) : option val :=
  match lookup (lit "include") d with
  | Some v => Some v
  | None => lookup (lit "includes") d
  end.
Definition blank (line : str) : bool := forallb is_space line.
Definition includes (h : list cell) (x : addr) (root sub : path) : result (list xpath) :=
  do d <- get_dict h x ;
  match includes_entry d with
  | Some (VS (SStr s)) =>
      map_result (fun line => source_path root (path_join (path_parent sub) (of_str line)))
        (map strip (filter (fun line => negb (blank line)) (split_c 10%N s)))
  | _ => Ok nil
  end.

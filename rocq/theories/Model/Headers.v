(** Model of /repo/src/disseminate/document/receivers/process_headers.py: the header of a document and the
    contexts of templates *)
From Coq Require Import List Bool Arith NArith ZArith.
From Verif.Base Require Import Str Dict Result PurePath PyText.
From Verif.Model Require Import ListUtils StrToDict Context.
Import ListNotations.

(** process_headers.py:109 [_re_jinja2_extends] at a position: the name in quotes.  No quote is a
    space and no character of the name is a quote, so the repetitions do not go back. *)
Definition quote (c : char) : bool := N.eqb c 34 || N.eqb c 39.
Fixpoint run (f : char -> bool) (x : str) : str * str :=
  match x with
  | nil => (nil, nil)
  | c :: r => if f c then let '(a, b) := run f r in (c :: a, b) else (nil, x)
  end.
Definition extends_at (x : str) : option str :=
  match eat (lit "extends") x with
  | None => None
  | Some r =>
      match lstrip_p rx_space r with
      | q :: z =>
          if quote q then
            match run (fun c => negb (quote c)) z with
            | (n :: name, _ :: _) => Some (n :: name)
            | _ => None
            end
          else None
      | nil => None
      end
  end.
(** [_re_jinja2_extends.search(text)]: the first match *)
Fixpoint extends_of (x : str) : option str :=
  match extends_at x with
  | Some n => Some n
  | None => match x with nil => None | _ :: r => extends_of r end
  end.

Section Files.
(** The directories of module templates (settings.py:239), the directories and texts in the file
    system, and the texts of the files found by [glob('**/template*')] in a directory.  A directory
    with such a name (an IsADirectoryError) is not modelled. *)
Context (bases : list path) (is_dir : path -> bool) (text : path -> option str) (templates_in : path -> list str).

(** process_headers.py:78-106 [find_template_paths] *)
Definition find_template_paths (name : path) : list path :=
  uniq (fold_left (fun paths base =>
    let template_path := path_join base name in
    if is_dir template_path && negb (mem template_path paths) then template_path :: paths
    else if is_dir (path_parent template_path) && negb (mem (path_parent template_path) paths)
    then path_parent template_path :: paths
    else paths) bases nil).

(** process_headers.py:112-150 [find_jinja2_parent_templates] *)
Definition parent_name (name : str) : path := path_parent (path_parent (of_str name)).
Definition find_parent_templates (template_path : path) : list path :=
  uniq (flat_map (fun t =>
    match extends_of t with
    | None => nil
    | Some name =>
        if eqb (path_str (parent_name name)) (lit ".") then nil else find_template_paths (parent_name name)
    end) (templates_in template_path)).

(** process_headers.py:50-54 *)
Definition all_template_paths (name : path) : list path :=
  let ps := find_template_paths name in
  uniq (ps ++ flat_map find_parent_templates ps).

(** process_headers.py:153-185 [find_additional_context_filepaths], with the texts of the files *)
Definition is_file (p : path) : bool := match text p with Some _ => true | None => false end.
Definition context_file (template_path : path) : list path :=
  let a := path_join template_path (of_str (lit "context.txt")) in
  if is_file a then [a] else
  let b := path_join (path_parent template_path) (of_str (lit "context.txt")) in
  if is_file b then [b] else nil.
Definition find_additional_context_filepaths (template_paths : list path) : list path :=
  uniq (flat_map context_file template_paths).
Definition read_text (p : path) : str := match text p with Some t => t | None => nil end.

Section Contexts.
Context (to_int : scalar -> result Z) (to_float : scalar -> result N) (lower : str -> str) (order : list str -> list str).
(** Paths as values of lists *)
Context (pval : path -> scalar).
Notation texts d := (map (fun kv : str * str => (fst kv, VS (SStr (snd kv)))) d).

(** process_headers.py:36-43 *)
Fixpoint load_headers (x : addr) (header : context) (keys : list str) (h : list cell) : result (list cell) :=
  match keys with
  | nil => Ok h
  | key :: r =>
      do d <- get_dict h x ;
      match lookup key d with
      | Some (VS (SStr s)) =>
          let '(rest, e) := load_from_string s in
          do h <- set_entry h x key (match rest with Some t => VS (SStr t) | None => VS (SOpq 0 0) end) ;
          let '(b, h) := alloc h (CDict (texts e)) in
          do h <- match_update to_int to_float lower 5 nil true (self header) b None h ;
          load_headers x header r h
      | Some _ => Raise TypeError
      | None => Raise KeyError
      end
  end.
(** process_headers.py:64-65 *)
Fixpoint load_templates (t : context) (contexts : list str) (h : list cell) : result (list cell) :=
  match contexts with
  | nil => Ok h
  | s :: r => do p <- load to_int to_float lower BaseContext t s true true h ; load_templates t r (snd p)
  end.
(** process_headers.py:49: [header_context.get('template') or context.get('template')]; what is not
    a text cannot be joined to a path *)
Definition template_name (d header : dict str val) : result str :=
  match lookup (lit "template") header with
  | Some (VS (SStr (c :: s))) => Ok (c :: s)
  | _ => match lookup (lit "template") d with Some (VS (SStr s)) => Ok s | _ => Raise TypeError end
  end.

(** process_headers.py:14-75 [process_headers] *)
Definition process_headers (C : cls) (x : context) (h : list cell) : result (list cell) :=
  do d <- get_dict h (self x) ;
  do pa <- match lookup (lit "paths") d with
           | Some (VRef a) => match nth_error h a with Some (CList _) => Ok a | _ => Raise AssertionError end
           | _ => Raise AssertionError
           end ;
  let keys := order (find_header_entries (fun v => match v with VS (SStr s) => Some s | _ => None end) d) in
  do hc <- new_context to_int to_float lower order BaseContext nil None nil h ;
  let '(header, h) := hc in
  do h <- load_headers (self x) header keys h ;
  do d <- get_dict h (self x) ;
  do e <- get_dict h (self header) ;
  do name <- template_name d e ;
  let template_paths := all_template_paths (of_str name) in
  do tc <- new_context to_int to_float lower order BaseContext nil None nil h ;
  let '(template, h) := tc in
  do h <- load_templates template (map read_text (find_additional_context_filepaths (rev template_paths))) h ;
  do h <- match nth_error h pa with
          | Some (CList l) => Ok (upd h pa (CList (map (fun p => VS (pval p)) template_paths ++ l)))
          | _ => Raise AssertionError
          end ;
  do h <- match_update to_int to_float lower 5 (replace C) true (self x) (self template) None h ;
  match_update to_int to_float lower 5 (replace C) true (self x) (self header) None h.
End Contexts.
End Files.

(** Model of the preview server and of the list of dependencies: /repo/src/disseminate/server and
    /repo/src/disseminate/cli/setup/checkers.py *)
From Coq Require Import List Bool Arith NArith.
From Verif.Base Require Import Str Dict Result.
From Verif.Model Require Import Starters Checkers.
Import ListNotations.

(** ** The pages of files *)
(** CPython's [os.path.join(base, s)] and [os.path.abspath]; for a file system without links this is also the file that
    is opened for the path [s] in the directory [base].  (Simplification: a path that starts with exactly two slashes is
    taken as one that starts with one.) *)
Fixpoint resolve (acc : fpath) (parts : list str) : fpath :=
  match parts with
  | nil => acc
  | x :: r => if eqb x nil || eqb x (lit ".") then resolve acc r
              else if eqb x (lit "..") then resolve (removelast acc) r
              else resolve (acc ++ [x]) r
  end.
Definition abspath (base : fpath) (s : str) : fpath :=
  resolve (if startswith s (lit "/") then nil else base) (split_c 47%N s).

(** What is called for a request: server/urls.py:11-25.  The flag is that of reload_projects. *)
Inductive handler :=
| HTree | HCheckers | HSignals
| HMedia (path : str)
| HStatic (reload : bool) (path : str)
| HSource (reload : bool) (path : str).
Inductive response :=
| Page (h : handler)          (** A page of the server *)
| Body (s : str)              (** The contents of a file *)
| Highlighted (s : str)       (** The source of a file *)
| Error (status : nat).

Section Requests.
(** The decoding of the parts of addresses (tornado), the lexers for names of files and the formatting of sources
    (pygments) *)
Variables (unquote : str -> str) (lexer : str -> bool) (highlight : str -> str -> str).

(** server/urls.py:11-25: the first pattern that matches the path of a request, which has no newline.  Other paths
    are not found (server/app.py:20-25: default_handler_class). *)
Definition route (p : str) : option handler :=
  if eqb p (lit "/") then Some HTree
  else if eqb p (lit "/checkers") then Some HCheckers
  else if eqb p (lit "/signals") then Some HSignals
  else if startswith p (lit "/media/") then Some (HMedia (unquote (skipn 7 p)))
  else if startswith p (lit "/") then
    let q := skipn 1 p in
    if endswith q (lit ".dm") then Some (HSource false (unquote q))
    else if endswith q (lit ".tex") then Some (HSource true (unquote q))
    else if endswith q (lit ".html") || endswith q (lit ".epub") then Some (HStatic true (unquote q))
    else Some (HStatic false (unquote q))
  else None.

(** The file system, the current directory and the directory of media of the server (server/handlers/server.py:17-18) *)
Variables (f : fs) (cwd media : fpath).
(** tornado's StaticFileHandler.get: files below a directory *)
Definition static (root : fpath) (path : str) : response :=
  let p := abspath root path in
  match below root p with
  | None => Error 403
  | Some _ => match look f p with
              | Some (File s) => Body s
              | Some Dir => Error 403
              | None => Error 404
              end
  end.
(** server/handlers/pygmentize.py:16-26; an exception is an error 500 *)
Definition source (path : str) : response :=
  if lexer path then
    match look f (abspath cwd path) with
    | Some (File s) => Highlighted (highlight path s)
    | _ => Error 500
    end
  else Error 500.
(** server/app.py, server/handlers/static.py: the response to a request *)
Definition respond (p : str) : response :=
  match route p with
  | None => Error 404
  | Some (HMedia q) => static media q
  | Some (HStatic _ q) => static cwd q
  | Some (HSource _ q) => source q
  | Some h => Page h
  end.
End Requests.

(** ** The projects *)
(** server/handlers/projects.py:10-38: the documents in the store, and what is built.  [find] is the result of
    create_environments for the files at the time of the request. *)
Definition load_projects {D} (find : result (list D)) (store : option (list D)) : option (list D) * result (list D) :=
  match store with
  | Some l => (Some l, Ok l)
  | None => match find with
            | Ok l => (Some l, Ok l)
            | Raise e => (None, Raise e)
            end
  end.
(** The requests of a session, each with the projects that there are at its time: the projects that are shown and built *)
Fixpoint session {D} (store : option (list D)) (l : list (result (list D))) : list (result (list D)) :=
  match l with
  | nil => nil
  | find :: r => let '(st, o) := load_projects find store in o :: session st r
  end.

(** ** The tree of documents *)
(** What is used of a document: its title, its source, its targets with their files and its sub-documents *)
Inductive document := Doc (title src : str) (targets : dict str str) (subs : list document).
(** server/handlers/tree.py:20-64; the project root and the date are not modelled *)
Inductive item := Item (number level : nat) (title src : str) (targets : dict str str) (subs : list item).
Fixpoint tree_item (level number : nat) (d : document) : item :=
  match d with
  | Doc t s ts subs =>
      Item (if Nat.eqb level 1 then 1 else number) level t s ts
        ((fix go (n : nat) (l : list document) : list item :=
            match l with nil => nil | x :: r => tree_item (S level) n x :: go (S n) r end) 1 subs)
  end.
Fixpoint tree_items (level n : nat) (l : list document) : list item :=
  match l with nil => nil | x :: r => tree_item level n x :: tree_items level (S n) r end.
Definition tree_to_dict (docs : list document) : list item := tree_items 1 1 docs.

(** ** The page and the list of dependencies *)
Inductive status := SOk | SFail | SMissing | SUnknown.
(** server/handlers/checkers.py:31-40, cli/setup/checkers.py:28-36 *)
Definition status_of (required : bool) (d : dep) : status :=
  match available d with
  | Some true => SOk
  | Some false => if required then SFail else SMissing
  | None => SUnknown
  end.
(** server/handlers/checkers.py:24-78: level, status, name and what is below.  A list of the base class has no name
    and nothing below. *)
Inductive row := Row (level : nat) (st : status) (name : option str) (subs : list row).
Definition kind_required (k : kind) : bool := match k with KAll => true | _ => false end.
Fixpoint checker_to_dict (required : bool) (level : nat) (d : dep) : row :=
  match d with
  | Dep n _ => Row level (status_of required d) (Some n) nil
  | Group KPlain _ _ => Row level (status_of required d) None nil
  | Group k c l => Row level (status_of required d) (Some c) (map (checker_to_dict (kind_required k) (S level)) l)
  end.
(** server/handlers/checkers.py:11-22 *)
Definition checkers_page (l : list dep) : list row := map (checker_to_dict true 1) l.

(** cli/term.py:13-22 [fill_string] *)
Definition fill_string (start end_ : str) (spacer : char) (width : nat) : str :=
  start ++ repeat spacer (width - length start - length end_) ++ end_.
(** cli/setup/checkers.py:13-23 [print_single_check], without colors: the status is centered in 8 places *)
Definition center8 (s : str) : str :=
  let n := 8 - length s in repeat 32%N (n / 2) ++ s ++ repeat 32%N (n - n / 2).
Definition print_single_check (msg st : str) (spacer : char) (level : nat) : str :=
  fill_string (repeat 32%N (2 * level) ++ msg) (lit "[" ++ center8 st ++ lit "]  ") spacer 80.
Definition status_text (s : status) : str :=
  match s with SOk => lit "PASS" | SFail => lit "FAIL" | SMissing => lit "MISSING" | SUnknown => lit "UNKNOWN" end.
Definition status_spacer (s : status) : char := match s with SFail => 46%N | _ => 32%N end.
(** cli/setup/checkers.py:26-69 [print_dependencies]: the lines *)
Definition quoted (before name : str) : str := before ++ lit "'" ++ name ++ lit "'".
Fixpoint print_dependencies (required : bool) (level : nat) (d : dep) : list str :=
  let st := status_of required d in
  let line (msg : str) := print_single_check msg (status_text st) (status_spacer st) level in
  match d with
  | Dep n _ => [line (quoted (lit "Checking dependency ") n)]
  | Group KPlain _ _ => nil
  | Group KAll c l => line (quoted (lit "Checking required dependencies for ") c) :: flat_map (print_dependencies true (S level)) l
  | Group _ c l => line (quoted (lit "Checking alternative dependencies for ") c) :: flat_map (print_dependencies false (S level)) l
  end.
(** cli/setup/checkers.py:72-86 [print_checkers] *)
Definition print_checkers (l : list dep) : list str := flat_map (print_dependencies true 1) l.

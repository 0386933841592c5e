(** Names, extensions, locations and links *)
From Coq Require Import List Bool Arith NArith.
From Verif.Base Require Import Str Result PurePath.
From Verif.Model Require Import Paths.
Import ListNotations.

(** Paths as pathlib makes them: parts are not empty, not '.', and have no slash *)
Definition wf_path (p : path) : Prop := forall x, In x (parts p) -> x <> nil /\ x <> lit "." /\ ~ In 47%N x.

Definition no_slash (o : option str) : Prop := forall x, o = Some x -> ~ In 47%N x.

(** An extension: a dot and a text without dots and slashes *)
Definition is_ext (e : str) : Prop := exists x, e = 46%N :: x /\ x <> nil /\ ~ In 46%N x /\ ~ In 47%N x.

(** The path of a file within its directory of sources or targets *)
Definition sub_of (x : xpath) : path := match x with Plain p => p | Source _ s => s | Target _ _ s => s end.

(** To follow the text of a path from a directory: empty parts and '.' stay,
    '..' goes up, and other parts go down *)
Definition go (dir : list str) (x : str) : list str :=
  if eqb x nil || eqb x (lit ".") then dir else if eqb x (lit "..") then removelast dir else dir ++ [x].
Definition follow (dir : list str) (link : str) : list str := fold_left go (split_c 47%N link) dir.
(** Where a path is *)
Definition location (cwd : list str) (p : path) : list str := follow (if absolute p then nil else cwd) (path_str p).

(** What a browser takes as the path of a link: the part before '?' and '#' *)
Fixpoint url_path (u : str) : str :=
  match u with nil => nil | c :: r => if N.eqb c 63 || N.eqb c 35 then nil else c :: url_path r end.

(** The places where a path is looked for, in order: itself, that is, for a
    relative path, in the working directory; then for a relative path the paths of
    the context *)
Definition places (q : path) (ps : list xpath) : list path :=
  q :: if absolute q then nil else map (fun p => path_join (full p) q) ps.
(** As the constructors of paths make them, subpaths are not absolute *)
Definition made (x : xpath) : Prop := match x with Plain _ => True | _ => absolute (sub_of x) = false end.
(** The first place for which [f] is true *)
Definition first_of (f : path -> bool) (l : list path) (x : path) : Prop :=
  exists a b, l = a ++ x :: b /\ f x = true /\ forall y, In y a -> f y = false.

(** The files found for the lines of a text, in order *)
Inductive found_lines (find : str -> result xpath) : list str -> list xpath -> Prop :=
| found_nil : found_lines find nil nil
| found_yes l ls x xs : l <> nil -> find l = Ok x -> found_lines find ls xs -> found_lines find (l :: ls) (x :: xs)
| found_no l ls e xs : l = nil \/ find l = Raise e -> found_lines find ls xs -> found_lines find (l :: ls) xs.

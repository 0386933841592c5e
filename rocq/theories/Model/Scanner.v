(** Model of the search for referenced files: /repo/src/disseminate/builders/scanners *)
From Coq Require Import List Bool Arith NArith.
From Verif.Base Require Import Str Result PurePath PyText.
From Verif.Model Require Import Paths.
Import ListNotations.

(** ** html_scanner.py *)
Definition quote (c : char) : bool := N.eqb c 34 || N.eqb c 39.
(** html_scanner.py:13: quotes, spaces and braces *)
Definition opening (c : char) : bool := quote c || rx_space c || N.eqb c 123.
(** html_scanner.py:12-15 and 20-23 after the name of the attribute: the reference and the rest *)
Definition match_value (x : str) : option (str * str) :=
  first_match (fun p : str * str =>
    first_match (fun p : str * str =>
      first_match (fun p : str * str =>
        match snd p with
        | c :: r => if quote c then Some (fst p, r) else None
        | nil => None
        end) (star_lazy (fun c => negb (N.eqb c 10)) (snd p)))
      (plus_greedy opening (snd p)))
    (star_greedy rx_space x).
Definition match_attr (attr : str) (x : str) : option (str * str) :=
  match eat (attr ++ lit "=") x with Some r => match_value r | None => None end.
(** html_scanner.py:12-23 [_re_html_link] and [_re_html_img] at a position *)
Definition match_tag (tag attr : str) (x : str) : option (str * str) :=
  match eat (lit "<" ++ tag) x with
  | None => None
  | Some x =>
      first_match (fun p : str * str =>
        match first_match (fun q : str * str =>
                first_match (fun q => match_attr attr (snd q)) (plus_greedy rx_space (snd q)))
              (star_lazy (fun c => negb (N.eqb c 62)) (snd p)) with
        | Some r => Some r
        | None => match_attr attr (snd p)
        end) (plus_greedy rx_space x)
  end.
(** [finditer]: from left to right, without overlaps *)
Fixpoint find_iter (m : str -> option (str * str)) (fuel : nat) (x : str) : list str :=
  match fuel with
  | O => nil
  | S fuel =>
      match m x with
      | Some (g, r) => g :: find_iter m fuel r
      | None => match x with nil => nil | _ :: r => find_iter m fuel r end
      end
  end.
(** html_scanner.py:31-48 [scan_function] *)
Definition html_references (content : str) : list str :=
  filter (fun l => negb (contains l (lit "://")))
    (find_iter (match_tag (lit "link") (lit "href")) (S (length content)) content ++
     find_iter (match_tag (lit "img") (lit "src")) (S (length content)) content).

(** html_scanner.py:29 *)
Definition html_extensions : list str := [lit ".html"; lit ".htm"; lit ".xhtml"].

(** ** scanner.py *)
(** scanner.py:30-40 [get_scanner]: the only scanner is that for html *)
Definition scan_function (ext : str) : option (str -> list str) :=
  if mem ext html_extensions then Some html_references else None.

Section Scan.
Context (file : path -> option str).   (** the contents of files *)
Definition is_file (p : path) : bool := match file p with Some _ => true | None => false end.
(** scanner.py:92-99: the root and the directory of a file *)
Definition place (p : xpath) : path * path :=
  match p with
  | Plain p => (p, p)   (** never used *)
  | Source r s => (r, path_parent s)
  | Target r t s => (path_join r (of_str (strip_c 46%N t)), path_parent s)
  end.
(** scanner.py:101-117 *)
Definition find_stub (raise_error : bool) (root dir : path) (stub : str) : result xpath :=
  let stub := strip_c 47%N stub in
  do a <- source_path root (path_join dir (of_str stub)) ;
  do b <- source_path root (of_str stub) ;
  match filter (fun x => is_file (full x)) [a; b] with
  | x :: _ => Ok x
  | nil => if raise_error then Raise FileNotFoundError else Raise IndexError
  end.
Fixpoint find_stubs (raise_error : bool) (root dir : path) (stubs : list str) : result (list xpath) :=
  match stubs with
  | nil => Ok nil
  | s :: r => do x <- find_stub raise_error root dir s ; do y <- find_stubs raise_error root dir r ; Ok (x :: y)
  end.
(** scanner.py:60-118 [scan] for paths (other parameters, and pathlib's own paths, are skipped);
    paths without a subpath of their own (the parents of paths) are not modelled *)
Definition scan_one (raise_error : bool) (p : xpath) : result (list xpath) :=
  match p with
  | Plain _ => Ok nil
  | _ =>
      match scan_function (path_suffix (full p)), file (full p) with
      | Some f, Some content => let (root, dir) := place p in find_stubs raise_error root dir (f content)
      | _, _ => Ok nil
      end
  end.
Fixpoint scan (raise_error : bool) (ps : list xpath) : result (list xpath) :=
  match ps with
  | nil => Ok nil
  | p :: r => do x <- scan_one raise_error p ; do y <- scan raise_error r ; Ok (x ++ y)
  end.
End Scan.

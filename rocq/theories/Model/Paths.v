(** Model of /repo/src/disseminate/paths/utils.py, /repo/src/disseminate/paths/paths.py
    and the generation of output paths in /repo/src/disseminate/builders/utils.py *)
From Coq Require Import List Bool Arith NArith.
From Verif.Base Require Import Str Dict Result PurePath PyText.
Import ListNotations.

(** paths/utils.py:8-60 [rename] *)
Definition rename (p : path) (filename append extension : option str) : path :=
  let filename := match filename with None => path_stem p | Some f => f end in
  let filename := match append with None => filename | Some a => filename ++ a end in
  let extension := match extension with None => path_suffix p | Some e => e end in
  let extension := if startswith extension (lit ".") then extension else lit "." ++ extension in
  path_join (path_parent p) (of_str (filename ++ extension)).

(** paths.py:25-64 [SourcePath] and paths.py:121-169 [TargetPath]: a path with its
    parts, or a path of pathlib.  The root, the target and the subpath are paths
    or texts already converted to paths. *)
Inductive xpath :=
| Plain (p : path)
| Source (project_root subpath : path)
| Target (target_root : path) (target : str) (subpath : path).
(** paths.py:61 and paths.py:164: the path itself *)
Definition full (x : xpath) : path :=
  match x with
  | Plain p => p
  | Source r s => path_join r s
  | Target r t s => path_join (path_join r (of_str (strip_c 46%N t))) s
  end.

(** paths.py:40-64 and 139-169: the constructors *)
Definition source_path (root sub : path) : result xpath := if absolute sub then Raise AssertionError else Ok (Source root sub).
Definition target_path (root : path) (target : str) (sub : path) : result xpath :=
  if absolute sub then Raise AssertionError else Ok (Target root (strip_c 46%N target) sub).

(** paths.py:105-118 and 279-293 [use_subpath] *)
Definition use_subpath (x : xpath) (sub : path) : result xpath :=
  match x with
  | Plain _ => Raise AttributeError
  | Source r _ => source_path r sub
  | Target r t _ => target_path r t sub
  end.

(** builders/utils.py:93-175 [generate_outfilepath].  [cache_path], [target_root]
    and [media_path] are those of the environment. *)
Definition generate_outfilepath (cache_path target_root : path) (media_path : option str) (parameters : list xpath)
    (target append ext : option str) (use_cache use_media : bool) : result (option xpath) :=
  match parameters with
  | nil => Ok None
  | x :: _ =>
      let root := if use_cache then cache_path else target_root in
      let media := if use_media then media_path else None in
      let target :=
        match target with
        | Some t => strip_c 46%N t
        | None => match x with Target _ t _ => t | _ => nil end
        end in
      let sub := match x with Plain p => p | Source _ s => s | Target _ _ s => s end in
      let sub := if absolute sub then of_str (path_name sub) else sub in
      let sub :=
        match media with
        | Some (c :: m) =>
            if startswith (path_str sub) (c :: m) then rename sub None append ext
            else rename (path_join (of_str (c :: m)) sub) None append ext
        | _ => rename sub None append ext
        end in
      do y <- target_path root target sub ; Ok (Some y)
  end.

(** os.path.normpath of an absolute path, and os.path.abspath, on the parts of
    paths.  [cwd] is the working directory. *)
Definition norm_step (acc : list str) (c : str) : list str :=
  if eqb c (lit "..") then removelast acc else acc ++ [c].
Definition abs_parts (cwd : list str) (p : path) : list str :=
  fold_left norm_step (if absolute p then parts p else cwd ++ parts p) nil.

(** os.path.relpath (posixpath) *)
Fixpoint common (a b : list str) : nat :=
  match a, b with
  | x :: a', y :: b' => if eqb x y then S (common a' b') else O
  | _, _ => O
  end.
Definition relpath (cwd : list str) (p start : path) : str :=
  let s := abs_parts cwd start in
  let l := abs_parts cwd p in
  let i := common s l in
  match repeat (lit "..") (length s - i) ++ skipn i l with
  | nil => lit "."
  | r => join (lit "/") r
  end.

(** paths.py:12: substitution of '//' that does not follow ':' ([prev] is the
    character before) *)
Fixpoint dbl_slash (prev : option char) (s : str) : str :=
  match s with
  | nil => nil
  | c :: r =>
      match r with
      | d :: r' =>
          if N.eqb c 47 && N.eqb d 47 && negb (match prev with Some x => N.eqb x 58 | None => false end)
          then 47%N :: dbl_slash (Some 47%N) r'
          else c :: dbl_slash (Some c) r
      | nil => [c]
      end
  end.
Definition clean_url (u : str) : str := dbl_slash None (rstrip_p (N.eqb 47) u).

(** paths.py:179-228 [get_url] with relative links; [d] is the target file path
    of the document of the context *)
Definition relative_url (cwd : list str) (x : xpath) (d : path) : str :=
  clean_url (relpath cwd (full x) (path_parent d)).

(** paths.py:179-196 and 230-241 [get_url] without a document and with the
    default base url *)
Definition absolute_url (x : xpath) (target : option str) : str :=
  match x with
  | Target r t s =>
      let t := strip_c 46%N (match target with Some (c :: u) => c :: u | _ => path_str (of_str t) end) in
      clean_url (lit "/" ++ t ++ lit "/" ++ strip_c 46%N (path_str s))
  | _ => nil
  end.

(** paths/utils.py:100-175 [find_file] with raise_error=True.  [is_file] says
    which paths are files; errors of the operating system are not modelled. *)
Section FindFile.
Variable is_file : path -> bool.
Definition candidate (p : xpath) (q : path) : result xpath :=
  match p with
  | Plain r => Ok (Plain (path_join r q))
  | Source _ s => use_subpath p (path_join s q)
  | Target _ _ s => use_subpath p (path_join s q)
  end.
Fixpoint search (ps : list xpath) (q : path) : result xpath :=
  match ps with
  | nil => Raise FileNotFoundError
  | p :: r => do x <- candidate p q ; if is_file (full x) then Ok x else search r q
  end.
Definition find_file (q : path) (ps : list xpath) : result xpath :=
  if is_file q then Ok (Plain q)
  else if absolute q then Raise FileNotFoundError
  else search (Plain (of_str (lit ".")) :: ps) q.
(** for a text: its first line *)
Definition first_line (s : str) : path := of_str (match splitlines (strip s) with l :: _ => l | nil => nil end).
Definition find_text (s : str) (ps : list xpath) : result xpath := find_file (first_line s) ps.

(** paths/utils.py:63-97 [find_files] *)
Definition find_files (s : str) (ps : list xpath) : list xpath :=
  flat_map (fun l => match l with
                     | nil => nil
                     | _ => match find_text l ps with Ok x => [x] | Raise _ => nil end
                     end) (splitlines (strip s)).

(** paths/utils.py:178-220 [load_io_stream] for a text: the contents of the first
    file, or the text itself.  [read] gives the contents of files. *)
Definition load_text (read : path -> str) (s : str) (ps : list xpath) : str :=
  match find_files s ps with x :: _ => read (full x) | nil => s end.
End FindFile.

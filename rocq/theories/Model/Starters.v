(** Model of the command init, which copies a project starter: /repo/src/disseminate/cli/init.py *)
From Coq Require Import List Bool Arith NArith.
From Verif.Base Require Import Str Dict Result Sort PyText.
From Verif.Model Require Import StrToDict.
Import ListNotations.

(** A file system without links: the absolute paths (their parts) of directories and files.  Times and permissions,
    which copy2 also copies, are not modelled. *)
Notation fpath := (list str).
Inductive entry := Dir | File (s : str).
Definition fs := dict fpath entry.
(** What is at a path; the root directory always exists (CPython: [Path.is_dir], [Path.is_file]) *)
Definition look (f : fs) (p : fpath) : option entry := match p with nil => Some Dir | _ => lookup p f end.
(** [p.relative_to(q)] for a path below another *)
Fixpoint below (q p : fpath) : option fpath :=
  match q, p with
  | nil, nil => None
  | nil, _ => Some p
  | x :: q, y :: p => if eqb x y then below q p else None
  | _ :: _, nil => None
  end.
(** [q.glob('**/*')]: the paths below a directory, relative to it *)
Definition glob (f : fs) (q : fpath) : list fpath :=
  flat_map (fun e => match below q (fst e) with Some r => [r] | None => nil end) f.
(** CPython's [Path.mkdir(parents=True, exist_ok=True)], for the parts in reverse; an OSError is [OtherError] *)
Fixpoint mkdirs (f : fs) (r : list str) : result fs :=
  match r with
  | nil => Ok f
  | _ :: r' => match look f (rev r) with
               | Some Dir => Ok f
               | Some (File _) => Raise OtherError
               | None => do g <- mkdirs f r' ; Ok (set (rev r) Dir g)
               end
  end.
(** CPython's [shutil.copy2]: a file is copied into a destination that is a directory *)
Definition copy2 (f : fs) (src dst : fpath) : result fs :=
  let dst := match look f dst with Some Dir => dst ++ [last src nil] | _ => dst end in
  if eqb src dst then Raise OtherError
  else match look f src with
       | Some (File s) => match look f dst with
                          | Some Dir => Raise OtherError
                          | _ => match look f (removelast dst) with
                                 | Some Dir => Ok (set dst (File s) f)
                                 | _ => Raise OtherError
                                 end
                          end
       | _ => Raise OtherError
       end.

(** settings.py:231-232 *)
Definition starters_dir : str := lit "starters".
Definition desc_filename : str := lit "description.yaml".

(** init.py:63-67 [filepath_key]: the order of the number of parts and then of the parts *)
Fixpoint parts_leb (p q : fpath) : bool :=
  match p, q with
  | nil, _ => true
  | _ :: _, nil => false
  | x :: p, y :: q => if eqb x y then parts_leb p q else str_leb x y
  end.
Definition filepath_leb (p q : fpath) : bool :=
  if Nat.eqb (length p) (length q) then parts_leb p q else Nat.leb (length p) (length q).
(** init.py:70-79 [starter_path_to_name] *)
Definition starter_path_to_name (r : fpath) : str :=
  join (lit "/") (filter (fun x => negb (eqb x starters_dir) && negb (eqb x desc_filename)) r).
(** init.py:82-89 [starter_path_template_name] *)
Fixpoint index_of (x : str) (l : list str) : option nat :=
  match l with
  | nil => None
  | y :: r => if eqb y x then Some 0 else option_map S (index_of x r)
  end.
Definition starter_path_template_name (r : fpath) : result str :=
  match index_of starters_dir r with
  | Some n => Ok (join (lit "/") (firstn n r))
  | None => Raise ValueError
  end.
(** A starter: the entries of its description, and its directory (init.py:117-123) *)
Record starter := mkstarter { fields : dict str str; root : fpath }.
(** init.py:110-126 in [generate_starters_dict], for one description file [r] below the templates [tpl] *)
Definition read_starter (f : fs) (tpl r : fpath) : result (str * starter) :=
  match look f (tpl ++ r) with
  | Some (File s) =>
      let d := str_to_dict true s in
      do t <- starter_path_template_name r ;
      let d := set (lit "template") t d in
      match lookup (lit "description") d with
      | Some x => Ok (starter_path_to_name r, mkstarter (set (lit "description") (strip x) d) (tpl ++ removelast r))
      | None => Raise KeyError
      end
  | _ => Raise OtherError
  end.
(** init.py:92-128 [generate_starters_dict] *)
Definition generate_starters_dict (f : fs) (tpl : fpath) : result (dict str starter) :=
  fold_left (fun acc r => do d <- acc ; do e <- read_starter f tpl r ; Ok (set (fst e) (snd e) d))
    (filter (fun r => eqb (last r nil) desc_filename) (glob f tpl)) (Ok nil).
(** init.py:131-159 [starter_filepaths]: the files of a starter, relative to its directory.  (The keys of the dict are
    the texts of these paths and the values are the full paths.) *)
Definition is_file (f : fs) (p : fpath) : bool := match look f p with Some (File _) => true | _ => false end.
Definition starter_filepaths (f : fs) (root : fpath) : list fpath :=
  filter (fun r => negb (eqb (last r nil) desc_filename) && is_file f (root ++ r)) (glob f root).
(** init.py:162-199 [print_starters_list]: the names and the first lines of the descriptions; colors and the wrapping of
    lines are not modelled *)
Definition starters_list (d : dict str starter) : result (list (str * str)) :=
  match d with
  | nil => Raise ValueError
  | _ => fold_right (fun name acc =>
           match lookup name d with
           | Some s => match splitlines (match lookup (lit "description") (fields s) with Some x => x | None => nil end) with
                       | nil => Raise IndexError
                       | x :: _ => do l <- acc ; Ok ((name, x) :: l)
                       end
           | None => Raise KeyError
           end) (Ok nil) (isort str_leb (keys d))
  end.
(** init.py:256-266 [is_empty] *)
Definition is_empty (f : fs) (p : fpath) : bool :=
  match look f p with Some Dir => match glob f p with nil => true | _ => false end | _ => false end.
(** init.py:300-328 in [clone_starter]: the files are copied one after the other; the file system is that of the end or of
    the error *)
Fixpoint copy_files (f : fs) (root out : fpath) (l : list fpath) : fs * option exc :=
  match l with
  | nil => (f, None)
  | r :: l => match mkdirs f (rev (removelast (out ++ r))) with
              | Raise e => (f, Some e)
              | Ok g => match copy2 g (root ++ r) (out ++ r) with
                        | Raise e => (g, Some e)
                        | Ok h => copy_files h root out l
                        end
              end
  end.
(** What the command ends with *)
Inductive outcome :=
| Listed (l : list (str * str))
| Shown (files : list fpath)
| Stopped
| BadParameter
| Done
| Failed (e : exc).
(** init.py:269-328 [clone_starter]; [answer]: what the user answers to the question *)
Definition clone_starter (f : fs) (root out : fpath) (non_interactive answer : bool) : fs * outcome :=
  if negb non_interactive && negb (is_empty f out) && negb answer then (f, Stopped)
  else match starter_filepaths f root with
       | nil => (f, Failed ValueError)
       | l => match copy_files f root out (isort filepath_leb l) with
              | (g, None) => (g, Done)
              | (g, Some e) => (g, Failed e)
              end
       end.
(** init.py:34-60 [init]: the texts of the information on a starter (init.py:202-253) are not modelled, but the files
    listed are *)
Definition init (f : fs) (tpl : fpath) (names : list str) (out : fpath) (info show_list non_interactive answer : bool)
  : fs * outcome :=
  match generate_starters_dict f tpl with
  | Raise e => (f, Failed e)
  | Ok d =>
      match names, show_list with
      | nil, _ | _, true => match starters_list d with Ok l => (f, Listed l) | Raise e => (f, Failed e) end
      | name :: _, false =>
          match lookup name d with
          | None => (f, BadParameter)
          | Some s => if info then (f, Shown (isort filepath_leb (starter_filepaths f (root s))))
                      else clone_starter f (root s) out non_interactive answer
          end
      end
  end.

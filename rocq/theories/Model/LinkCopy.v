(** Model of [link_or_copy] in /repo/src/disseminate/utils/file.py *)
From Coq Require Import List Bool NArith.
From Verif.Base Require Import Str Dict Result.
Import ListNotations.

(** A file system: names of files with the device and the inode number, and the
    contents of inodes.  Symbolic links are left out. *)
Definition inode := (nat * nat)%type.
Record fs := { f_names : dict str inode; f_data : dict inode str }.

(** os.stat(name).st_ino *)
Definition st_ino (name : str) (s : fs) : option nat := option_map snd (lookup name (f_names s)).
(** os.remove; the contents stay for other names *)
Definition os_remove (name : str) (s : fs) : fs := {| f_names := remove name (f_names s); f_data := f_data s |}.

Section LinkOrCopy.
(** [dir_ok]: the directory of the name exists; [device]: the device of a
    name; [can_link]: the device has hard links; [fresh]: the inode number for a
    new file; [cut]: how the system writes contents in pieces *)
Variable dir_ok : str -> bool.
Variable device : str -> nat.
Variable can_link : nat -> bool.
Variable fresh : fs -> nat -> nat.
Variable cut : str -> list str.

(** os.link: none stands for OSError *)
Definition os_link (src dst : str) (s : fs) : option fs :=
  match lookup src (f_names s) with
  | Some (d, i) =>
      if dir_ok dst && eqb d (device dst) && can_link d && negb (has dst (f_names s))
      then Some {| f_names := set dst (d, i) (f_names s); f_data := f_data s |} else None
  | None => None
  end.

(** the states of a file that is written in pieces *)
Fixpoint write (i : inode) (done : str) (pieces : list str) (s : fs) : list fs :=
  match pieces with
  | nil => nil
  | p :: r => let s := {| f_names := f_names s; f_data := set i (done ++ p) (f_data s) |} in s :: write i (done ++ p) r s
  end.
(** shutil.copyfile: the states on the way, the first with an empty file.  It is
    used where no file [dst] exists. *)
Definition copyfile (src dst : str) (s : fs) : result (list fs) :=
  match lookup src (f_names s) with
  | None => Raise FileNotFoundError
  | Some n =>
      if dir_ok dst then
        let i := (device dst, fresh s (device dst)) in
        let s0 := {| f_names := set dst i (f_names s); f_data := set i nil (f_data s) |} in
        Ok (s0 :: write i nil (cut match lookup n (f_data s) with Some x => x | None => nil end) s0)
      else Raise FileNotFoundError
  end.

(** utils/file.py:42-73 [link_or_copy]: the states on the way, the last is the
    result; with an error the states before it. *)
Definition link_or_copy (src dst : str) (s : fs) : list fs * result unit :=
  match st_ino src s with
  | None => (nil, Raise FileNotFoundError)
  | Some src_inode =>
      let dst_inode := st_ino dst s in
      let dst_exists := match dst_inode with Some _ => true | None => false end in
      let dst_different := negb (eqb (Some src_inode) dst_inode) in
      if dst_exists && negb dst_different then (nil, Ok tt)
      else
        let s1 := if dst_exists && dst_different then os_remove dst s else s in
        match os_link src dst s1 with
        | Some s2 => ([s1; s2], Ok tt)
        | None =>
            match copyfile src dst s1 with
            | Ok ss => (s1 :: ss, Ok tt)
            | Raise e => ([s1], Raise e)
            end
        end
  end.
(** The state at the end *)
Definition final (s : fs) (r : list fs * result unit) : fs := last (fst r) s.
End LinkOrCopy.

(** A program that writes a file in place *)
Definition overwrite (name : str) (content : str) (s : fs) : fs :=
  match lookup name (f_names s) with
  | Some i => {| f_names := f_names s; f_data := set i content (f_data s) |}
  | None => s
  end.

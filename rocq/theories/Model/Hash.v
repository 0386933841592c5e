(** Model of /repo/src/disseminate/builders/deciders/utils_hash.py

    Bytes are numbers, and a hash is a function on the bytes given to it so far
    (hashobj.update appends).  Which function it is plays no role. *)
From Coq Require Import List Bool Arith NArith.
From Verif.Base Require Import Str Dict Sort Result PurePath.
Import ListNotations.

(** What is hashed: files, bytes and anything else by its text *)
Inductive item := IPath (p : path) | IBytes (b : str) | IText (s : str).

(** utils_hash.py:80-83: the loop that reads a file in chunks; [fuel] is more
    than the number of chunks *)
Fixpoint read_all (fuel chunk_size : nat) (rest acc : str) : str :=
  match fuel with
  | O => acc
  | S f => match firstn chunk_size rest with
           | nil => acc
           | chunk => read_all f chunk_size (skipn chunk_size rest) (acc ++ chunk)
           end
  end.

(** utils_hash.py:87-102 [line_splitter]: the lines it yields *)
Fixpoint line_splitter (fuel chunk_size : nat) (rest tail : str) : list str :=
  match fuel with
  | O => nil
  | S f =>
      match firstn chunk_size rest with
      | nil => match tail with nil => nil | _ => [tail] end
      | chunk =>
          match split_c 10%N (tail ++ chunk) with
          | nil => nil
          | first :: nil => line_splitter f chunk_size (skipn chunk_size rest) first
          | first :: lines => first :: removelast lines ++ line_splitter f chunk_size (skipn chunk_size rest) (last lines nil)
          end
      end
  end.

(** utils_hash.py:106: the starts of lines that are ignored *)
Definition stamps : list str := [lit "/CreationDate"; lit "/ModDate"; lit "/ID"].

Section Hash.
(** [hashfunc(b).digest()], [hashfunc(b).hexdigest()] and [str.encode()] *)
Variables (digest hexdigest encode : str -> str).

(** utils_hash.py:56-84 [hash_file] *)
Definition hash_file (chunk_size : nat) (content : str) : str :=
  digest (read_all (S (length content)) chunk_size content nil).

(** utils_hash.py:105-141 [hash_pdf] *)
Definition hash_pdf (chunk_size : nat) (content : str) : str :=
  digest (concat (filter (fun line => negb (existsb (startswith line) stamps))
                    (line_splitter (S (length content)) chunk_size content nil))).

(** utils_hash.py:33-45: the hash of one item.  A missing file is a
    FileNotFoundError. *)
Definition hash_item (chunk_size : nat) (files : dict path str) (i : item) : result str :=
  match i with
  | IPath p =>
      match lookup p files with
      | None => Raise FileNotFoundError
      | Some c => Ok (if eqb (path_suffix p) (lit ".pdf") then hash_pdf chunk_size c else hash_file chunk_size c)
      end
  | IBytes b => Ok (digest b)
  | IText s => Ok (digest (encode s))
  end.
Fixpoint hash_each (chunk_size : nat) (files : dict path str) (l : list item) : result (list str) :=
  match l with
  | nil => Ok nil
  | i :: r => do h <- hash_item chunk_size files i ; do hs <- hash_each chunk_size files r ; Ok (h :: hs)
  end.

(** utils_hash.py:8-53 [hash_items] *)
Definition hash_items (chunk_size : nat) (sort : bool) (files : dict path str) (items : list item) : result str :=
  do hs <- hash_each chunk_size files items ;
  Ok (hexdigest (concat (if sort then isort str_leb hs else hs))).
End Hash.

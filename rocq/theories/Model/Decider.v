(** Model of /repo/src/disseminate/builders/deciders/decider.py and
    /repo/src/disseminate/builders/deciders/md5decider.py *)
From Coq Require Import List Bool Arith NArith.
From Verif.Base Require Import Str Dict Sort Result PurePath.
From Verif.Model Require Import Hash.
Import ListNotations.

(** The files and the database of the decider (a diskcache, as a dictionary) *)
Record world := { files : dict path str; db : dict str str }.

Section Decider.
Variables (digest hexdigest encode : str -> str).

(** utils_hash.py:8: the default size of chunks *)
Definition default_chunk : nat := 4096.

(** [str(x)] of the items, for sorting.  The text of bytes is not modelled
    beyond being a text. *)
Variable bytes_str : str -> str.
Definition item_str (i : item) : str :=
  match i with IPath p => path_str p | IBytes b => bytes_str b | IText s => s end.

(** md5decider.py:45-51 [calculate_hash] *)
Definition calculate_hash (w : world) (inputs : list item) (output : path) : result (str * str) :=
  let sorted_inputs := isort (fun x y => str_leb (item_str x) (item_str y)) inputs in
  do a <- hash_items digest hexdigest encode default_chunk true (files w) sorted_inputs ;
  do b <- hash_items digest hexdigest encode default_chunk true (files w) [IPath output] ;
  Ok (a, b).

(** decider.py:26-57 [Decision.build_needed] (without the test that there are
    inputs): is a file missing? *)
Definition missing (w : world) (inputs : list item) (output : path) : bool :=
  negb (forallb (fun i => match i with IPath p => has p (files w) | _ => true end) inputs) || negb (has output (files w)).

(** md5decider.py:13-42 [Md5Decision.build_needed].  The output is a path. *)
Definition build_needed (w : world) (inputs : list item) (output : path) (reset : bool) : result (bool * world) :=
  match inputs with
  | nil => Raise AssertionError
  | _ =>
      if missing w inputs output then Ok (true, w) else
      do h <- calculate_hash w inputs output ;
      if reset then Ok (false, {| files := files w; db := set (fst h) (snd h) (db w) |})
      else Ok (negb (eqb (lookup (fst h) (db w)) (Some (snd h))), w)
  end.
End Decider.

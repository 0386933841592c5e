(** What the hashes of builders are hashes of *)
From Coq Require Import List Bool Arith NArith Permutation.
From Verif.Base Require Import Str Dict Result PurePath.
From Verif.Model Require Import Hash.
Import ListNotations.

(** A line of a pdf file with a time stamp or an identifier *)
Definition is_stamp (line : str) : Prop :=
  exists rest, line = lit "/CreationDate" ++ rest \/ line = lit "/ModDate" ++ rest \/ line = lit "/ID" ++ rest.

(** [pdf_text c t]: [t] is the text of the lines of [c] that are no stamps *)
Inductive lines_text : list str -> str -> Prop :=
| lt_nil : lines_text nil nil
| lt_stamp l ls t : is_stamp l -> lines_text ls t -> lines_text (l :: ls) t
| lt_keep l ls t : ~ is_stamp l -> lines_text ls t -> lines_text (l :: ls) (l ++ t).
Definition pdf_text (content text : str) : Prop := lines_text (split_c 10%N content) text.

(** [same_but_stamps c d]: line by line the same, but for stamps, of which there
    may be more or less *)
Inductive same_lines : list str -> list str -> Prop :=
| sl_nil : same_lines nil nil
| sl_keep l a b : same_lines a b -> same_lines (l :: a) (l :: b)
| sl_left l a b : is_stamp l -> same_lines a b -> same_lines (l :: a) b
| sl_right l a b : is_stamp l -> same_lines a b -> same_lines a (l :: b).
Definition same_but_stamps (c d : str) : Prop := same_lines (split_c 10%N c) (split_c 10%N d).

(** The bytes an item stands for, when the files are [files] *)
Inductive bytes_of (encode : str -> str) (files : dict path str) : item -> str -> Prop :=
| bo_file p c : lookup p files = Some c -> path_suffix p <> lit ".pdf" -> bytes_of encode files (IPath p) c
| bo_pdf p c t : lookup p files = Some c -> path_suffix p = lit ".pdf" -> pdf_text c t -> bytes_of encode files (IPath p) t
| bo_bytes b : bytes_of encode files (IBytes b) b
| bo_text s : bytes_of encode files (IText s) (encode s).

(** No two of the given texts have the same hash *)
Definition no_collision (hash : str -> str) (S : str -> Prop) : Prop :=
  forall x y, S x -> S y -> hash x = hash y -> x = y.

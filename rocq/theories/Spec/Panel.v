(** The lines of the tex of a panel. *)
From Coq Require Import List NArith Bool.
From Verif.Base Require Import Str.
From Verif.Spec Require Import StringUtils.
Import ListNotations.

(** [r] is the text [s] without its empty lines. *)
Definition without_empty_lines (s r : str) : Prop :=
  forall ls, pieces_of 10%N s ls -> pieces_of 10%N r (filter (fun l => negb (eqb l nil)) ls).
(** A panel with the argument [arg] of the environment and the content [x]. *)
Definition panel (arg x : str) : str :=
  lit "\begin{panel}{" ++ arg ++ lit "}" ++ [10%N] ++ x ++ [10%N] ++ lit "\end{panel}".
(** There are no two newlines in a row, which start a new paragraph in tex. *)
Definition no_empty_line (s : str) : Prop := forall a b, s <> a ++ [10%N; 10%N] ++ b.

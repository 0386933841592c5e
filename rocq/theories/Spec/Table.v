(** Tables as texts *)
From Coq Require Import List Bool Arith NArith.
From Verif.Base Require Import Str.
Import ListNotations.

Definition quote : char := 34%N.
(** The ways to write a cell: as it is, in quotes with its quotes doubled, and after
    spaces *)
Definition plain_cell (d : char) (c : str) : Prop :=
  (forall x, In x c -> x <> d /\ x <> 10%N /\ x <> 13%N /\ x <> 0%N) /\ forall x r, c = x :: r -> x <> quote /\ x <> 32%N.
Definition doubled (c : str) : str := flat_map (fun x => if N.eqb x quote then [quote; quote] else [x]) c.
Inductive written (d : char) (c : str) : str -> Prop :=
| w_plain : plain_cell d c -> written d c c
| w_quoted : ~ In 0%N c -> written d c (quote :: doubled c ++ [quote])
| w_space t : written d c t -> written d c (32%N :: t).
(** The text of a row is not empty. *)
Definition written_row (d : char) (row : list str) (t : str) : Prop :=
  exists ts, Forall2 (written d) row ts /\ t = join [d] ts /\ t <> [].
(** The rows on lines, the last with or without an end of line *)
Inductive written_table (d : char) : list (list str) -> str -> Prop :=
| wt_last row t : written_row d row t -> written_table d [row] t
| wt_nil : written_table d [] []
| wt_row row t rows x : written_row d row t -> written_table d rows x -> written_table d (row :: rows) (t ++ 10%N :: x).

Definition usable (d : char) : Prop := d <> 34%N /\ d <> 32%N /\ d <> 10%N /\ d <> 13%N /\ d <> 0%N.

(** The columns of a row of a tabular: the text between ampersands that are not
    escaped.  [esc]: an odd number of backslashes is before. *)
Fixpoint tex_columns (esc : bool) (cur x : str) : list str :=
  match x with
  | nil => [cur]
  | c :: r => if N.eqb c 38 && negb esc then cur :: tex_columns false nil r
              else tex_columns (N.eqb c 92 && negb esc) (cur ++ [c]) r
  end.
(** A text without the backslashes of its ampersands *)
Fixpoint unescaped (x : str) : str :=
  match x with
  | nil => nil
  | c :: r => match r with
              | d :: _ => if N.eqb c 92 && N.eqb d 38 then unescaped r else c :: unescaped r
              | nil => [c]
              end
  end.

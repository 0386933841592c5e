(** Descriptions on one line, and lists of receivers *)
From Coq Require Import List Bool ZArith NArith.
From Verif.Base Require Import Str.
Import ListNotations.

(** The characters of a text that are not white space *)
Definition inked (s : str) : str := filter (fun c => negb (rx_space c)) s.
Definition empty_line : str := [10%N; 10%N].
(** The part of [s] before its first empty line *)
Definition first_part (p s : str) : Prop :=
  (forall a b, p <> a ++ empty_line ++ b) /\ (s = p \/ exists r, s = p ++ empty_line ++ r).
